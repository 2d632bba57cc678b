(** Vocabulary of the theorems about lateral snow transport. *)
From Verif Require Export Lateral DirectSpec.
Open Scope R_scope.

(** The process [p] of brick [B] sends snow laterally: its outputs are instantaneous fluxes to other units, its law gives the rates
    of the lateral process for [amount] (a function of the snow held), and its fluxes carry the weights set by the same call. *)
Record lateral_process (B : dbrick) (f : dlaw) (p : dproc) (o : lat_origin) (targets : list lat_out)
    (limit factor : R) (amount : (nat -> container) -> R) (s : dstate) : Prop := {
  lp_length : length (p_conns p) = length targets;
  lp_law : map (f (ds_cont s)) (p_conns p) = lat_rates limit factor (amount (ds_cont s)) targets;
  lp_flux : map (dconn_at B) (p_conns p)
            = map (fun t => mkDC OutsideInstant (lat_weight t)) (lat_fluxes o (amount (ds_cont s)) targets) }.

(** Receiving units are real (positive area), covers have a non-negative fraction, and the fluxes carry no land cover weight. *)
Definition targets_ok (targets : list lat_out) : Prop :=
  forall t, In t targets -> 0 < lo_area t /\ 0 <= lo_fraction t <= 1 /\ lo_cover t = 1.

(** Volume deposited: depth added to each receiving snowpack times the area it covers. *)
Fixpoint deposited (amount : nat -> R) (conns : list nat) (targets : list lat_out) : R :=
  match conns, targets with
  | k :: ks, t :: ts => amount k * (lo_area t * lo_fraction t) + deposited amount ks ts
  | _, _ => 0
  end.

(** The shares of the connections of a unit add up to at most one, each receiving unit being fully covered. *)
Definition shares_ok (targets : list lat_out) : Prop :=
  (forall t, In t targets -> 0 <= lo_weight t) /\ Rsum (fun t => lo_weight t * lo_fraction t) targets <= 1.

(** Nothing but the law decides what the process [p] releases: its store is not switched off, holds snow, no other process
    has a request pending on it, and the inputs of the step are in it. *)
Definition unhindered (B : dbrick) (inp : dinputs) (s : dstate) (p : dproc) : Prop :=
  i_blocked inp (p_cont p) = false /\ PRECISION < level (ds_cont s (p_cont p)) /\
  (forall k, In k (douts B (p_cont p)) -> ~ In k (p_conns p) -> ds_rate s k = 0) /\
  c_stat (ds_cont s (p_cont p)) <= dinputs_static B inp s (p_cont p).

(** A receiving snowpack is full: its depth exceeds one and a half times the maximum snow depth. *)
Definition overfull (limit factor : R) (t : lat_out) : Prop := 0 < limit /\ 3 / 2 * limit < lo_swe t * factor.

(** Snow depth (mm) a slope can hold: 1000 * coeff * slope^exp, never below the minimum holding depth, just that minimum above the
    maximum slope; slopes below the minimum slope count as the minimum slope. *)
Inductive held_by_slope (P : slide_param) (slope : R) : R -> Prop :=
| held_steep : sp_maxslope P < slope -> held_by_slope P slope (sp_minhold P)
| held a : slope <= sp_maxslope P -> (a = slope /\ sp_minslope P <= slope \/ a = sp_minslope P /\ slope < sp_minslope P) ->
    held_by_slope P slope (Rmax (1000 * sp_coeff P * Rpower a (sp_exp P)) (sp_minhold P)).
(** ... and never above the maximum snow depth, if there is one. *)
Definition holding (P : slide_param) (slope h : R) : Prop :=
  exists h0, held_by_slope P slope h0 /\ (0 < sp_maxdepth P -> h = Rmin h0 (sp_maxdepth P)) /\ (sp_maxdepth P <= 0 -> h = h0).

(** Frey & Holzmann: what is to be redistributed of [swe] mm of snow of density [rho] on a slope of [slope] degrees. *)
Inductive frey_wanted (P : frey_param) (rho slope swe : R) : R -> Prop :=
| frey_held : swe <= fp_hold P * rho / 1000 -> frey_wanted P rho slope swe 0
| frey_dense : fp_rhomax P <= rho -> frey_wanted P rho slope swe 0
| frey_moves : fp_hold P * rho / 1000 < swe -> rho < fp_rhomax P ->
    frey_wanted P rho slope swe
      (Rmin 1000 ((swe - fp_hold P * rho / 1000) * (1 - rho / fp_rhomax P) * exp (- (rho / fp_rhomax P)) * (slope / 90) * fp_correction P)).
