(** Property theorems: glacier actions (C26, C27, C28), exactness of dated land cover changes (part of C23). *)
From Verif Require Import Base BaseFacts LandCover LandCoverSpec LandCoverFacts GlacierActions GlacierSpec GlacierFacts GlacierWitness.
Open Scope R_scope.

(** *** C23 (continued) *)
(** An accepted change gives exactly the fraction asked for, and touches no cover but that one and the generic one; *)
Theorem c23_applied : forall u name f u' c, change_fraction u name f = (true, u') -> find_cover u name = Some c ->
  generic_cover u <> Some c ->
  cv_fraction (hu_cover u' c) = f /\ (forall i, i <> c -> generic_cover u <> Some i -> hu_cover u' i = hu_cover u i).
Proof. intros u n f u' c H F G. destruct (change_effect u n f u' c H F G) as (_ & _ & _ & A & B). auto. Qed.
Print Assumptions c23_applied.
(** ... a change within range is accepted as soon as the generic cover has room for it; *)
Theorem c23_room_accepted : forall u name f c g, fractions_ok u -> total_fraction u <= 1 ->
  find_cover u name = Some c -> generic_cover u = Some g -> g <> c ->
  0 <= f <= 1 -> f - cv_fraction (hu_cover u c) <= cv_fraction (hu_cover u g) ->
  exists u', change_fraction u name f = (true, u').
Proof. exact change_accepted. Qed.
Print Assumptions c23_room_accepted.
(** ... and a dated change sets the area it gives, up to the rounding of fractions within 1e-8 of 0 or 1. *)
Theorem c23_dated_area : forall id name area b b' c, land_cover_change id name area b = Ok b' ->
  find_cover (gu_covers (b id)) name = Some c -> generic_cover (gu_covers (b id)) <> Some c -> 0 < gu_area (b id) ->
  0 <= g_fraction b' name id <= 1 /\ Rabs (g_fraction b' name id * gu_area (b id) - area) <= PRECISION * gu_area (b id) /\
  (forall j, j <> id -> b' j = b j).
Proof. exact land_cover_change_effect. Qed.
Print Assumptions c23_dated_area.

(** *** C26 *)
(** In every state of a run, applying delta-h picks a row inside the table, gives extents between 0 and 1, and keeps the ice
    volume: exactly when the row changes, up to the relative error [d] of the initial extents otherwise ([d] = 0 when the
    initial extents are those of the table). *)
Theorem c26_ice_conserved : forall d T b last b' r, 0 <= d -> evolution d T (b, last) -> deltah_apply T (b, last) = Ok (b', r) ->
  (r < gt_rows T)%nat /\
  (forall i, In i (columns T) -> 0 <= g_fraction b' (gt_cover T) (unit_of T i) <= 1) /\
  (forall i, In i (columns T) -> 0 <= g_ice b' (gt_cover T) (unit_of T i)) /\
  Rabs (glacier_volume T b' - glacier_volume T b) <= d * glacier_volume T b /\
  (r <> last -> glacier_volume T b' = glacier_volume T b).
Proof.
  intros d T b last b' r Hd He H. destruct (evolution_inv T d _ Hd He) as (A & B & C & D). cbn [fst snd] in *.
  destruct (deltah_step T d b last b' r Hd A B C D H) as (E1 & _ & E3 & _ & _ & E6 & E7 & E8).
  split; [exact E1|]. split; [exact E6|]. split; [intros i Hi; apply (E3 i Hi)|]. split; [exact E7|exact E8].
Qed.
Print Assumptions c26_ice_conserved.
(** Exactly conserved when the initial extents are those of the first row. *)
Theorem c26_ice_conserved_exactly : forall T b last b' r, evolution 0 T (b, last) -> deltah_apply T (b, last) = Ok (b', r) ->
  glacier_volume T b' = glacier_volume T b.
Proof.
  intros T b last b' r He H. destruct (c26_ice_conserved 0 T b last b' r (Rle_refl 0) He H) as (_ & _ & _ & Q & _).
  rewrite Rmult_0_l in Q. apply Rabs_bounds in Q. lra.
Qed.
Print Assumptions c26_ice_conserved_exactly.
(** The extents follow the table: after every application they are those of the chosen row. *)
Theorem c26_extents : forall d T b last, 0 <= d -> evolution d T (b, last) -> extents_match d T last b.
Proof. intros d T b last Hd He. destruct (evolution_inv T d _ Hd He) as (_ & _ & _ & D). exact D. Qed.
Print Assumptions c26_extents.
(** No division by zero and no index outside the table. *)
Theorem c26_safe : forall d T b last, 0 <= d -> evolution d T (b, last) -> deltah_apply T (b, last) <> UB.
Proof.
  intros d T b last Hd He. destruct (evolution_inv T d _ Hd He) as (A & B & C & _). apply deltah_safe; assumption.
Qed.
Print Assumptions c26_safe.
(** Adding the action puts the ice volume of the first row (as water equivalent) in the basin and starts the evolution. *)
Theorem c26_initialised : forall T amin b b', 0 < amin -> glaciers_ready T b -> ice_sane T b -> table_suits T b ->
  (forall i, In i (columns T) -> amin <= gt_area T 0 i) -> evolution_init T (columns T) b = Ok b' ->
  evolution (PRECISION / amin) T (b', 0%nat) /\
  Rabs (glacier_volume T b' - row_volume T 0 * iceDensity) <= PRECISION / amin * (row_volume T 0 * iceDensity).
Proof.
  intros T amin b b' Hm A B C D H. destruct (init_start T amin b b' Hm A B C D H) as (E1 & E2 & E3 & E4 & E5).
  split; [constructor; assumption|exact E5].
Qed.
Print Assumptions c26_initialised.

(** Two units; half of the ice has melted; the second row of the table applies. *)
Example c26_case : evolution 0 gl_table (gl_basin 1800 1800, 0%nat) /\ evolution 0 gl_table (gl_melted, 0%nat) /\
  exists b', deltah_apply gl_table (gl_melted, 0%nat) = Ok (b', 1%nat).
Proof.
  assert (E : evolution 0 gl_table (gl_basin 1800 1800, 0%nat)).
  { constructor; [apply gl_ready|apply gl_sane; lra|apply gl_suits|apply gl_match]. }
  split; [exact E|]. split; [|exact gl_applies].
  apply evolution_melt with (gl_basin 1800 1800); [exact E| |apply gl_ready|apply gl_sane; lra].
  intros i Hi. cbn in Hi. destruct Hi as [<-|[<-|[]]]; cbn; auto.
Qed.

(** *** C27 *)
(** Area scaling keeps the ice volume of each unit (a volume below 1e-8 may be dropped), and gives each glacier an area of its
    column of the table, provided rows without area are reached only when the ice is gone.  Missing: see
    c27_zero_area_refuted. *)
Theorem c27_ice_conserved_partial : forall T b b', NoDup (gt_units T) ->
  (forall i, In i (columns T) -> let id := unit_of T i in gready b (gt_cover T) id /\ column_suits T b i) -> ice_sane T b ->
  scaling_apply T (columns T) b = Ok b' ->
  (forall id, ~ In id (gt_units T) -> b' id = b id) /\
  (forall i, In i (columns T) -> let id := unit_of T i in
     Rabs (g_volume b' (gt_cover T) id - g_volume b (gt_cover T) id) <= PRECISION /\
     (PRECISION < g_volume b (gt_cover T) id -> g_volume b' (gt_cover T) id = g_volume b (gt_cover T) id) /\
     (g_fraction b' (gt_cover T) id = g_fraction b (gt_cover T) id \/ g_fraction b' (gt_cover T) id = 0 \/
      exists r, (r < gt_rows T)%nat /\ g_fraction b' (gt_cover T) id * gu_area (b id) = gt_area T r i)).
Proof.
  intros T b b' Nd Hr Hs H.
  destruct (scaling_effect T (columns T) b b') as (A & B).
  - rewrite columns_units. exact Nd.
  - intros i Hi. destruct (Hr i Hi) as (X & Y). destruct (Hs i Hi) as (Z & W). cbn zeta in *. auto.
  - exact H.
  - rewrite columns_units in A. split; [exact A|exact B].
Qed.
Print Assumptions c27_ice_conserved_partial.
(** A table whose second of three rows already has no area: with 44 % of the ice left, the ice depth becomes a division by zero. *)
Theorem c27_zero_area_refuted : exists T b, glaciers_ready T b /\ ice_sane T b /\
  (forall i, In i (columns T) -> 40000 <= g_volume b (gt_cover T) (unit_of T i)) /\
  scaling_apply T (columns T) b = UB.
Proof.
  exists gl_gap_table, gl_half. split; [apply gl_ready|]. split; [apply gl_sane; lra|]. split; [|exact gl_gap].
  intros i Hi. cbn in Hi. destruct Hi as [<-|[<-|[]]]; unfold g_volume, g_fraction, g_ice; cbn; lra.
Qed.
Print Assumptions c27_zero_area_refuted.
Example c27_case : NoDup (gt_units gl_table) /\ ice_sane gl_table gl_melted /\
  forall i, In i (columns gl_table) -> gready gl_melted "glacier" (unit_of gl_table i) /\ column_suits gl_table gl_melted i.
Proof.
  split; [apply (gl_ready 0 0)|]. split; [apply gl_sane; lra|]. intros i Hi. split; [apply (gl_ready 1000 800); exact Hi|].
  cbn in Hi. unfold column_suits. rewrite PREC_val. destruct Hi as [<-|[<-|[]]]; cbn; (split; [lia|]); (split; [lra|]); split.
  - intros r [Hr | ->]; [destruct r as [|[|r]]; [lra|lra|lia]|lra].
  - intros r Hr. destruct r as [|[|[|r]]]; [| | |lia]; lra.
  - intros r [Hr | ->]; [destruct r as [|[|r]]; [lra|lra|lia]|lra].
  - intros r Hr. destruct r as [|[|[|r]]]; [| | |lia]; lra.
Qed.

(** *** C28 *)
(** On every unit with a glacier the snow becomes ice: the sum is kept, the snow is gone, nothing else changes. *)
Theorem c28_snow_to_ice : forall name ids b b', NoDup ids -> snow_to_ice name ids b = Ok b' ->
  (forall id, ~ In id ids -> b' id = b id) /\
  (forall id, In id ids ->
     rest_unchanged (b id) (b' id) name /\
     snow_of (b' id) name + ice_of (b' id) name = snow_of (b id) name + ice_of (b id) name /\
     (glacier_present (b id) name -> 0 <= snow_of (b id) name -> snow_of (b' id) name = 0)).
Proof. exact snow_all. Qed.
Print Assumptions c28_snow_to_ice.
(** The volume of snow plus ice over any set of units is unchanged. *)
Theorem c28_volume : forall name ids b b' all, NoDup ids -> snow_to_ice name ids b = Ok b' ->
  Rsum (fun id => g_fraction b' name id * gu_area (b' id) * (snow_of (b' id) name + ice_of (b' id) name)) all
  = Rsum (fun id => g_fraction b name id * gu_area (b id) * (snow_of (b id) name + ice_of (b id) name)) all.
Proof. intros name ids b b' all A B. exact (snow_total name ids b b' A B all). Qed.
Print Assumptions c28_volume.
(** It never fails on units whose cover is a glacier with finite ice. *)
Theorem c28_safe : forall name ids b, (forall id, In id ids -> gready b name id) -> NoDup ids -> exists b', snow_to_ice name ids b = Ok b'.
Proof. exact snow_runs. Qed.
Print Assumptions c28_safe.
Example c28_case : exists b', snow_to_ice "glacier" [7%nat; 9%nat] (gl_basin 1000 800) = Ok b' /\
  snow_of (b' 7%nat) "glacier" = 0 /\ ice_of (b' 7%nat) "glacier" = 1030 /\ ice_of (b' 9%nat) "glacier" = 810.
Proof. exact snow_case. Qed.
