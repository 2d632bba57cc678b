(** Properties C70 (the results file) and C71 (values read from it). *)
From Coq Require Import Ascii String.
From Verif Require Import Base BaseFacts ClockFacts Results ResultsSpec ResultsFacts.
Open Scope R_scope.

(** C70. The file written after a run of at most as many steps as the period has: each cell (component, unit, time) is the value of the component in the
    state of that step; NaN if the unit does not have the component or the step was not reached.  The same for the sub-basin, the land covers and the dates. *)
Theorem c70_written : forall P times ids structures areas sub_labels sub_pt labels pt covers fractions_pt (run : list (R * P)),
  well_connected (length ids) sub_labels sub_pt labels pt covers fractions_pt -> (length run <= times)%nat ->
  exists r, record_rows run (init_containers times ids structures areas sub_labels sub_pt labels pt covers fractions_pt) = Ok r /\
  let f := write_results r in
  rf_times f = times /\ rf_units f = length ids /\ rf_ids f = ids /\ rf_structures f = structures /\ rf_areas f = areas /\
  rf_sub_labels f = sub_labels /\ rf_labels f = labels /\ rf_covers f = covers /\
  forall t, (t < times)%nat ->
    nth t (rf_time f) None = date_at run t /\
    (forall i, (i < length sub_labels)%nat -> rf_sub f i t = recorded run (nth i sub_pt None) t) /\
    (forall i u, (i < length labels)%nat -> (u < length ids)%nat -> rf_values f i u t = recorded run (pointer_of pt i u) t) /\
    (forall i u, (i < length covers)%nat -> (u < length ids)%nat -> rf_fractions f i u t = recorded run (pointer_of fractions_pt i u) t).
Proof.
  intros P times ids structures areas sub_labels sub_pt labels pt covers fractions_pt run W Hl.
  pose proof (init_in_shape times ids structures areas _ _ _ _ _ _ W) as Sh. set (r0 := init_containers _ _ _ _ _ _ _ _ _ _) in *.
  destruct (record_rows_spec times run r0 Sh Hl) as (r & E & Sh' & Su & Cu & KT & KS & KU & KF). destruct W as (W1 & W2 & W3 & W4 & W5 & W6).
  exists r. split; [exact E|]. destruct Sh' as (S1 & S2 & S3 & S4 & S5 & S6). destruct Su as (U1 & U2 & U3 & U4 & U5 & U6 & U7 & U8 & U9).
  unfold r0 in *. cbn [init_containers r_cursor r_time r_sub_labels r_sub_pt r_sub r_ids r_structures r_areas r_labels r_pt r_values r_covers r_fractions_pt r_fractions] in *.
  cbn zeta. unfold write_results. cbn [rf_times rf_units rf_ids rf_structures rf_areas rf_sub_labels rf_labels rf_covers rf_time rf_sub rf_values rf_fractions].
  rewrite U1, U3, U4, U5, U6, U8, S1. repeat (split; [reflexivity|]). intros t Ht.
  assert (O : forall (A : nat -> value) , (forall j, (length run <= j)%nat -> A j = None) -> over 0 run t (A (t - 0)%nat) None = A t).
  { intros A HA. unfold over. cbn [Nat.leb Nat.add andb]. rewrite Nat.sub_0_r. destruct (Nat.ltb_spec t (length run)); [reflexivity|]. symmetry. apply HA. assumption. }
  assert (ON : forall (q : pointer P) j, (length run <= j)%nat -> recorded run q j = None).
  { intros q j Hj. unfold recorded, state_at. rewrite (proj2 (nth_error_None run j) Hj). reflexivity. }
  assert (OK : forall (q : pointer P), over 0 run t (kept q (recorded run q (t - 0)) None) None = recorded run q t).
  { intros [g|]; cbn [kept]; [apply (O (recorded run (Some g))); apply ON|]. unfold over. destruct (_ && _)%bool; unfold recorded; destruct (state_at run t); reflexivity. }
  split; [|split; [|split]].
  - rewrite (KT t Ht), (nth_repeat (@None R : value)). apply (O (date_at run)).
    intros j Hj. unfold date_at. rewrite (proj2 (nth_error_None run j) Hj). reflexivity.
  - intros i Hi. rewrite (written_sub times); [|exact S4|rewrite <- S2, U2, W1; exact Hi|exact Ht]. rewrite (KS i t) by (rewrite ?W1; assumption).
    assert (Z0 : sub_cells (map (fun _ => repeat None times) sub_labels) i t = None).
    { clear. revert i. induction sub_labels as [|x l IH]; intros [|i]; unfold sub_cells in *; cbn [map nth]; [destruct t; reflexivity|destruct t; reflexivity|apply nth_repeat|apply IH]. }
    rewrite Z0. apply (O (recorded run (nth i sub_pt None))). apply ON.
  - intros i u Hi Hu. rewrite (written_cells times (length (r_ids r)) (r_pt r)); [|exact S5|rewrite U7, W2; exact Hi|rewrite U3; exact Hu|exact Ht].
    rewrite (KU i u t) by (rewrite ?W2; assumption). rewrite cells_nan. apply OK.
  - intros i u Hi Hu. rewrite (written_cells times (length (r_ids r)) (r_fractions_pt r)); [|exact S6|rewrite U9, W3; exact Hi|rewrite U3; exact Hu|exact Ht].
    rewrite (KF i u t) by (rewrite ?W3; assumption). rewrite cells_nan. apply OK.
Qed.
Print Assumptions c70_written.
(** A longer run would write outside the arrays. *)
Theorem c70_too_long : forall P times ids structures areas sub_labels sub_pt labels pt covers fractions_pt (run : list (R * P)),
  well_connected (length ids) sub_labels sub_pt labels pt covers fractions_pt -> (times < length run)%nat ->
  record_rows run (init_containers times ids structures areas sub_labels sub_pt labels pt covers fractions_pt) = UB.
Proof. intros P times ids structures areas sl sp l pt c fp run W H. apply (record_rows_too_many times); [apply init_in_shape; exact W|cbn; lia|exact H]. Qed.
Print Assumptions c70_too_long.

(** After a reset, a second run that reaches as many steps as the first leaves nothing of the first in the file. *)
Theorem c70_second_run : forall P times ids structures areas sub_labels sub_pt labels pt covers fractions_pt (run1 run2 : list (R * P)) r1,
  well_connected (length ids) sub_labels sub_pt labels pt covers fractions_pt -> (length run1 <= length run2)%nat -> (length run2 <= times)%nat ->
  record_rows run1 (init_containers times ids structures areas sub_labels sub_pt labels pt covers fractions_pt) = Ok r1 ->
  exists r2, record_rows run2 (reset_recorder r1) = Ok r2 /\
  forall t, (t < times)%nat -> nth t (rf_time (write_results r2)) None = date_at run2 t /\
    (forall i, (i < length sub_labels)%nat -> rf_sub (write_results r2) i t = recorded run2 (nth i sub_pt None) t) /\
    (forall i u, (i < length labels)%nat -> (u < length ids)%nat -> rf_values (write_results r2) i u t = recorded run2 (pointer_of pt i u) t) /\
    (forall i u, (i < length covers)%nat -> (u < length ids)%nat -> rf_fractions (write_results r2) i u t = recorded run2 (pointer_of fractions_pt i u) t).
Proof.
  intros P times ids structures areas sub_labels sub_pt labels pt covers fractions_pt run1 run2 r1 W H12 H2 E1.
  destruct (c70_written P times ids structures areas sub_labels sub_pt labels pt covers fractions_pt run1 W ltac:(lia)) as (r1' & E1' & K1). rewrite E1 in E1'. injection E1' as <-.
  cbn zeta in K1. destruct K1 as (_ & _ & _ & _ & _ & _ & _ & _ & K1).
  pose proof (init_in_shape times ids structures areas _ _ _ _ _ _ W) as Sh0. destruct (record_rows_spec times run1 _ Sh0 ltac:(cbn; lia)) as (r1' & E1' & Sh1 & Su1 & _). rewrite E1 in E1'. injection E1' as <-.
  assert (Sh : in_shape times (reset_recorder r1)) by exact Sh1.
  destruct (record_rows_spec times run2 (reset_recorder r1) Sh H2) as (r & E & Sh' & Su & Cu & KT & KS & KU & KF). destruct W as (W1 & W2 & W3 & W4 & W5 & W6).
  exists r. split; [exact E|]. destruct Sh' as (S1 & S2 & S3 & S4 & S5 & S6). destruct Sh1 as (T1 & T2 & T3 & T4 & T5 & T6).
  destruct Su as (U1 & U2 & U3 & U4 & U5 & U6 & U7 & U8 & U9). destruct Su1 as (V1 & V2 & V3 & V4 & V5 & V6 & V7 & V8 & V9).
  cbn [reset_recorder init_containers r_cursor r_time r_sub_labels r_sub_pt r_sub r_ids r_structures r_areas r_labels r_pt r_values r_covers r_fractions_pt r_fractions] in *.
  intros t Ht. destruct (K1 t Ht) as (K1T & K1S & K1U & K1F). clear K1.
  assert (ON : forall run (q : pointer P) j, (length run <= j)%nat -> recorded run q j = None).
  { intros run q j Hj. unfold recorded, state_at. rewrite (proj2 (nth_error_None run j) Hj). reflexivity. }
  assert (OC : forall (A B : nat -> value), (forall j, (length run2 <= j)%nat -> A j = None) -> (forall j, (length run1 <= j)%nat -> B j = None) -> over 0 run2 t (A (t - 0)%nat) (B t) = A t).
  { intros A B HA HB. unfold over. cbn [Nat.leb Nat.add andb]. rewrite Nat.sub_0_r. destruct (Nat.ltb_spec t (length run2)); [reflexivity|]. rewrite (HA t) by assumption. apply HB. lia. }
  assert (OK : forall (q : pointer P), over 0 run2 t (kept q (recorded run2 q (t - 0)) (recorded run1 q t)) (recorded run1 q t) = recorded run2 q t).
  { intros [g|]; cbn [kept]; [apply (OC (recorded run2 (Some g)) (recorded run1 (Some g))); apply ON|]. unfold over.
    replace (recorded run1 (@None (P -> R)) t) with (@None R) by (unfold recorded; destruct (state_at run1 t); reflexivity).
    replace (recorded run2 (@None (P -> R)) t) with (@None R) by (unfold recorded; destruct (state_at run2 t); reflexivity). destruct (_ && _)%bool; reflexivity. }
  unfold write_results in *. cbn [rf_time rf_sub rf_values rf_fractions] in *. split; [|split; [|split]].
  - rewrite (KT t Ht), K1T. apply (OC (date_at run2) (date_at run1)); intros j Hj; unfold date_at; rewrite (proj2 (nth_error_None _ j) Hj); reflexivity.
  - intros i Hi. rewrite (written_sub times); [|exact S4|rewrite <- S2, U2, V2, W1; exact Hi|exact Ht]. rewrite (KS i t) by (rewrite ?V2, ?W1; assumption).
    specialize (K1S i Hi). rewrite (written_sub times) in K1S; [|exact T4|rewrite <- T2, V2, W1; exact Hi|exact Ht]. rewrite K1S, V2.
    apply (OC (recorded run2 (nth i sub_pt None)) (recorded run1 (nth i sub_pt None))); apply ON.
  - intros i u Hi Hu. rewrite (written_cells times (length (r_ids r)) (r_pt r)); [|exact S5|rewrite U7, V7, W2; exact Hi|rewrite U3, V3; exact Hu|exact Ht].
    rewrite (KU i u t) by (rewrite ?V7, ?W2, ?V3; assumption). specialize (K1U i u Hi Hu).
    rewrite (written_cells times (length (r_ids r1)) (r_pt r1)) in K1U; [|exact T5|rewrite V7, W2; exact Hi|rewrite V3; exact Hu|exact Ht]. rewrite K1U, V7. apply OK.
  - intros i u Hi Hu. rewrite (written_cells times (length (r_ids r)) (r_fractions_pt r)); [|exact S6|rewrite U9, V9, W3; exact Hi|rewrite U3, V3; exact Hu|exact Ht].
    rewrite (KF i u t) by (rewrite ?V9, ?W3, ?V3; assumption). specialize (K1F i u Hi Hu).
    rewrite (written_cells times (length (r_ids r1)) (r_fractions_pt r1)) in K1F; [|exact T6|rewrite V9, W3; exact Hi|rewrite V3; exact Hu|exact Ht]. rewrite K1F, V9. apply OK.
Qed.
Print Assumptions c70_second_run.
(** But a second run that stops early (it failed) leaves the values of the first run in the rows it did not reach. *)
Theorem c70_early_stop_refuted : forall d1 d2 a b c area : R, exists r1 r2 : recorder R,
  record_rows [(d1, a); (d2, b)] (init_containers 2 [1%Z] [1%Z] [area] ["outlet"%string] [Some (fun x => x)] ["store:water_content"%string] [[Some (fun x => - x)]] [] []) = Ok r1 /\
  record_rows [(d1, c)] (reset_recorder r1) = Ok r2 /\
  rf_sub (write_results r2) 0 0 = Some c /\ rf_sub (write_results r2) 0 1 = Some b /\ rf_values (write_results r2) 0 0 1 = Some (- b).
Proof.
  intros d1 d2 a b c area.
  exists (mkRec 2 [Some d1; Some d2] ["outlet"%string] [Some (fun x => x)] [[Some a; Some b]] [1%Z] [1%Z] [area] ["store:water_content"%string] [[Some (fun x => - x)]] [mkM 2 1 [Some (- a); Some (- b)]] [] [] []).
  exists (mkRec 1 [Some d1; Some d2] ["outlet"%string] [Some (fun x => x)] [[Some c; Some b]] [1%Z] [1%Z] [area] ["store:water_content"%string] [[Some (fun x => - x)]] [mkM 2 1 [Some (- c); Some (- b)]] [] [] []).
  repeat (split; [reflexivity|]). reflexivity.
Qed.
Print Assumptions c70_early_stop_refuted.

(** A component is read under its full name or under an ending of one name only; otherwise an exception is raised. *)
Theorem c70_read : forall f component, NoDup (rf_labels f) ->
  (forall i label, nth_error (rf_labels f) i = Some label -> names_label (rf_labels f) component label ->
     hydro_units_values f component = Ok (mkTab (rf_units f) (rf_times f) (rf_values f i))) /\
  ((forall label, ~ names_label (rf_labels f) component label) -> hydro_units_values f component = Throw).
Proof.
  intros f component N. unfold hydro_units_values. rewrite labels_back. split.
  - intros i label Hi Hn. rewrite (proj2 (resolve_spec (rf_labels f) component i N)) by (exists label; auto). reflexivity.
  - intros H. destruct (resolve (rf_labels f) component) as [i| |] eqn:E; [|reflexivity|].
    + apply (resolve_spec _ _ _ N) in E. destruct E as (label & _ & Hn). exfalso. exact (H label Hn).
    + exfalso. unfold resolve in E. destruct (position component (rf_labels f)); [discriminate|]. destruct (filter _ _) as [|l [|? ?]]; try discriminate. destruct (position l _); discriminate.
Qed.
Print Assumptions c70_read.
(** From the run to the user: the values read for a component after a run are those of its states. *)
Theorem c70_run_to_user : forall P times ids structures areas sub_labels sub_pt labels pt covers fractions_pt (run : list (R * P)) r i component u t,
  well_connected (length ids) sub_labels sub_pt labels pt covers fractions_pt -> (length run <= times)%nat -> NoDup labels -> nth_error labels i = Some component ->
  record_rows run (init_containers times ids structures areas sub_labels sub_pt labels pt covers fractions_pt) = Ok r -> (u < length ids)%nat -> (t < times)%nat ->
  exists v, hydro_units_values (write_results r) component = Ok v /\ tb_cell v u t = recorded run (pointer_of pt i u) t.
Proof.
  intros P times ids structures areas sub_labels sub_pt labels pt covers fractions_pt run r i component u t W Hl N Hi E Hu Ht.
  destruct (c70_written P times ids structures areas sub_labels sub_pt labels pt covers fractions_pt run W Hl) as (r' & E' & K). rewrite E in E'. injection E' as <-. cbn zeta in K.
  destruct K as (_ & _ & _ & _ & _ & _ & KL & _ & K). destruct (K t Ht) as (_ & _ & KU & _).
  destruct (c70_read (write_results r) component) as (A & _); [rewrite KL; exact N|]. eexists. split.
  - apply (A i component); [rewrite KL; exact Hi|]. rewrite KL. split; [exact (nth_error_In _ _ Hi)|left; reflexivity].
  - cbn [tb_cell]. apply KU; [apply nth_error_Some; congruence|exact Hu].
Qed.
Print Assumptions c70_run_to_user.
Definition case_pt : list (list (pointer R)) := [[Some (fun x => 10 * x); Some (fun x => 20 * x)]; [None; Some (fun x => x + 1)]].
Definition case_recorder : recorder R := init_containers 4 [7%Z; 8%Z] [1%Z; 2%Z] [5; 6] ["outlet"%string] [Some (fun x => x)] ["a:water_content"; "b:water_content"]%string case_pt [] [].
Example c70_case : well_connected 2 ["outlet"%string] [Some (fun x : R => x)] ["a:water_content"; "b:water_content"]%string case_pt [] [] /\
  exists r v, record_rows [(100, 1); (101, 2); (102, 3)] case_recorder = Ok r /\ hydro_units_values (write_results r) "b:water_content" = Ok v /\ tb_cell v 1 2 = Some (3 + 1).
Proof.
  assert (W : well_connected 2 ["outlet"%string] [Some (fun x : R => x)] ["a:water_content"; "b:water_content"]%string case_pt [] []).
  { repeat split; intros ? H; cbn in H; repeat (destruct H as [<-|H]; [discriminate || reflexivity|]); contradiction. }
  split; [exact W|].
  destruct (c70_written R 4 [7%Z; 8%Z] [1%Z; 2%Z] [5; 6] _ _ _ _ _ _ [(100, 1); (101, 2); (102, 3)] W ltac:(cbn; lia)) as (r & E & _). exists r.
  destruct (c70_run_to_user R 4 [7%Z; 8%Z] [1%Z; 2%Z] [5; 6] _ _ _ _ _ _ [(100, 1); (101, 2); (102, 3)] r 1 "b:water_content" 1 2 W ltac:(cbn; lia)
    ltac:(repeat constructor; cbn; intuition congruence) eq_refl E ltac:(cbn; lia) ltac:(lia)) as (v & Ev & Ec).
  exists v. split; [exact E|]. split; [exact Ev|]. rewrite Ec. reflexivity.
Qed.
Example c70_read_case : hydro_units_values (mkRF 1 1 [Some 1] [1%Z] [1%Z] [1] (fun _ _ => None) (fun i _ _ => Some (INR i)) (fun _ _ _ => None) [] ["ground_slow:content"; "ground_fast:content"]%string []) "fast:content" =
  Ok (mkTab 1 1 (fun _ _ => Some (INR 1))).
Proof. reflexivity. Qed.

(** *** C71 *)
Lemma nanmean_spec l : Rsum snd (present l) <> 0 -> exists m, weighted_nanmean l = Some m /\ mean_of (present l) m.
Proof.
  intros H. unfold weighted_nanmean. rewrite weight_present, weighted_present. destruct (Reqb_cases (Rsum snd (present l)) 0) as [(E & _)|(_ & ->)]; [contradiction|].
  eexists. split; [reflexivity|]. unfold mean_of. field. exact H.
Qed.
Lemma snow_found f c : clear_covers f -> In c (rf_covers f) ->
  (exists i, nth_error (rf_labels f) i = Some (snow_label c) /\ hydro_units_values f (snow_label c) = Ok (mkTab (rf_units f) (rf_times f) (rf_values f i))) \/
  (~ In (snow_label c) (rf_labels f) /\ hydro_units_values f (snow_label c) = Throw).
Proof.
  intros (_ & N & C) Ic. destruct (c70_read f (snow_label c) N) as (A & B). destruct (in_dec string_dec (snow_label c) (rf_labels f)) as [I|I].
  - left. apply In_nth_error in I. destruct I as (i & Hi). exists i. split; [exact Hi|]. apply (A i (snow_label c) Hi). split; [exact (nth_error_In _ _ Hi)|left; reflexivity].
  - right. split; [exact I|]. apply B. intros label (Il & [E|(_ & (a & E) & _)]); [rewrite <- E in Il; contradiction|]. apply I. apply (C c label Ic Il). exists a. exact E.
Qed.
Lemma area_found f c : NoDup (rf_covers f) -> (2 <= length (rf_covers f))%nat -> In c (rf_covers f) ->
  exists i, nth_error (rf_covers f) i = Some c /\ land_cover_areas f c = Ok (mkTab (rf_units f) (rf_times f) (fun u t => vmul (nth_error (rf_areas f) u) (rf_fractions f i u t))).
Proof.
  intros N H2 I. unfold land_cover_areas. destruct (rf_covers f) as [|x [|y l]] eqn:E; cbn in H2; try lia. rewrite <- E in *. assert (Ea : attribute_of (rf_covers f) = Texts (rf_covers f)) by (rewrite E; reflexivity).
  rewrite Ea. cbn [cover_index]. apply In_nth_error in I. destruct I as (i & Hi). rewrite (position_at c _ i N Hi). cbn [bind]. exists i. split; [exact Hi|].
  rewrite (proj2 (Nat.ltb_lt _ _)) by (apply nth_error_Some; congruence). reflexivity.
Qed.
(** The snow and the area of each cover, stacked. *)
Lemma stacked f (snow area : string -> nat -> nat -> value) : clear_covers f -> (2 <= length (rf_covers f))%nat ->
  (forall c u t, In c (rf_covers f) -> snow_on f c u t (snow c u t)) -> (forall c u t, In c (rf_covers f) -> area_of f c u t (area c u t)) ->
  forall l, (forall c, In c l -> In c (rf_covers f)) -> exists q, stack_swe f l = Ok q /\
    Forall2 (fun c sa => forall u t, tb_cell (fst sa) u t = snow c u t /\ tb_cell (snd sa) u t = area c u t) l q.
Proof.
  intros C H2 HS HA. induction l as [|c l IH]; intros HI; [exists []; split; [reflexivity|constructor]|]. pose proof (HI c (or_introl eq_refl)) as Ic. cbn [stack_swe].
  destruct (area_found f c (proj1 C) H2 Ic) as (i & Hi & Ea). rewrite Ea. cbn [bind]. destruct IH as (q & Eq & Fq); [intros; apply HI; right; assumption|]. rewrite Eq. cbn [bind].
  eexists. split; [reflexivity|]. constructor; [|exact Fq]. intros u t. cbn [fst snd tb_cell]. split.
  - specialize (HS c u t Ic). destruct (snow_found f c C Ic) as [(k & Hk & ->)|(Nk & ->)]; cbn [tb_cell].
    + destruct HS as [(j & Hj & ->)|(Nj & _)]; [|exfalso; apply Nj; exact (nth_error_In _ _ Hk)]. f_equal. apply (proj1 (NoDup_nth_error (rf_labels f)) (proj1 (proj2 C))); [apply nth_error_Some; rewrite Hk; discriminate|].
      rewrite Hk. symmetry. exact Hj.
    + destruct HS as [(j & Hj & _)|(_ & ->)]; [exfalso; apply Nk; exact (nth_error_In _ _ Hj)|reflexivity].
  - specialize (HA c u t Ic). destruct HA as (j & Hj & HA). assert (j = i). { apply (proj1 (NoDup_nth_error (rf_covers f)) (proj1 C)); [apply nth_error_Some; congruence|congruence]. } subst j.
    destruct HA as [(x & y & -> & -> & ->)|([-> | E] & ->)]; [reflexivity|reflexivity|]. rewrite E. destruct (nth_error (rf_areas f) u); reflexivity.
Qed.

(** The mean snow water equivalent of the catchment: at each time, the mean over all units and land covers, weighted by their areas. *)
Theorem c71_mean_swe : forall f (snow area : string -> nat -> nat -> value), clear_covers f -> (2 <= length (rf_covers f))%nat ->
  (forall c u t, In c (rf_covers f) -> snow_on f c u t (snow c u t)) -> (forall c u t, In c (rf_covers f) -> area_of f c u t (area c u t)) ->
  exists m, mean_swe f = Ok m /\ length m = rf_times f /\
  forall t, (t < rf_times f)%nat -> let cells := present (flat_map (fun c => map (fun u => (snow c u t, area c u t)) (seq 0 (rf_units f))) (rf_covers f)) in
    Rsum snd cells <> 0 -> exists x, nth_error m t = Some (Some x) /\ mean_of cells x.
Proof.
  intros f snow area C H2 HS HA. unfold mean_swe. destruct (stacked f snow area C H2 HS HA (rf_covers f) (fun c I => I)) as (q & Eq & Fq).
  destruct (rf_covers f) as [|x [|y l]] eqn:E; cbn in H2; try lia. cbn [attribute_of iterate]. rewrite Eq. cbn [bind]. eexists. split; [reflexivity|].
  split; [rewrite map_length, seq_length; reflexivity|]. intros t Ht. cbn zeta. intros NZ.
  assert (EC : flat_map (fun '(s, a) => map (fun u => (tb_cell s u t, tb_cell a u t)) (seq 0 (rf_units f))) q =
    flat_map (fun c => map (fun u => (snow c u t, area c u t)) (seq 0 (rf_units f))) (x :: y :: l)).
  { clear - Fq. induction Fq as [|c [s a] cs qs H1 H2 IH]; [reflexivity|]. cbn [flat_map]. rewrite IH. f_equal. apply map_ext. intros u. destruct (H1 u t) as (A & B). cbn [fst snd] in A, B. rewrite A, B. reflexivity. }
  destruct (nanmean_spec _ NZ) as (m & Em & Mm). exists m. split; [|exact Mm]. rewrite nth_error_map, (nth_error_nth' _ 0%nat) by (rewrite seq_length; exact Ht). rewrite seq_nth by exact Ht. cbn [option_map Nat.add].
  rewrite EC, Em. reflexivity.
Qed.
Print Assumptions c71_mean_swe.
(** The snow water equivalent of each unit: the mean over its land covers. *)
Theorem c71_total_swe : forall f (snow area : string -> nat -> nat -> value), clear_covers f -> (2 <= length (rf_covers f))%nat ->
  (forall c u t, In c (rf_covers f) -> snow_on f c u t (snow c u t)) -> (forall c u t, In c (rf_covers f) -> area_of f c u t (area c u t)) ->
  exists m, total_swe f = Ok m /\ length m = rf_units f /\
  forall u t, (u < rf_units f)%nat -> (t < rf_times f)%nat -> let cells := present (map (fun c => (snow c u t, area c u t)) (rf_covers f)) in
    Rsum snd cells <> 0 -> exists row x, nth_error m u = Some row /\ length row = rf_times f /\ nth_error row t = Some (Some x) /\ mean_of cells x.
Proof.
  intros f snow area C H2 HS HA. unfold total_swe. destruct (stacked f snow area C H2 HS HA (rf_covers f) (fun c I => I)) as (q & Eq & Fq).
  destruct (rf_covers f) as [|x [|y l]] eqn:E; cbn in H2; try lia. cbn [attribute_of iterate]. rewrite Eq. cbn [bind]. eexists. split; [reflexivity|].
  split; [rewrite map_length, seq_length; reflexivity|]. intros u t Hu Ht. cbn zeta. intros NZ.
  assert (EC : map (fun '(s, a) => (tb_cell s u t, tb_cell a u t)) q = map (fun c => (snow c u t, area c u t)) (x :: y :: l)).
  { clear - Fq. induction Fq as [|c [s a] cs qs H1 H2 IH]; [reflexivity|]. cbn [map]. rewrite IH. f_equal. destruct (H1 u t) as (A & B). cbn [fst snd] in A, B. rewrite A, B. reflexivity. }
  destruct (nanmean_spec _ NZ) as (m & Em & Mm). eexists. exists m. rewrite nth_error_map, (nth_error_nth' _ 0%nat) by (rewrite seq_length; exact Hu). rewrite seq_nth by exact Hu. cbn [option_map Nat.add].
  split; [reflexivity|]. split; [rewrite map_length, seq_length; reflexivity|]. split; [|exact Mm].
  rewrite nth_error_map, (nth_error_nth' _ 0%nat) by (rewrite seq_length; exact Ht). rewrite seq_nth by exact Ht. cbn [option_map Nat.add]. rewrite EC, Em. reflexivity.
Qed.
Print Assumptions c71_total_swe.

(** With a single land cover both fail, unless its name repeats one character: the characters of the name are taken for the land covers. *)
Theorem c71_single_cover_refuted : forall f a r b, rf_covers f = [String a r] -> In b (list_ascii_of_string r) -> b <> a -> mean_swe f = Throw /\ total_swe f = Throw.
Proof.
  intros f a r b E I NB.
  assert (ST : forall l, In (one_char b) l -> stack_swe f l = Throw).
  { induction l as [|c l IH]; intros Il; [destruct Il|]. cbn [stack_swe]. destruct Il as [->|Il].
    - assert (LT : land_cover_areas f (one_char b) = Throw); [|rewrite LT; reflexivity]. unfold land_cover_areas. rewrite E. cbn [attribute_of cover_index length].
      destruct (String.index 0 (one_char b) (String a r)) as [i|] eqn:Ei; [|reflexivity]. cbn [bind]. destruct i as [|i]; [|reflexivity].
      apply String.index_correct1 in Ei. unfold one_char in Ei. cbn in Ei. injection Ei as Ea _. exfalso. apply NB. symmetry. exact Ea.
    - assert (NU : land_cover_areas f c <> UB).
      { unfold land_cover_areas. rewrite E. cbn [attribute_of cover_index]. destruct (String.index 0 c (String a r)) as [i|]; cbn [bind]; [|discriminate]. destruct (Nat.ltb i _); discriminate. }
      destruct (land_cover_areas f c); cbn [bind]; [rewrite (IH Il); reflexivity|reflexivity|congruence]. }
  assert (Ib : In (one_char b) (iterate (attribute_of (rf_covers f)))) by (rewrite E; cbn [attribute_of iterate]; apply in_map; right; exact I).
  unfold mean_swe, total_swe. rewrite E. rewrite E in Ib. rewrite (ST _ Ib). split; reflexivity.
Qed.
Print Assumptions c71_single_cover_refuted.
Example c71_single_cover_used : forall f, rf_covers f = ["ground"%string] -> mean_swe f = Throw.
Proof. intros f E. apply (c71_single_cover_refuted f "g"%char "round" "r"%char E); [left; reflexivity|discriminate]. Qed.
(** The mean of a component over the units is in fact, for each unit, a mean over the times. *)
Theorem c71_mean_component_refuted : forall f cover component m, mean_hydro_units_values f cover component = Ok m -> length m = rf_units f /\
  exists v a, hydro_units_values f component = Ok v /\ land_cover_areas f cover = Ok a /\
  forall u, (u < rf_units f)%nat -> let cells := present (map (fun t => (tb_cell v u t, tb_cell a u t)) (seq 0 (rf_times f))) in
    Rsum snd cells <> 0 -> exists x, nth_error m u = Some (Some x) /\ mean_of cells x.
Proof.
  intros f cover component m. unfold mean_hydro_units_values. destruct (hydro_units_values f component) as [v| |] eqn:Ev; cbn [bind]; try discriminate.
  destruct (land_cover_areas f cover) as [a| |] eqn:Ea; cbn [bind]; try discriminate. intros [= <-].
  assert (Sv : tb_units v = rf_units f /\ tb_times v = rf_times f).
  { unfold hydro_units_values in Ev. destruct (resolve _ _); cbn [bind] in Ev; try discriminate. injection Ev as <-. split; reflexivity. }
  destruct Sv as (-> & ->). split; [rewrite map_length, seq_length; reflexivity|]. exists v, a. split; [reflexivity|]. split; [reflexivity|]. intros u Hu. cbn zeta. intros NZ.
  destruct (nanmean_spec _ NZ) as (x & Ex & Mx). exists x. split; [|exact Mx]. rewrite nth_error_map, (nth_error_nth' _ 0%nat) by (rewrite seq_length; exact Hu). rewrite seq_nth by exact Hu.
  cbn [option_map Nat.add]. rewrite Ex. reflexivity.
Qed.
Print Assumptions c71_mean_component_refuted.

(** Two units of areas 1 and 3, two covers; the snow of the glacier and of the ground. *)
Definition two_covers : results_file := mkRF 3 2 [Some 1; Some 2; Some 3] [1%Z; 2%Z] [1%Z; 1%Z] [1; 3] (fun _ _ => None)
  (fun i u t => match i with O => Some 8 | _ => if Nat.eqb u 0 then Some 100 else None end) (fun i u _ => match i with O => if Nat.eqb u 0 then Some (1 / 2) else Some 1 | _ => if Nat.eqb u 0 then Some (1 / 2) else None end) []
  ["ground_snowpack:snow_content"; "glacier_snowpack:snow_content"]%string ["ground"; "glacier"]%string.
Example c71_case : clear_covers two_covers /\ exists m x, mean_swe two_covers = Ok m /\ nth_error m 1 = Some (Some x) /\ x = (8 * (1 / 2) + 8 * 3 + 100 * (1 / 2)) / 4.
Proof.
  assert (C : clear_covers two_covers).
  { split; [|split]; try (repeat constructor; cbn; intuition congruence). intros c l [<-|[<-|[]]] _ _; [left|right; left]; reflexivity. }
  split; [exact C|].
  destruct (c71_mean_swe two_covers
    (fun c u t => if String.eqb c "ground" then Some 8 else if Nat.eqb u 0 then Some 100 else None)
    (fun c u t => if String.eqb c "ground" then (match u with O => Some (1 * (1 / 2)) | 1%nat => Some (3 * 1) | _ => None end) else (match u with O => Some (1 * (1 / 2)) | _ => None end)) C) as (m & Em & _ & K).
  - cbn. lia.
  - intros c u t [<-|[<-|[]]]; [left; exists 0%nat|left; exists 1%nat]; split; reflexivity.
  - intros c u t [<-|[<-|[]]]; [exists 0%nat|exists 1%nat]; (split; [reflexivity|]).
    + destruct u as [|[|u]]; [left; exists 1, (1 / 2)|left; exists 3, 1|right; split; [left; destruct u; reflexivity|reflexivity]]; repeat split.
    + destruct u as [|[|u]]; [left; exists 1, (1 / 2); repeat split|right; split; [right; reflexivity|reflexivity]|right; split; [right; reflexivity|reflexivity]].
  - specialize (K 1%nat ltac:(cbn; lia)). cbn zeta in K. cbn [present flat_map map seq two_covers rf_covers rf_units String.eqb Ascii.eqb Bool.eqb Nat.eqb app Rsum snd fst] in K.
    destruct K as (x & Ex & Mx); [lra|]. exists m, x. split; [exact Em|]. split; [exact Ex|]. unfold mean_of in Mx. cbn [Rsum snd fst] in Mx. lra.
Qed.
(** Three times, two units: "one value per time" is one value per unit. *)
Example c71_mean_component_case : exists m, mean_hydro_units_values two_covers "ground" "ground_snowpack:snow_content" = Ok m /\ length m = 2%nat /\ rf_times two_covers = 3%nat.
Proof.
  destruct (mean_hydro_units_values two_covers "ground" "ground_snowpack:snow_content") as [m| |] eqn:E; [|discriminate E|discriminate E].
  exists m. split; [reflexivity|]. split; [|reflexivity]. exact (proj1 (c71_mean_component_refuted _ _ _ _ E)).
Qed.
(** A cover without snowpack gets the snow of a cover whose name ends with its own. *)
Theorem c71_suffix_refuted : exists f m, NoDup (rf_covers f) /\ NoDup (rf_labels f) /\ rf_covers f = ["dry_lake"; "lake"]%string /\ rf_labels f = ["dry_lake_snowpack:snow_content"%string] /\
  (forall i u t, rf_fractions f i u t = Some (1 / 2)) /\ rf_values f 0 0 0 = Some 100 /\ rf_areas f = [1] /\ rf_units f = 1%nat /\
  mean_swe f = Ok m /\ nth_error m 0 = Some (Some 100).
Proof.
  set (f := mkRF 1 1 [Some 1] [1%Z] [1%Z] [1] (fun _ _ => None) (fun _ _ _ => Some 100) (fun _ _ _ => Some (1 / 2)) [] ["dry_lake_snowpack:snow_content"%string] ["dry_lake"; "lake"]%string).
  exists f, [weighted_nanmean [(Some 100, Some (1 * (1 / 2))); (Some 100, Some (1 * (1 / 2)))]].
  split; [repeat constructor; cbn; intuition congruence|]. split; [repeat constructor; cbn; intuition congruence|]. repeat (split; [reflexivity|]).
  cbn [nth_error]. unfold weighted_nanmean. cbn [Rsum weight weighted].
  match goal with |- context [Reqb ?a ?b] => destruct (Reqb_cases a b) as [(E & _)|(_ & ->)] end; [exfalso; lra|]. repeat f_equal. lra.
Qed.
Print Assumptions c71_suffix_refuted.
