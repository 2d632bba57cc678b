(** Property theorems: rejected connections (C44), covers without area (C47), area weights (C48), splitters (C56). *)
From Coq Require Import Lra.
From Verif Require Import Base BaseFacts Container Direct Topology TopologySpec DirectWitness.
Open Scope R_scope.

(** * C44 *)
Lemma check_all_case T : forall fs, (forall f, In f fs -> check_flux T f <> UB) ->
  (check_all T fs = Throw /\ exists f, In f fs /\ check_flux T f = Throw) \/ (check_all T fs = Ok tt /\ forall f, In f fs -> check_flux T f = Ok tt).
Proof.
  induction fs as [|f fs IH]; intros H; cbn [check_all]; [right; split; [reflexivity|intros f []]|].
  pose proof (H f ltac:(left; reflexivity)) as Hf. destruct (check_flux T f) as [[]| |] eqn:E; [|left; split; [reflexivity|exists f; split; [left; reflexivity|exact E]]|congruence]. cbn [bind].
  destruct IH as [(-> & g & Hg & Eg)|(-> & Hg)]; [intros; apply H; right; assumption|left; split; [reflexivity|exists g; split; [right; exact Hg|exact Eg]]|right; split; [reflexivity|]]. intros g [<-|Hi]; auto.
Qed.
Lemma iterable_iff T b : In b (iterable_bricks T) <-> exists r, brick_of T r = Some b /\ match r with UnitBrick _ _ => tb_solver b = true | BasinBrick _ => True end.
Proof.
  unfold iterable_bricks. rewrite in_app_iff, in_concat. split.
  - intros [(l & Hl & Hb)|Hb].
    + apply in_map_iff in Hl. destruct Hl as ((bs & ss) & <- & Hu). apply filter_In in Hb. destruct Hb as (Hb & Hs). cbn [fst] in Hb. apply In_nth_error in Hu, Hb. destruct Hu as (u & Hu). destruct Hb as (i & Hi). exists (UnitBrick u i). cbn. rewrite Hu. auto.
    + apply In_nth_error in Hb. destruct Hb as (i & Hi). exists (BasinBrick i). auto.
  - intros ([u i|i] & Hb & Hs); cbn in Hb.
    + left. destruct (nth_error (tp_units T) u) as [(bs & ss)|] eqn:E; [|discriminate]. exists (filter tb_solver bs). split; [apply in_map_iff; exists (bs, ss); split; [reflexivity|exact (nth_error_In _ _ E)]|]. apply filter_In. split; [exact (nth_error_In _ _ Hb)|exact Hs].
    + right. exact (nth_error_In _ _ Hb).
Qed.
Lemma validate_case T : all_there T ->
  (validate_flux_topology T = Throw /\ exists r r' b', solved T r /\ sends_to T r r' /\ brick_of T r' = Some b' /\ tb_solver b' = false) \/
  (validate_flux_topology T = Ok tt /\ forall r r' b', solved T r -> sends_to T r r' -> brick_of T r' = Some b' -> tb_solver b' = true).
Proof.
  intros A. unfold validate_flux_topology. assert (In1 : forall f, In f (concat (concat (map tb_processes (iterable_bricks T)))) <-> exists r b p, solved T r /\ brick_of T r = Some b /\ In p (tb_processes b) /\ In f p).
  { intros f. rewrite in_concat. split.
    - intros (p & Hp & Hf). apply in_concat in Hp. destruct Hp as (ps & Hps & Hp). apply in_map_iff in Hps. destruct Hps as (b & <- & Hb). apply iterable_iff in Hb. destruct Hb as (r & Hr & Hs). exists r, b, p. repeat split; auto. exists b. auto.
    - intros (r & b & p & (b0 & Hb0 & Hs) & Hb & Hp & Hf). rewrite Hb in Hb0. injection Hb0 as <-. exists p. split; [|exact Hf]. apply in_concat. exists (tb_processes b). split; [|exact Hp]. apply in_map. apply iterable_iff. exists r. auto. }
  assert (F : forall r b p f r', solved T r -> brick_of T r = Some b -> In p (tb_processes b) -> In f p -> is_output f r' -> exists b', brick_of T r' = Some b' /\ check_flux T f = if tb_solver b' then Ok tt else Throw).
  { intros r b p f r' Hs Hb Hp Hf Ho. destruct (A r r') as (b' & Hb'); [exists b, p, f; auto|]. exists b'. split; [exact Hb'|]. destruct Ho as [-> | ->]; cbn; rewrite Hb'; reflexivity. }
  destruct (check_all_case T (concat (concat (map tb_processes (iterable_bricks T))))) as [(E & f & Hf & Ef)|(E & Hf)].
  - intros f Hf. apply In1 in Hf. destruct Hf as (r & b & p & Hs & Hb & Hp & Hi). destruct f as [r'|r'| | |]; try discriminate; destruct (F r b p _ r' Hs Hb Hp Hi) as (b' & _ & ->); try (left; reflexivity); try (right; reflexivity); destruct (tb_solver b'); discriminate.
  - left. split; [exact E|]. apply In1 in Hf. destruct Hf as (r & b & p & Hs & Hb & Hp & Hi).
    assert (Out : exists r', is_output f r') by (destruct f as [r'|r'| | |]; try discriminate; exists r'; [left|right]; reflexivity). destruct Out as (r' & Ho).
    destruct (F r b p f r' Hs Hb Hp Hi Ho) as (b' & Hb' & Ec). exists r, r', b'. split; [exact Hs|]. split; [exists b, p, f; auto|]. split; [exact Hb'|]. destruct (tb_solver b'); [congruence|reflexivity].
  - right. split; [exact E|]. intros r r' b' Hs (b & p & f & Hb & Hp & Hi & Ho) Hb'. destruct (F r b p f r' Hs Hb Hp Hi Ho) as (b0 & Hb0 & Ec). rewrite Hb' in Hb0. injection Hb0 as <-.
    rewrite (Hf f) in Ec; [destruct (tb_solver b'); [reflexivity|discriminate]|]. apply In1. exists r, b, p. auto.
Qed.
(** When no brick of the sub-basin is of a kind that is computed directly, the initialisation fails exactly when a solved brick has a flux to a brick that
    is computed directly. *)
Theorem c44_rejected : forall T, all_there T -> (forall b, In b (tp_bricks T) -> tb_solver b = true) ->
  (validate_flux_topology T = Throw \/ validate_flux_topology T = Ok tt) /\
  (validate_flux_topology T = Throw <-> exists r r', solved T r /\ computed_directly T r' /\ sends_to T r r').
Proof.
  intros T A S. assert (D : forall r' b', brick_of T r' = Some b' -> tb_solver b' = false -> computed_directly T r').
  { intros r' b' Hb Hn. exists b'. split; [exact Hb|]. destruct r' as [u i|i]; [exact Hn|]. cbn in Hb. rewrite (S b' (nth_error_In _ _ Hb)) in Hn. discriminate. }
  destruct (validate_case T A) as [(-> & r & r' & b' & Hs & Hr & Hb & Hn)|(-> & H)].
  - split; [left; reflexivity|]. split; [intros _; exists r, r'; repeat split; auto; exact (D r' b' Hb Hn)|reflexivity].
  - split; [right; reflexivity|]. split; [discriminate|]. intros (r & r' & Hs & (b' & Hb & Hn) & Hr). rewrite (H r r' b' Hs Hr Hb) in Hn. destruct r'; [discriminate|destruct Hn].
Qed.
Print Assumptions c44_rejected.
(** A cover feeding a storage is accepted; the storage feeding the cover back is not. *)
Definition good44 : topology := mkT [([mkTB false [[ToBrick (UnitBrick 0 1)]]; mkTB true [[ToBrick (BasinBrick 0)]]], [])] [mkTB true [[ToOutlet]]] [].
Definition bad44 : topology := mkT [([mkTB false [[ToBrick (UnitBrick 0 1)]]; mkTB true [[ToBrick (UnitBrick 0 0)]]], [])] [mkTB true [[ToOutlet]]] [].
Example c44_accepts : validate_flux_topology good44 = Ok tt /\ validate_flux_topology bad44 = Throw.
Proof. split; reflexivity. Qed.
Example c44_all_there : all_there good44.
Proof.
  intros r r' (b & p & f & Hb & Hp & Hf & Ho). destruct r as [[|u] [|[|i]]|[|i]]; cbn in Hb; try discriminate; try (destruct u; discriminate); try (destruct i; discriminate); injection Hb as <-; cbn in Hp; destruct Hp as [<-|[]]; destruct Hf as [<-|[]]; destruct Ho as [E|E]; try discriminate; injection E as <-; eexists; reflexivity.
Qed.
(** Refuted: a solved brick may feed a brick that is computed directly through a splitter; it is accepted. *)
Theorem c44_through_a_splitter_refuted : ~ (forall T r r', all_there T -> solved T r -> computed_directly T r' -> reaches T r r' -> validate_flux_topology T = Throw).
Proof.
  intros H. set (T := mkT [([mkTB false []; mkTB true [[ToSplitter (UnitSplitter 0 0)]]], [mkTS [ToBrick (UnitBrick 0 0)]])] [] []).
  assert (X : validate_flux_topology T = Throw); [|discriminate]. apply (H T (UnitBrick 0 1) (UnitBrick 0 0)).
  - intros r r' (b & p & f & Hb & Hp & Hf & Ho). destruct r as [[|u] [|[|i]]|i]; cbn in Hb; try discriminate; try (destruct u; discriminate); try (destruct i; discriminate); injection Hb as <-; cbn in Hp; [destruct Hp|]. destruct Hp as [<-|[]]; destruct Hf as [<-|[]]; destruct Ho as [E|E]; discriminate.
  - eexists. split; reflexivity.
  - eexists. split; reflexivity.
  - right. exists (mkTB true [[ToSplitter (UnitSplitter 0 0)]]), [ToSplitter (UnitSplitter 0 0)], (UnitSplitter 0 0). split; [reflexivity|]. split; [left; reflexivity|]. split; [left; reflexivity|].
    eapply leads_here; [reflexivity|left; reflexivity|left; reflexivity].
Qed.
Print Assumptions c44_through_a_splitter_refuted.
(** Refuted: a brick of the sub-basin is always solved, but a flux to one of a kind that is computed directly in units (a land cover, a snowpack) is
    rejected. *)
Theorem c44_sub_basin_refuted : ~ (forall T, all_there T -> validate_flux_topology T = Throw -> exists r r', solved T r /\ computed_directly T r' /\ sends_to T r r').
Proof.
  intros H. destruct (H (mkT [([mkTB true [[ToBrick (BasinBrick 0)]]], [])] [mkTB false [[ToOutlet]]] [])) as (r & r' & _ & (b & Hb & Hd) & _); [|reflexivity|].
  - intros r r' (b & p & f & Hb & Hp & Hf & Ho). destruct r as [[|u] [|i]|[|i]]; cbn in Hb; try discriminate; try (destruct u; discriminate); try (destruct i; discriminate); injection Hb as <-; cbn in Hp; destruct Hp as [<-|[]]; destruct Hf as [<-|[]]; destruct Ho as [E|E]; try discriminate; injection E as <-; eexists; reflexivity.
  - destruct r' as [[|u] [|i]|i]; cbn in Hb; try discriminate; try (destruct u; discriminate); try (destruct i; discriminate); [|destruct Hd]. injection Hb as <-. discriminate.
Qed.
Print Assumptions c44_sub_basin_refuted.

(** * C47 *)
Lemma null_run C dt : forall h s, steps h -> NearlyZero (cs_fraction s) PRECISION = true -> cover_run C dt h s = Ok s.
Proof.
  induction h as [|e h IH]; intros s Hh Hn; [reflexivity|]. cbn [cover_run]. destruct (Hh e ltac:(left; reflexivity)) as (inp & ->). cbn [cover_step]. rewrite Hn. cbn [bind]. apply IH; [intros e' He; apply Hh; right; exact He|exact Hn].
Qed.
(** When the area of a cover becomes zero, each of its fluxes goes on delivering, in every later step, the amount of its last step with an area. *)
Theorem c47_last_amount_again : forall C dt h1 h2 s s1, cover_run C dt h1 s = Ok s1 -> steps h2 ->
  exists s2, cover_run C dt (h1 ++ Area 0 :: h2) s = Ok s2 /\ forall k, delivered s2 k = delivered s1 k.
Proof.
  intros C dt h1 h2 s s1 H1 Hs. exists (mkCS 0 (cs_state s1)). split; [|reflexivity]. revert s H1. induction h1 as [|e h1 IH]; intros s H1; cbn [app cover_run] in *.
  - injection H1 as <-. cbn [cover_step bind]. apply null_run; [exact Hs|]. unfold NearlyZero. cbn [cs_fraction]. rewrite Rabs_R0. apply Rleb_true. unfold PRECISION. lra.
  - destruct (cover_step C dt e s) as [s'| |]; [|discriminate|discriminate]. cbn [bind] in *. apply IH. exact H1.
Qed.
Print Assumptions c47_last_amount_again.
(** The part of the claim that holds: a cover whose fluxes carried nothing, in particular one that had no area since the start, delivers nothing. *)
Theorem c47_nothing_left_partial : forall C dt h1 h2 s s1 k, cover_run C dt h1 s = Ok s1 -> delivered s1 k = 0 -> steps h2 -> exists s2, cover_run C dt (h1 ++ Area 0 :: h2) s = Ok s2 /\ delivered s2 k = 0.
Proof. intros C dt h1 h2 s s1 k H1 H0 Hs. destruct (c47_last_amount_again C dt h1 h2 s s1 H1 Hs) as (s2 & E & H). exists s2. split; [exact E|]. rewrite H. exact H0. Qed.
Print Assumptions c47_nothing_left_partial.
(** Refuted: a cover that percolates 20 mm in its last step delivers 20 mm in each of the [n] steps after its area became zero. *)
Definition cover47 : cover := mkCover (fun f => mkDB [mkDC Outside f] [mkDP 0 [0%nat]] [0%nat] (fun _ => None) (fun _ => None) (fun _ => false)) perc_law.
Theorem c47_stops_refuted : ~ (forall C dt h1 h2 s s2 k, steps h2 -> h2 <> [] -> cover_run C dt (h1 ++ Area 0 :: h2) s = Ok s2 -> delivered s2 k = 0).
Proof.
  intros H. destruct perc_step as (s' & E & _ & Ha). assert (R1 : cover_run cover47 1 [Step perc_inputs] (mkCS 1 perc_state) = Ok (mkCS 1 s')).
  { cbn [cover_run cover_step cs_fraction cs_state]. replace (NearlyZero 1 PRECISION) with false by (symmetry; unfold NearlyZero; rewrite Rabs_R1; apply Rleb_false; unfold PRECISION; lra).
    change (cv_brick cover47 1) with perc_brick. change (cv_law cover47) with perc_law. rewrite E. reflexivity. }
  assert (S2 : steps [Step no_input]) by (intros e [<-|[]]; eexists; reflexivity). destruct (c47_last_amount_again cover47 1 [Step perc_inputs] [Step no_input] _ _ R1 S2) as (s2 & R2 & Hd).
  specialize (H _ _ _ _ _ _ 0%nat S2 ltac:(discriminate) R2). rewrite Hd in H. unfold delivered in H. cbn [cs_state] in H. rewrite Ha in H. lra.
Qed.
Print Assumptions c47_stops_refuted.

(** * C48 *)
(** Outside of splitters and of transfers between covers of different areas, a flux of a brick of a unit brings to its target the volume that it takes from
    its source. *)
Theorem c48_volume_partial : forall a A source t x, 0 < a <= A -> (forall f, source = Some f -> 0 <= f <= 1) -> t <> WUnitSplitter -> t <> WBasinSplitter ->
  (forall now g, t = WUnitBrick now (Some g) -> source = Some g) ->
  target_area a A t * stored_amount a A source t x = covered a source * x.
Proof.
  intros a A source t x (Ha & HA) Hf N1 N2 Hg.
  assert (W : forall w, w <= 1 -> (if Rltb w 1 then x * w else x) = x * w). { intros w Hle. destruct (Rltb w 1) eqn:E; [reflexivity|]. apply Rltb_false in E. replace w with 1 by lra. lra. }
  assert (W' : forall w, (if Reqb w 1 then x else x * w) = x * w). { intros w. unfold Reqb. destruct (Req_EM_T w 1) as [->|]; lra. }
  assert (Q : 0 < a / A <= 1). { split; [apply Rdiv_lt_0_compat; lra|]. apply (Rmult_le_reg_r A); [lra|]. unfold Rdiv. rewrite Rmult_assoc, Rinv_l by lra. lra. }
  assert (V : forall (w y : R), A * (x * (a / A * w)) = a * w * x) by (intros; field; lra).
  destruct source as [f|].
  - specialize (Hf f eq_refl). assert (Qf : a / A * f <= 1). { replace 1 with (1 * 1) by lra. apply Rmult_le_compat; lra. }
    destruct t as [|now g|now| |]; try congruence; unfold stored_amount, total_weight, unit_weight, needs_weighting, target_area, covered.
    + rewrite W by exact Qf. apply (V f 0).
    + destruct g as [g|].
      * specialize (Hg now g eq_refl). injection Hg as <-. destruct now; [rewrite W'|rewrite W by lra]; lra.
      * destruct now; [rewrite W'|rewrite W by lra]; lra.
    + destruct now; [rewrite W'|rewrite W by exact Qf]; apply (V f 0).
  - destruct t as [|now g|now| |]; try congruence; unfold stored_amount, total_weight, unit_weight, needs_weighting, target_area, covered.
    + rewrite W by lra. rewrite (V 1 0). lra.
    + destruct g as [g|]; [specialize (Hg now g eq_refl); discriminate|]. destruct now; [rewrite W'|rewrite W by lra]; lra.
    + destruct now; [rewrite W'|rewrite W by lra]; rewrite (V 1 0); lra.
Qed.
Print Assumptions c48_volume_partial.
Lemma fold_plus l : forall x, fold_left Rplus l x = x + fold_right Rplus 0 l.
Proof. induction l as [|y l IH]; intros x; cbn; [lra|]. rewrite IH. lra. Qed.
(** The discharge: the catchment area times the depth at the outlet is the sum of the volumes that the bricks of the units send to it; the area of the
    catchment is that of its units. *)
Theorem c48_outlet : forall (fluxes : list (R * option R * R)) A, (forall a f x, In (a, f, x) fluxes -> 0 < a <= A /\ (forall g, f = Some g -> 0 <= g <= 1)) -> 0 < A ->
  A * outlet_discharge (map (fun '(a, f, x) => stored_amount a A f WOutlet x) fluxes) = fold_right Rplus 0 (map (fun '(a, f, x) => covered a f * x) fluxes).
Proof.
  intros fluxes A H HA. unfold outlet_discharge. rewrite fold_plus, Rplus_0_l. induction fluxes as [|((a & f) & x) l IH]; cbn [map fold_right]; [lra|].
  rewrite Rmult_plus_distr_l, IH by (intros a' f' x' Hi; apply (H a' f' x'); right; exact Hi). f_equal. destruct (H a f x ltac:(left; reflexivity)) as (Ha & Hf). apply (c48_volume_partial a A f WOutlet x Ha Hf); discriminate.
Qed.
Print Assumptions c48_outlet.
(** Rain: a splitter gives the same depth to each cover; the volume is that of the rain on the unit when the fractions sum to one. *)
Theorem c48_rain : forall (a x : R) (fs : list R), fold_right Rplus 0 fs = 1 -> fold_right Rplus 0 (map (fun f => covered a (Some f) * stored_amount a a None (WUnitBrick false None) x) fs) = a * x.
Proof.
  intros a x fs H. unfold stored_amount, total_weight, unit_weight, needs_weighting, covered. replace (Rltb (1 * 1) 1) with false by (symmetry; apply Rltb_false; lra).
  transitivity (a * x * fold_right Rplus 0 fs); [|rewrite H; lra]. clear H. induction fs as [|f fs IH]; cbn [map fold_right]; [lra|]. rewrite IH. lra.
Qed.
Print Assumptions c48_rain.
Example c48_case : target_area 2 10 WOutlet * stored_amount 2 10 (Some (1/2)) WOutlet 8 = 8.
Proof. rewrite c48_volume_partial; try discriminate; [unfold covered; lra|lra|]. intros f E. injection E as <-. lra. Qed.
(** Refuted: a flux between two covers of different areas keeps the depth, not the volume. *)
Theorem c48_between_covers_refuted : ~ (forall a A f g x, 0 < a <= A -> 0 <= f <= 1 -> 0 <= g <= 1 -> target_area a A (WUnitBrick false (Some g)) * stored_amount a A (Some f) (WUnitBrick false (Some g)) x = covered a (Some f) * x).
Proof.
  intros H. specialize (H 1 1 (1/4) (3/4) 1 ltac:(lra) ltac:(lra) ltac:(lra)). unfold stored_amount, total_weight, unit_weight, needs_weighting, target_area, covered in H.
  replace (Rltb (1 * 1) 1) with false in H by (symmetry; apply Rltb_false; lra). lra.
Qed.
Print Assumptions c48_between_covers_refuted.
(** Refuted: a flux to a splitter ignores the area of its cover. *)
Theorem c48_to_a_splitter_refuted : ~ (forall a A f x, 0 < a <= A -> 0 <= f <= 1 -> target_area a A WUnitSplitter * stored_amount a A (Some f) WUnitSplitter x = covered a (Some f) * x).
Proof. intros H. specialize (H 1 1 (1/4) 1 ltac:(lra) ltac:(lra)). unfold stored_amount, target_area, covered in H. lra. Qed.
Print Assumptions c48_to_a_splitter_refuted.

(** * C56 *)
Lemma sref_eqb_iff a b : sref_eqb a b = true <-> a = b.
Proof.
  destruct a, b; cbn; try (split; discriminate).
  - rewrite Bool.andb_true_iff, !Nat.eqb_eq. split; [intros (-> & ->); reflexivity|intros E; injection E; auto].
  - rewrite Nat.eqb_eq. split; [intros ->; reflexivity|intros E; injection E; auto].
Qed.
Lemma computed_iff T r : In r (computed_splitters T) <-> match r with UnitSplitter _ _ => exists s, splitter_of T r = Some s | BasinSplitter _ => False end.
Proof.
  unfold computed_splitters. rewrite in_concat. split.
  - intros (l & Hl & Hr). apply in_map_iff in Hl. destruct Hl as (u & <- & Hu). apply in_map_iff in Hr. destruct Hr as (s & <- & Hs). apply in_seq in Hs. cbn. destruct (nth_error (tp_units T) u) as [(bs & ss)|]; [|lia]. destruct (nth_error ss s) as [x|] eqn:E; [exists x; reflexivity|]. apply nth_error_None in E. lia.
  - destruct r as [u s|s]; [|intros []]. intros (x & Hx). cbn in Hx. destruct (nth_error (tp_units T) u) as [(bs & ss)|] eqn:E; [|discriminate]. eexists. split; [apply in_map_iff; exists u; split; [reflexivity|]; apply in_seq; split; [lia|]; apply nth_error_Some; congruence|].
    rewrite E. apply in_map. apply in_seq. split; [lia|]. cbn. apply nth_error_Some. congruence.
Qed.
Lemma computed_nodup T : NoDup (computed_splitters T).
Proof.
  unfold computed_splitters. generalize (length (tp_units T)) as n. intros n. generalize (0%nat) at 3 as o. induction n as [|n IH]; intros o; cbn [seq map concat]; [constructor|].
  assert (K : forall (u : nat) m p, NoDup (map (UnitSplitter u) (seq p m))). { intros u m. induction m as [|m IHm]; intros p; cbn; constructor; [|apply IHm]. intros Hi. apply in_map_iff in Hi. destruct Hi as (s & Es & Hs). injection Es as ->. apply in_seq in Hs. lia. }
  assert (D : forall (a b : list sref), NoDup a -> NoDup b -> (forall x, In x a -> In x b -> False) -> NoDup (a ++ b)).
  { induction a as [|y a IHa]; intros b Na Nb Hd; [exact Nb|]. inversion_clear Na as [|? ? N1 N2]. cbn. constructor; [rewrite in_app_iff; intros [Hi|Hi]; [auto|exact (Hd y ltac:(left; reflexivity) Hi)]|]. apply IHa; auto. intros x Hx. apply Hd. right. exact Hx. }
  apply D; [apply K|apply IH|]. intros r H1 H2. apply in_map_iff in H1. destruct H1 as (s & <- & _). apply in_concat in H2. destruct H2 as (l & Hl & Hr). apply in_map_iff in Hl. destruct Hl as (u & <- & Hu). apply in_map_iff in Hr. destruct Hr as (s' & Es & _). injection Es as -> _. apply in_seq in Hu. lia.
Qed.
Lemma untouched T : forall l st r k, ~ In r l -> ss_out (fold_left (compute_splitter T) l st) r k = ss_out st r k.
Proof.
  induction l as [|x l IH]; intros st r k N; [reflexivity|]. cbn [fold_left]. rewrite IH by (intros H; apply N; right; exact H). unfold compute_splitter. destruct (splitter_of T x); [|reflexivity]. cbn [ss_out].
  destruct (sref_eqb r x) eqn:E; [|reflexivity]. apply sref_eqb_iff in E. subst x. destruct N. left. reflexivity.
Qed.
Lemma inputs_kept T : forall l st r, (forall s sp, In s l -> splitter_of T s = Some sp -> ~ In (ToSplitter r) (ts_outputs sp)) -> ss_in (fold_left (compute_splitter T) l st) r = ss_in st r.
Proof.
  induction l as [|x l IH]; intros st r N; [reflexivity|]. cbn [fold_left]. rewrite IH by (intros; apply (N s); [right; assumption|assumption]). unfold compute_splitter. destruct (splitter_of T x) as [sp|] eqn:E; [|reflexivity]. cbn [ss_in]. unfold feed.
  destruct (existsb _ (ts_outputs sp)) eqn:Ex; [|reflexivity]. apply existsb_exists in Ex. destruct Ex as (f & Hf & Ef). destruct f as [ | |r'| |]; try discriminate. apply sref_eqb_iff in Ef. subst r'. destruct (N x sp ltac:(left; reflexivity) E Hf).
Qed.
(** A splitter of a unit that no other splitter feeds passes on, in each step, the water that reached it, to every output. *)
Theorem c56_unit_splitter : forall T arrive st u s sp x k, splitter_of T (UnitSplitter u s) = Some sp -> arrive (UnitSplitter u s) = Some x ->
  (forall s' sp', splitter_of T s' = Some sp' -> ~ In (ToSplitter (UnitSplitter u s)) (ts_outputs sp')) -> (k < length (ts_outputs sp))%nat ->
  ss_out (splitters_step T arrive st) (UnitSplitter u s) k = x.
Proof.
  intros T arrive st u s sp x k Hs Ha N Hk. unfold splitters_step. assert (Hi : In (UnitSplitter u s) (computed_splitters T)) by (apply computed_iff; exists sp; exact Hs).
  apply in_split in Hi. destruct Hi as (l1 & l2 & E). pose proof (computed_nodup T) as ND. rewrite E in ND. apply NoDup_remove_2 in ND. rewrite E, fold_left_app. cbn [fold_left].
  rewrite untouched by (intros H; apply ND; apply in_app_iff; auto). unfold compute_splitter at 1. rewrite Hs. cbn [ss_out]. rewrite (proj2 (sref_eqb_iff _ _) eq_refl). apply Nat.ltb_lt in Hk. rewrite Hk. cbn [andb].
  rewrite inputs_kept by (intros s' sp' _ Hsp; exact (N s' sp' Hsp)). cbn [ss_in]. rewrite Ha. reflexivity.
Qed.
Print Assumptions c56_unit_splitter.
(** Refuted: whatever reaches a splitter of the sub-basin, in any history, its outputs stay without water. *)
Theorem c56_sub_basin_never : forall T h s k, ss_out (splitters_run T h no_water) (BasinSplitter s) k = 0.
Proof.
  intros T h s k. assert (G : forall st, ss_out st (BasinSplitter s) k = 0 -> ss_out (splitters_run T h st) (BasinSplitter s) k = 0); [|apply G; reflexivity].
  induction h as [|a h IH]; intros st H; [exact H|]. cbn [splitters_run]. apply IH. unfold splitters_step. rewrite untouched; [exact H|]. intros X. apply computed_iff in X. exact X.
Qed.
Print Assumptions c56_sub_basin_never.
Theorem c56_sub_basin_refuted : ~ (forall T h arrive s sp x k, splitter_of T (BasinSplitter s) = Some sp -> arrive (BasinSplitter s) = Some x ->
  (k < length (ts_outputs sp))%nat -> ss_out (splitters_run T (h ++ [arrive]) no_water) (BasinSplitter s) k = x).
Proof.
  intros H. specialize (H (mkT [] [] [mkTS [ToOutlet]]) [] (fun _ => Some 1) 0%nat _ 1 0%nat eq_refl eq_refl ltac:(cbn; lia)). rewrite c56_sub_basin_never in H. lra.
Qed.
Print Assumptions c56_sub_basin_refuted.
(** A rain splitter of a unit that feeds two covers. *)
Definition split56 : topology := mkT [([mkTB false []; mkTB false []], [mkTS [ToBrick (UnitBrick 0 0); ToBrick (UnitBrick 0 1)]])] [] [].
Example c56_case : ss_out (splitters_step split56 (fun _ => Some 7) no_water) (UnitSplitter 0 0) 1 = 7.
Proof. reflexivity. Qed.
(** Refuted: the outputs together carry as many times the input as there are outputs; only the areas of the covers make up for it. *)
Theorem c56_copies_refuted : ~ (forall T arrive st u s sp x, splitter_of T (UnitSplitter u s) = Some sp -> arrive (UnitSplitter u s) = Some x ->
  fold_right Rplus 0 (map (ss_out (splitters_step T arrive st) (UnitSplitter u s)) (seq 0 (length (ts_outputs sp)))) = x).
Proof. intros H. specialize (H split56 (fun _ => Some 7) no_water 0%nat 0%nat _ 7 eq_refl eq_refl). cbn in H. lra. Qed.
Print Assumptions c56_copies_refuted.
