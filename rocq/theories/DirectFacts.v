(** Lemmas about the direct path. *)
From Coq Require Import Permutation.
From Verif Require Import Base BaseFacts Container ContainerFacts Direct DirectSpec.

Lemma add_stat_level x w : c_infinite w = false -> level (add_stat x w) = level w + x.
Proof. unfold level, add_stat; intros ->; simpl; lra. Qed.
Lemma add_dyn_level x w : c_infinite w = false -> level (add_dyn x w) = level w + x.
Proof. unfold level, add_dyn; intros ->; simpl; lra. Qed.
Lemma sub_dyn_level x w : c_infinite w = false -> level (sub_dyn x w) = level w - x.
Proof. unfold level, sub_dyn; intros ->; simpl; lra. Qed.

(** Same nature: infinite flag, negative permission, initial state and committed content. *)
Definition same_kind (w w' : container) : Prop :=
  c_infinite w' = c_infinite w /\ c_allowneg w' = c_allowneg w /\ c_content w' = c_content w /\ c_init w' = c_init w.
Lemma same_kind_refl w : same_kind w w.
Proof. repeat split. Qed.
Lemma same_kind_trans a b c : same_kind a b -> same_kind b c -> same_kind a c.
Proof. intros (A&B&C&D) (E&F&G&H); repeat split; congruence. Qed.
Lemma add_stat_kind x w : same_kind w (add_stat x w).
Proof. unfold add_stat; destruct (c_infinite w) eqn:E; repeat split; simpl; congruence. Qed.
Lemma add_dyn_kind x w : same_kind w (add_dyn x w).
Proof. unfold add_dyn; destruct (c_infinite w) eqn:E; repeat split; simpl; congruence. Qed.
Lemma sub_dyn_kind x w : same_kind w (sub_dyn x w).
Proof. unfold sub_dyn; destruct (c_infinite w) eqn:E; repeat split; simpl; congruence. Qed.

(** Amount released at rate [r]. *)
Definition moved (dt r : R) : R := if Rltb PRECISION r then r * dt else 0.

Lemma moved_nonneg dt r : 0 < dt -> 0 <= moved dt r.
Proof. intros; unfold moved; destruct (Rltb_spec PRECISION r); [|lra]. pose proof PRECISION_pos. apply Rmult_le_pos; lra. Qed.
Lemma moved_le dt r : 0 < dt -> 0 <= r -> moved dt r <= r * dt.
Proof. intros; unfold moved; destruct (Rltb_spec PRECISION r); [lra|]. apply Rmult_le_pos; lra. Qed.

Lemma rate_moves r : GreaterThan (if Rltb r 0 then 0 else r) 0 PRECISION = Rltb PRECISION r.
Proof.
  unfold GreaterThan. pose proof PRECISION_pos.
  destruct (Rltb_spec r 0); destruct (Rltb_spec PRECISION r); try lra.
  - apply Rltb_false; lra.
  - apply Rltb_true; lra.
  - apply Rltb_false; lra.
Qed.

Lemma apply_dconn_rate B dt c s k j : ds_rate (apply_dconn B dt c s k) j = if Nat.eqb j k then 0 else ds_rate s j.
Proof. reflexivity. Qed.
Lemma apply_dconn_amount B dt c s k j :
  ds_amount (apply_dconn B dt c s k) j =
  if Nat.eqb j k then dweighted (dconn_at B k) (moved dt (ds_rate s k)) else ds_amount s j.
Proof.
  unfold apply_dconn. rewrite rate_moves. simpl. unfold upd. destruct (Nat.eqb_spec j k); [|reflexivity].
  f_equal. unfold moved. pose proof PRECISION_pos. destruct (Rltb_spec PRECISION (ds_rate s k)); [|reflexivity].
  destruct (Rltb_spec (ds_rate s k) 0); [lra|reflexivity].
Qed.

Lemma updc_same f c v : updc f c v c = v.
Proof. unfold updc; rewrite Nat.eqb_refl; reflexivity. Qed.
Lemma updc_other f c v j : j <> c -> updc f c v j = f j.
Proof. unfold updc; intros H; destruct (Nat.eqb_spec j c); congruence. Qed.

Lemma apply_dconn_kind B dt c s k j : same_kind (ds_cont s j) (ds_cont (apply_dconn B dt c s k) j).
Proof.
  unfold apply_dconn; cbn [ds_cont].
  set (r := if Rltb (ds_rate s k) 0 then 0 else ds_rate s k).
  set (a := dweighted _ _).
  set (c1 := match d_tgt (dconn_at B k) with Inside c' => _ | _ => _ end).
  assert (H1 : same_kind (ds_cont s j) (c1 j)).
  { unfold c1; destruct (d_tgt (dconn_at B k)) as [c'| |]; try apply same_kind_refl.
    unfold updc; destruct (Nat.eqb_spec j c'); [subst; apply add_stat_kind|apply same_kind_refl]. }
  destruct (GreaterThan r 0 PRECISION); [|exact H1].
  apply (same_kind_trans _ (c1 j)); [exact H1|].
  unfold updc; destruct (Nat.eqb_spec j c); [subst; apply sub_dyn_kind|apply same_kind_refl].
Qed.

Definition into (B : dbrick) (k c : nat) : bool :=
  match d_tgt (dconn_at B k) with Inside c' => Nat.eqb c' c | _ => false end.

Lemma apply_dconn_level B dt c s k j : c_infinite (ds_cont s j) = false ->
  level (ds_cont (apply_dconn B dt c s k) j) =
  level (ds_cont s j)
  + (if into B k j then ds_amount (apply_dconn B dt c s k) k else 0)
  - (if Nat.eqb j c then moved dt (ds_rate s k) else 0).
Proof.
  intros Hinf. rewrite apply_dconn_amount, Nat.eqb_refl.
  pose proof (rate_moves (ds_rate s k)) as Hm.
  unfold apply_dconn; cbn [ds_cont]. rewrite Hm.
  assert (Ea : (if Rltb PRECISION (ds_rate s k) then (if Rltb (ds_rate s k) 0 then 0 else ds_rate s k) * dt else 0)
               = moved dt (ds_rate s k)).
  { unfold moved. pose proof PRECISION_pos. destruct (Rltb_spec PRECISION (ds_rate s k)); [|reflexivity].
    destruct (Rltb_spec (ds_rate s k) 0); [lra|reflexivity]. }
  rewrite Ea. set (a := dweighted _ _). unfold into.
  set (c1 := match d_tgt (dconn_at B k) with Inside c' => _ | _ => _ end).
  assert (H1 : level (c1 j) = level (ds_cont s j) +
     (if match d_tgt (dconn_at B k) with Inside c' => Nat.eqb c' j | _ => false end then a else 0)).
  { unfold c1; destruct (d_tgt (dconn_at B k)) as [c'| |]; try lra.
    unfold updc. rewrite (Nat.eqb_sym c' j). destruct (Nat.eqb_spec j c'); [|lra].
    subst c'. rewrite add_stat_level by assumption. lra. }
  assert (H2 : c_infinite (c1 j) = false).
  { unfold c1; destruct (d_tgt (dconn_at B k)) as [c'| |]; auto.
    unfold updc; destruct (Nat.eqb_spec j c'); [|auto]. subst c'.
    destruct (add_stat_kind a (ds_cont s j)) as (E&_). congruence. }
  unfold moved in *. pose proof PRECISION_pos.
  destruct (Rltb_spec PRECISION (ds_rate s k)).
  - assert (Er : (if Rltb (ds_rate s k) 0 then 0 else ds_rate s k) = ds_rate s k).
    { destruct (Rltb_spec (ds_rate s k) 0); [lra|reflexivity]. }
    rewrite Er. unfold updc. destruct (Nat.eqb_spec j c).
    + subst c. rewrite sub_dyn_level by assumption. lra.
    + lra.
  - destruct (Nat.eqb j c); lra.
Qed.

(** All outputs of one process. *)
Lemma apply_outs B dt c : forall l s, NoDup l ->
  let s' := fold_left (apply_dconn B dt c) l s in
  (forall k, In k l -> ds_rate s' k = 0 /\ ds_amount s' k = dweighted (dconn_at B k) (moved dt (ds_rate s k))) /\
  (forall k, ~ In k l -> ds_rate s' k = ds_rate s k /\ ds_amount s' k = ds_amount s k) /\
  (forall j, same_kind (ds_cont s j) (ds_cont s' j)) /\
  (forall j, c_infinite (ds_cont s j) = false ->
     level (ds_cont s' j) = level (ds_cont s j)
       + Rsum (fun k => if into B k j then ds_amount s' k else 0) l
       - (if Nat.eqb j c then Rsum (fun k => moved dt (ds_rate s k)) l else 0)).
Proof.
  induction l as [|k l IH]; intros s Hnd; simpl.
  - repeat split; try tauto. intros j _. destruct (Nat.eqb j c); lra.
  - inversion Hnd as [|? ? Hk Hnd']; subst.
    specialize (IH (apply_dconn B dt c s k) Hnd'). cbn zeta in IH.
    destruct IH as (I1&I2&I3&I4). set (s' := fold_left _ l _) in *.
    assert (Hne : forall j, In j l -> Nat.eqb j k = false).
    { intros j Hj. apply Nat.eqb_neq. intros ->; tauto. }
    split; [|split; [|split]].
    + intros j [<-|Hj].
      * destruct (I2 k Hk) as (A&B'). rewrite A, B'. rewrite apply_dconn_rate, apply_dconn_amount, Nat.eqb_refl. auto.
      * destruct (I1 j Hj) as (A&B'). rewrite A, B'. rewrite apply_dconn_rate, (Hne j Hj). auto.
    + intros j Hj. assert (Hjk : j <> k) by (intros ->; tauto). assert (Hjl : ~ In j l) by tauto.
      destruct (I2 j Hjl) as (A&B'). rewrite A, B'. rewrite apply_dconn_rate, apply_dconn_amount.
      apply Nat.eqb_neq in Hjk; rewrite Hjk. auto.
    + intros j. eapply same_kind_trans; [apply apply_dconn_kind|apply I3].
    + intros j Hj.
      assert (Hj' : c_infinite (ds_cont (apply_dconn B dt c s k) j) = false).
      { destruct (apply_dconn_kind B dt c s k j) as (E&_). congruence. }
      rewrite (I4 j Hj'), apply_dconn_level by assumption.
      assert (E : ds_amount s' k = ds_amount (apply_dconn B dt c s k) k) by (apply I2; exact Hk).
      rewrite <- E.
      assert (E2 : Rsum (fun k0 => moved dt (ds_rate (apply_dconn B dt c s k) k0)) l
                   = Rsum (fun k0 => moved dt (ds_rate s k0)) l).
      { apply Rsum_ext_in. intros j' Hj2. rewrite apply_dconn_rate, (Hne j' Hj2). reflexivity. }
      rewrite E2. destruct (Nat.eqb j c); lra.
Qed.

Lemma finalize_spec w : c_infinite w = false ->
  c_content (finalize w) = finalize_value (c_allowneg w) (level w).
Proof. unfold finalize, level; intros ->; cbn [c_content]. f_equal. lra. Qed.

Lemma douts_in B c k : In k (douts B c) <-> exists p, In p (db_procs B) /\ p_cont p = c /\ In k (p_conns p).
Proof.
  unfold douts. rewrite in_concat. split.
  - intros (l & Hl & Hk). apply in_map_iff in Hl. destruct Hl as (p & <- & Hp). apply filter_In in Hp.
    destruct Hp as (Hp & E). apply Nat.eqb_eq in E. eauto.
  - intros (p & Hp & E & Hk). exists (p_conns p). split; [|exact Hk]. apply in_map. apply filter_In. split; [exact Hp|].
    apply Nat.eqb_eq; exact E.
Qed.

Lemma NoDup_app_l {A} (l1 l2 : list A) : NoDup (l1 ++ l2) -> NoDup l1.
Proof.
  induction l1 as [|a l1 IH]; simpl; intros H; [constructor|]. inversion H as [|? ? Ha Hn]; subst.
  constructor; [|auto]. intros Hi; apply Ha; apply in_or_app; auto.
Qed.
Lemma NoDup_app_r {A} (l1 l2 : list A) : NoDup (l1 ++ l2) -> NoDup l2.
Proof. induction l1 as [|a l1 IH]; simpl; intros H; [exact H|]. inversion H; auto. Qed.

Lemma concat_NoDup_piece {A} (f : A -> list nat) l p : NoDup (concat (map f l)) -> In p l -> NoDup (f p).
Proof.
  induction l as [|a l IH]; simpl; intros H Hp; [tauto|].
  destruct Hp as [->|Hp].
  - eapply NoDup_app_l; exact H.
  - apply IH; [|exact Hp]. eapply NoDup_app_r; exact H.
Qed.

Lemma NoDup_app_disj (l1 l2 : list nat) : NoDup (l1 ++ l2) -> forall k, In k l1 -> ~ In k l2.
Proof.
  induction l1 as [|a l1 IH]; simpl; intros H k Hk Hk2; [tauto|].
  inversion H as [|? ? Ha Hn]; subst. destruct Hk as [<-|Hk].
  - apply Ha. apply in_or_app; auto.
  - exact (IH Hn k Hk Hk2).
Qed.

Lemma douts_NoDup B c : NoDup (concat (map p_conns (db_procs B))) -> NoDup (douts B c).
Proof.
  unfold douts. induction (db_procs B) as [|p l IH]; simpl; intros H; [constructor|].
  pose proof (IH (NoDup_app_r _ _ H)) as Hl. destruct (Nat.eqb (p_cont p) c); simpl; [|exact Hl].
  assert (Hp : NoDup (p_conns p)) by (eapply NoDup_app_l; exact H).
  pose proof (NoDup_app_disj _ _ H) as Hd. clear H IH.
  induction (p_conns p) as [|k q IHq]; simpl; [exact Hl|].
  inversion Hp as [|? ? Hk Hq]; subst. constructor.
  - intros Hin. apply in_app_or in Hin. destruct Hin as [Hin|Hin]; [tauto|].
    apply (Hd k); [left; reflexivity|]. apply in_concat in Hin. destruct Hin as (x & Hx & Hkx).
    apply in_map_iff in Hx. destruct Hx as (p' & <- & Hp'). apply filter_In in Hp'. apply in_concat.
    exists (p_conns p'). split; [|exact Hkx]. apply in_map; tauto.
  - apply IHq; [exact Hq|]. intros k' Hk'. apply Hd; right; exact Hk'.
Qed.

Lemma Rsum_perm {A} (f : A -> R) l l' : Permutation l l' -> Rsum f l = Rsum f l'.
Proof. induction 1; simpl; lra. Qed.

Section Step.
Variables (B : dbrick) (dt : R) (inp : dinputs) (f : dlaw).
Hypothesis Hdt : 0 < dt.

(** The list of processes leaves a ledger: released amounts per connection. *)
Lemma procs_books : forall l s s', NoDup (concat (map p_conns l)) -> dprocesses B dt inp f s l = Ok s' ->
  exists rel : nat -> R,
  (forall k, 0 <= rel k) /\
  (forall k, In k (concat (map p_conns l)) -> ds_amount s' k = dweighted (dconn_at B k) (rel k)) /\
  (forall k, ~ In k (concat (map p_conns l)) -> ds_amount s' k = ds_amount s k) /\
  (forall j, same_kind (ds_cont s j) (ds_cont s' j)) /\
  (forall j, c_infinite (ds_cont s j) = false ->
     level (ds_cont s' j) = level (ds_cont s j)
       + Rsum (fun k => if into B k j then ds_amount s' k else 0) (concat (map p_conns l))
       - Rsum rel (concat (map p_conns (filter (fun p => Nat.eqb (p_cont p) j) l)))).
Proof.
  induction l as [|p l IH]; cbn [dprocesses map concat filter]; intros s s' Hnd H.
  - injection H as <-. exists (fun _ => 0). split; [intros; lra|]. split; [intros k []|]. split; [reflexivity|].
    split; [intros; apply same_kind_refl|]. intros; simpl; lra.
  - apply bind_ok in H. destruct H as (s1 & H1 & H2). unfold dprocess in H1. apply bind_ok in H1.
    destruct H1 as (r & Hr & H1). injection H1 as H1.
    pose proof (NoDup_app_disj _ _ Hnd) as Hdj.
    destruct (IH s1 s' (NoDup_app_r _ _ Hnd) H2) as (rel & P0 & P1 & P2 & P3 & P4).
    destruct (apply_outs B dt (p_cont p) (p_conns p) (mkDS (ds_cont s) r (ds_amount s)) (NoDup_app_l _ _ Hnd))
      as (Q1 & Q2 & Q3 & Q4). cbn [ds_cont ds_rate ds_amount] in *. rewrite H1 in *.
    exists (fun k => if mem k (p_conns p) then moved dt (r k) else rel k).
    assert (Hout : forall k, In k (concat (map p_conns l)) -> mem k (p_conns p) = false).
    { intros k Hk. apply mem_not_in. intros Hk'. exact (Hdj k Hk' Hk). }
    split; [|split; [|split; [|split]]].
    + intros k. destruct (mem k (p_conns p)); [apply moved_nonneg; exact Hdt|apply P0].
    + intros k Hk. apply in_app_or in Hk. destruct Hk as [Hk|Hk].
      * rewrite (P2 k (Hdj k Hk)). destruct (Q1 k Hk) as (_&->).
        rewrite (proj2 (mem_in k _) Hk). reflexivity.
      * rewrite (P1 k Hk), (Hout k Hk). reflexivity.
    + intros k Hk. assert (~ In k (p_conns p) /\ ~ In k (concat (map p_conns l))) as (Ha & Hb).
      { split; intros Hx; apply Hk; apply in_or_app; auto. }
      rewrite (P2 k Hb). apply Q2; exact Ha.
    + intros j. eapply same_kind_trans; [apply Q3|apply P3].
    + intros j Hj. assert (Hj1 : c_infinite (ds_cont s1 j) = false).
      { destruct (Q3 j) as (E&_). congruence. }
      rewrite (P4 j Hj1), (Q4 j Hj), Rsum_app.
      assert (E1 : Rsum (fun k => if into B k j then ds_amount s1 k else 0) (p_conns p)
                 = Rsum (fun k => if into B k j then ds_amount s' k else 0) (p_conns p)).
      { apply Rsum_ext_in; intros k Hk. rewrite (P2 k (Hdj k Hk)). reflexivity. }
      rewrite E1. rewrite (Nat.eqb_sym j (p_cont p)).
      set (F := fun k => if mem k (p_conns p) then moved dt (r k) else rel k).
      assert (E3 : Rsum F (concat (map p_conns (filter (fun p0 => Nat.eqb (p_cont p0) j) l)))
                 = Rsum rel (concat (map p_conns (filter (fun p0 => Nat.eqb (p_cont p0) j) l)))).
      { apply Rsum_ext_in; intros k Hk. unfold F. rewrite Hout; [reflexivity|].
        apply in_concat in Hk. destruct Hk as (x & Hx & Hkx). apply in_map_iff in Hx. destruct Hx as (q & <- & Hq).
        apply filter_In in Hq. apply in_concat. exists (p_conns q). split; [apply in_map; tauto|exact Hkx]. }
      destruct (Nat.eqb (p_cont p) j); cbn [map concat].
      * rewrite Rsum_app, E3.
        assert (E2 : Rsum F (p_conns p) = Rsum (fun k => moved dt (r k)) (p_conns p)).
        { apply Rsum_ext_in; intros k Hk. unfold F. rewrite (proj2 (mem_in k _) Hk). reflexivity. }
        rewrite E2. lra.
      * rewrite E3. lra.
Qed.

Lemma dweighted_reports d x : dreports d x (dweighted d x).
Proof.
  unfold dreports, dweighted. split.
  - intros Hf. destruct (d_tgt d).
    + destruct (Req_EM_T (d_frac d) 1) as [E|E].
      * rewrite (proj2 (Reqb_true _ _) E), E; lra.
      * rewrite (proj2 (Reqb_false _ _) E); reflexivity.
    + destruct Hf as [Hf|Hf]; [|congruence].
      destruct (Rltb_spec (d_frac d) 1); [reflexivity|]. assert (d_frac d = 1) as -> by lra. lra.
    + destruct (Req_EM_T (d_frac d) 1) as [E|E].
      * rewrite (proj2 (Reqb_true _ _) E), E; lra.
      * rewrite (proj2 (Reqb_false _ _) E); reflexivity.
  - intros -> Hf. destruct (Rltb_spec (d_frac d) 1); [lra|reflexivity].
Qed.

Lemma take_kind s c : same_kind (ds_cont s c) (ds_cont (take_inputs B inp s) c).
Proof.
  unfold take_inputs; cbn [ds_cont]. destruct (mem c (db_conts B)); [|apply same_kind_refl].
  destruct (db_static B c); [apply add_stat_kind|apply add_dyn_kind].
Qed.
Lemma take_level s c : In c (db_conts B) -> c_infinite (ds_cont s c) = false ->
  level (ds_cont (take_inputs B inp s) c) = level (ds_cont s c) + (i_forced inp c + i_plain inp c).
Proof.
  intros Hc Hi. unfold take_inputs; cbn [ds_cont]. rewrite (proj2 (mem_in c _) Hc).
  destruct (db_static B c); [apply add_stat_level|apply add_dyn_level]; assumption.
Qed.

Lemma direct_books s s' : dvalid B -> direct_step B dt inp f s = Ok s' ->
  exists (rel : nat -> R) (s1 : dstate), dprocesses B dt inp f (take_inputs B inp s) (db_procs B) = Ok s1 /\
  (forall k, 0 <= rel k) /\
  (forall k, (k < length (db_conns B))%nat -> dreports (dconn_at B k) (rel k) (ds_amount s' k)) /\
  (forall c, In c (db_conts B) -> c_infinite (ds_cont s c) = false ->
     c_content (ds_cont s' c) = finalize_value (c_allowneg (ds_cont s c)) (dbook B inp s s' rel c)
     /\ level (ds_cont s1 c) = dbook B inp s s' rel c
     /\ dpending s' c = 0 /\ c_infinite (ds_cont s' c) = false /\ c_allowneg (ds_cont s' c) = c_allowneg (ds_cont s c)).
Proof.
  intros HB H. unfold direct_step in H. apply bind_ok in H. destruct H as (s1 & H1 & H). injection H as <-.
  destruct (procs_books _ _ _ (dv_nodup B HB) H1) as (rel & P0 & P1 & P2 & P3 & P4).
  exists rel, s1. split; [exact H1|]. cbn [ds_amount ds_cont]. split; [exact P0|]. split.
  - intros k Hk. rewrite (P1 k (proj2 (dv_range B HB k) Hk)). apply dweighted_reports.
  - intros c Hc Hinf. cbn [ds_cont]. rewrite (proj2 (mem_in c _) Hc).
    assert (Hi1 : c_infinite (ds_cont (take_inputs B inp s) c) = false).
    { destruct (take_kind s c) as (E&_). congruence. }
    destruct (P3 c) as (K1&K2&K3&K4). destruct (take_kind s c) as (L1&L2&L3&L4).
    assert (Hi2 : c_infinite (ds_cont s1 c) = false) by congruence.
    assert (EL : level (ds_cont s1 c) = c_content (ds_cont s c) + dpending s c + (i_forced inp c + i_plain inp c)
                  + Rsum (ds_amount s1) (dins B c) - Rsum rel (douts B c)).
    { rewrite (P4 c Hi1), (take_level s c Hc Hinf).
      unfold dpending, level.
      assert (E : Rsum (fun k => if into B k c then ds_amount s1 k else 0) (concat (map p_conns (db_procs B)))
                  = Rsum (ds_amount s1) (dins B c)).
      { unfold dins. rewrite Rsum_filter_if. fold (into B). apply Rsum_perm.
        apply NoDup_Permutation; [apply dv_nodup; exact HB|apply seq_NoDup|].
        intros k. rewrite (dv_range B HB k), in_seq. lia. }
      rewrite E. unfold douts. lra. }
    split; [|split; [|split; [|split]]].
    + rewrite (finalize_spec _ Hi2). rewrite K2, L2, EL. reflexivity.
    + exact EL.
    + unfold dpending; cbn [ds_cont]. rewrite (proj2 (mem_in c _) Hc). unfold finalize. rewrite Hi2. cbn. lra.
    + unfold finalize; rewrite Hi2; reflexivity.
    + unfold finalize; rewrite Hi2; cbn. congruence.
Qed.
End Step.
