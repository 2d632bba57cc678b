(** Lemmas about the schedule of actions. *)
From Coq Require Import Permutation Sorted.
From Verif Require Import Base BaseFacts Actions.
Open Scope R_scope.

(** *** Sorted insertion *)
Lemma insert_perm {X} i (x : X) l : Permutation (insert_at i x l) (x :: l).
Proof.
  unfold insert_at. rewrite <- (firstn_skipn i l) at 3. symmetry. apply Permutation_middle.
Qed.
Lemma insert_index_le d l : (insert_index d l <= length l)%nat.
Proof. induction l as [|x l IH]; cbn; [lia|]. destruct (Rleb d x); cbn; lia. Qed.

Definition sorted {X} (key : X -> R) (l : list X) : Prop := StronglySorted (fun a b => key a <= key b) l.

Lemma sorted_firstn {X} (key : X -> R) i l : sorted key l -> sorted key (firstn i l).
Proof.
  unfold sorted. revert i. induction l as [|a l IH]; intros [|i] H; cbn; try constructor.
  - inversion H as [|x y H1 H2]; subst. apply IH. exact H1.
  - inversion H as [|x y H1 H2]; subst. rewrite Forall_forall in *. intros x Hx. apply H2. rewrite <- (firstn_skipn i l). apply in_or_app. left. exact Hx.
Qed.
Lemma sorted_skipn {X} (key : X -> R) i l : sorted key l -> sorted key (skipn i l).
Proof.
  unfold sorted. revert i. induction l as [|a l IH]; intros [|i] H; cbn; auto; try constructor.
  inversion H as [|x y H1 H2]; subst. apply IH. exact H1.
Qed.
Lemma sorted_app {X} (key : X -> R) l1 l2 : sorted key l1 -> sorted key l2 -> (forall a b, In a l1 -> In b l2 -> key a <= key b) -> sorted key (l1 ++ l2).
Proof.
  unfold sorted. induction l1 as [|a l1 IH]; intros H1 H2 H; cbn; [exact H2|].
  inversion H1 as [|x y H3 H4]; subst. constructor.
  - apply IH; auto. intros b c Hb Hc. apply H; [right|]; assumption.
  - rewrite Forall_forall in *. intros x Hx. apply in_app_or in Hx. destruct Hx as [Hx|Hx]; [apply H4; exact Hx|]. apply H; [left; reflexivity|exact Hx].
Qed.
Lemma sorted_split {X} (key : X -> R) i l : sorted key l -> forall a b, In a (firstn i l) -> In b (skipn i l) -> key a <= key b.
Proof.
  unfold sorted. revert i. induction l as [|x l IH]; intros [|i] H a b Ha Hb; cbn in *; try contradiction.
  inversion H as [|y z H1 H2]; subst. rewrite Forall_forall in H2. destruct Ha as [<-|Ha].
  - apply H2. rewrite <- (firstn_skipn i l). apply in_or_app. right. exact Hb.
  - apply (IH i H1 a b Ha Hb).
Qed.

(** Elements before the insertion index are earlier, those from it on are not. *)
Lemma insert_index_before {X} (key : X -> R) d l : forall a, In a (firstn (insert_index d (map key l)) l) -> key a < d.
Proof.
  induction l as [|x l IH]; intros a Ha; cbn in Ha; [contradiction|].
  destruct (Rleb_spec d (key x)) as [H|H]; cbn in Ha; [contradiction|]. destruct Ha as [<-|Ha]; [exact H|apply IH; exact Ha].
Qed.
Lemma insert_index_after {X} (key : X -> R) d l : sorted key l -> forall a, In a (skipn (insert_index d (map key l)) l) -> d <= key a.
Proof.
  unfold sorted. induction l as [|x l IH]; intros Hs a Ha; cbn in Ha; [contradiction|].
  inversion Hs as [|y z H1 H2]; subst. destruct (Rleb_spec d (key x)) as [H|H]; cbn in Ha.
  - destruct Ha as [<-|Ha]; [exact H|]. rewrite Forall_forall in H2. specialize (H2 a Ha). lra.
  - apply IH; assumption.
Qed.
Lemma insert_sorted {X} (key : X -> R) i x l : sorted key l -> (forall a, In a (firstn i l) -> key a <= key x) ->
  (forall a, In a (skipn i l) -> key x <= key a) -> sorted key (insert_at i x l).
Proof.
  intros Hs H1 H2. unfold insert_at. apply sorted_app.
  - apply sorted_firstn. exact Hs.
  - constructor; [apply sorted_skipn; exact Hs|]. rewrite Forall_forall. exact H2.
  - intros a b Ha [<-|Hb]; [apply H1; exact Ha|]. apply (sorted_split key i l Hs); assumption.
Qed.

Lemma build_sorted {A} (changes : list (R * A)) : sorted fst (build_action changes) /\ Permutation (build_action changes) changes.
Proof.
  unfold build_action. assert (H : forall (l acc : list (R * A)), sorted fst acc -> sorted fst (fold_left (fun l x => add_change x l) l acc) /\
     Permutation (fold_left (fun l x => add_change x l) l acc) (l ++ acc)).
  { induction l as [|x l IH]; intros acc Hs; cbn; [split; [exact Hs|reflexivity]|].
    assert (Hs' : sorted fst (add_change x acc)).
    { unfold add_change. apply insert_sorted; [exact Hs| |].
      - intros a Ha. apply insert_index_before in Ha. lra.
      - apply insert_index_after. exact Hs. }
    destruct (IH _ Hs') as (I1 & I2). split; [exact I1|]. rewrite I2. unfold add_change. rewrite insert_perm.
    symmetry. apply Permutation_middle. }
  destruct (H changes [] ltac:(constructor)) as (A1 & A2). split; [exact A1|]. rewrite app_nil_r in A2. exact A2.
Qed.

(** Two sorted lists of dates with the same elements are equal. *)
Lemma sorted_unique (l1 l2 : list R) : sorted (fun x => x) l1 -> sorted (fun x => x) l2 -> Permutation l1 l2 -> l1 = l2.
Proof.
  unfold sorted. revert l2. induction l1 as [|a l1 IH]; intros l2 H1 H2 P.
  - apply Permutation_nil in P. congruence.
  - destruct l2 as [|b l2]; [symmetry in P; apply Permutation_nil in P; discriminate|].
    inversion H1 as [|x y A1 A2]; subst. inversion H2 as [|x y B1 B2]; subst. rewrite Forall_forall in A2, B2.
    assert (E : a = b).
    { assert (X : In a (b :: l2)) by (eapply Permutation_in; [exact P|left; reflexivity]).
      assert (Y : In b (a :: l1)) by (eapply Permutation_in; [symmetry; exact P|left; reflexivity]).
      destruct X as [X|X]; [auto|]. destruct Y as [Y|Y]; [auto|]. specialize (A2 b Y). specialize (B2 a X). lra. }
    subst b. f_equal. apply IH; auto. eapply Permutation_cons_inv. exact P.
Qed.
Lemma sorted_map {X} (key : X -> R) l : sorted key l <-> sorted (fun x => x) (map key l).
Proof.
  unfold sorted. induction l as [|a l IH]; cbn; [split; constructor|]. split; intros H; inversion H as [|x y H1 H2]; subst; constructor;
    try (apply IH; assumption); rewrite Forall_forall in *.
  - intros x Hx. apply in_map_iff in Hx. destruct Hx as (z & <- & Hz). apply H2. exact Hz.
  - intros x Hx. apply H2. apply in_map. exact Hx.
Qed.

(** *** The schedule *)
(** Dates of action [a] in the schedule. *)
Definition of_action (a : nat) (l : list (R * nat)) : list (R * nat) := filter (fun e => Nat.eqb (snd e) a) l.
Lemma filter_insert_other {X} (f : X -> bool) i x l : f x = false -> filter f (insert_at i x l) = filter f l.
Proof. intros H. unfold insert_at. rewrite filter_app. cbn. rewrite H. rewrite <- filter_app, firstn_skipn. reflexivity. Qed.
Lemma filter_sorted {X} (key : X -> R) f l : sorted key l -> sorted key (filter f l).
Proof.
  unfold sorted. induction l as [|a l IH]; intros H; cbn; [constructor|]. inversion H as [|x y H1 H2]; subst.
  destruct (f a); [|apply IH; exact H1]. constructor; [apply IH; exact H1|]. rewrite Forall_forall in *. intros x Hx. apply filter_In in Hx. apply H2. tauto.
Qed.
Lemma filter_perm {X} (f : X -> bool) l l' : Permutation l l' -> Permutation (filter f l) (filter f l').
Proof.
  induction 1 as [|x l l' H IH|x y l|l l' l'' H1 IH1 H2 IH2]; cbn.
  - constructor.
  - destruct (f x); [constructor|]; exact IH.
  - destruct (f x), (f y); try reflexivity. apply perm_swap.
  - etransitivity; eassumption.
Qed.

Lemma nth_skipn {X} (l : list X) i : skipn i l = [] \/ exists x, nth_error l i = Some x /\ skipn i l = x :: skipn (S i) l.
Proof.
  revert i. induction l as [|a l IH]; intros i; [left; destruct i; reflexivity|]. destruct i as [|i]; [right; exists a; auto|].
  destruct (IH i) as [H|(x & H1 & H2)]; [left; exact H|right; exists x; auto].
Qed.

Lemma firstn_add {X} i k (l : list X) : (i <= length l)%nat -> firstn (i + k) l = firstn i l ++ firstn k (skipn i l).
Proof. revert l. induction i as [|i IH]; intros l H; cbn; [reflexivity|]. destruct l as [|a l]; cbn in *; [lia|]. f_equal. apply IH. lia. Qed.
Lemma skipn_add {X} i k (l : list X) : skipn (i + k) l = skipn k (skipn i l).
Proof. revert l. induction i as [|i IH]; intros l; cbn; [reflexivity|]. destruct l as [|a l]; [destruct k; reflexivity|]. apply IH. Qed.

Lemma schedule_one_ok a index l date : sorted fst l -> (l = [] /\ index = 0%nat \/ (index < length l)%nat) ->
  exists index', schedule_one a (index, l) date = Ok (index', insert_at index' (date, a) l) /\
    sorted fst (insert_at index' (date, a) l) /\ (index' <= length l)%nat.
Proof.
  intros Hs Hi. unfold schedule_one.
  assert (X : exists i0, (match l with [] => Ok index | _ => match nth_error l index with None => UB | Some x => Ok (if Rltb date (fst x) then 0%nat else index) end end) = Ok i0 /\
     (i0 <= length l)%nat /\ (forall e, In e (firstn i0 l) -> fst e <= date)).
  { destruct l as [|e0 l0]; [exists index; destruct Hi as [(_ & ->)|Hi]; [|cbn in Hi; lia]; split; [reflexivity|split; [lia|intros e []]]|].
    destruct Hi as [(Hi & _)|Hi]; [discriminate|]. set (l := e0 :: l0) in *.
    destruct (nth_error l index) as [x|] eqn:E; [|apply nth_error_None in E; lia].
    destruct (Rltb_spec date (fst x)) as [H|H].
    - exists 0%nat. split; [reflexivity|]. split; [lia|intros e []].
    - exists index. split; [reflexivity|]. split; [lia|]. intros e He. apply Rle_trans with (fst x); [|exact H].
      apply (sorted_split fst index l Hs e x He). destruct (nth_skipn l index) as [Z|(y & Z1 & Z2)].
      + exfalso. assert (length (skipn index l) = 0%nat) by (rewrite Z; reflexivity). rewrite skipn_length in H0. lia.
      + rewrite Z2. left. congruence. }
  destruct X as (i0 & E & Hi0 & Hb). rewrite E. cbn [bind].
  set (k := insert_index date (map fst (skipn i0 l))). exists (i0 + k)%nat. split; [reflexivity|].
  assert (Hk : (k <= length (skipn i0 l))%nat) by (unfold k; etransitivity; [apply insert_index_le|rewrite map_length; lia]).
  rewrite skipn_length in Hk. split; [|lia].
  apply insert_sorted; [exact Hs| |].
  - intros e He. cbn [fst]. rewrite firstn_add in He by lia. apply in_app_or in He. destruct He as [He|He]; [apply Hb; exact He|].
    apply insert_index_before in He. lra.
  - intros e He. cbn [fst]. rewrite skipn_add in He. eapply insert_index_after; [apply sorted_skipn; exact Hs|exact He].
Qed.

Lemma schedule_dates_ok a dates : forall index l, sorted fst l -> (l = [] /\ index = 0%nat \/ (index < length l)%nat) ->
  exists st, schedule_dates a dates (index, l) = Ok st /\ sorted fst (snd st) /\
    (forall b, b <> a -> of_action b (snd st) = of_action b l) /\ Permutation (snd st) (map (fun d => (d, a)) dates ++ l).
Proof.
  induction dates as [|d dates IH]; intros index l Hs Hi; cbn [schedule_dates].
  - exists (index, l). repeat split; auto.
  - destruct (schedule_one_ok a index l d Hs Hi) as (i' & E & Hs' & Hi'). rewrite E. cbn [bind].
    destruct (IH i' (insert_at i' (d, a) l) Hs') as (st & E2 & S2 & F2 & P2).
    { right. rewrite (Permutation_length (insert_perm i' (d, a) l)). cbn. lia. }
    exists st. split; [exact E2|]. split; [exact S2|]. split.
    + intros b Hb. rewrite F2 by exact Hb. apply filter_insert_other. cbn. apply Nat.eqb_neq. congruence.
    + rewrite P2. rewrite insert_perm. cbn. symmetry. apply Permutation_middle.
Qed.

(** *** Consistency of the manager *)
Section Manager.
Context {A : Type}.

Record consistent (m : manager A) : Prop := {
  co_sorted : sorted fst (m_sched m);
  co_index : forall e, In e (m_sched m) -> (snd e < length (m_actions m))%nat;
  co_dates : forall a, (a < length (m_actions m))%nat -> map fst (of_action a (m_sched m)) = map fst (nth a (m_actions m) []) }.

Lemma new_consistent : consistent new_manager.
Proof. constructor; cbn; [constructor|intros e []|intros a Ha; lia]. Qed.

Lemma filter_all {X} (f : X -> bool) l : (forall x, In x l -> f x = true) -> filter f l = l.
Proof. induction l as [|a l IH]; intros H; cbn; [reflexivity|]. rewrite H by (left; reflexivity). f_equal. apply IH. intros; apply H; right; assumption. Qed.
Lemma filter_none {X} (f : X -> bool) l : (forall x, In x l -> f x = false) -> filter f l = [].
Proof. induction l as [|a l IH]; intros H; cbn; [reflexivity|]. rewrite H by (left; reflexivity). apply IH. intros; apply H; right; assumption. Qed.

Lemma add_consistent changes m : consistent m -> m_cursor m = 0%nat -> sorted fst changes ->
  exists m', add_action changes m = Ok m' /\ consistent m' /\ m_actions m' = m_actions m ++ [changes] /\
    m_cursors m' = m_cursors m /\ m_cursor m' = 0%nat.
Proof.
  intros [C1 C2 C3] Hc Hs. unfold add_action. set (a := length (m_actions m)).
  destruct (schedule_dates_ok a (map fst changes) 0 (m_sched m) C1) as (st & E & S1 & S2 & S3).
  { destruct (m_sched m); [left; auto|right; cbn; lia]. }
  rewrite E. cbn [bind]. eexists. split; [reflexivity|]. split; [|cbn; auto].
  constructor; cbn [m_sched m_actions].
  - exact S1.
  - intros e He. rewrite app_length. cbn. apply (Permutation_in _ S3) in He. apply in_app_or in He. destruct He as [He|He].
    + apply in_map_iff in He. destruct He as (d & <- & _). cbn. unfold a. lia.
    + specialize (C2 e He). lia.
  - intros b Hb. rewrite app_length in Hb. cbn in Hb. destruct (Nat.eq_dec b a) as [->|n].
    + rewrite app_nth2 by (unfold a; lia). unfold a at 2. rewrite Nat.sub_diag. cbn [nth].
      apply sorted_unique.
      * apply (proj1 (sorted_map fst _)). apply filter_sorted. exact S1.
      * apply (proj1 (sorted_map fst _)). exact Hs.
      * unfold of_action. rewrite (filter_perm _ _ _ S3), filter_app.
        rewrite (filter_none _ (m_sched m)).
        -- rewrite app_nil_r, filter_all; [rewrite map_map; cbn; rewrite map_id; reflexivity|].
           intros x Hx. apply in_map_iff in Hx. destruct Hx as (d & <- & _). cbn. apply Nat.eqb_refl.
        -- intros x Hx. apply Nat.eqb_neq. specialize (C2 x Hx). fold a in C2. lia.
    + rewrite S2 by exact n. rewrite app_nth1 by (unfold a in *; lia). apply C3. unfold a in *; lia.
Qed.

Lemma register_consistent actions : forall m, consistent m -> m_cursor m = 0%nat ->
  exists m', register actions m = Ok m' /\ consistent m' /\ m_actions m' = m_actions m ++ map build_action actions /\
    m_cursors m' = m_cursors m /\ m_cursor m' = 0%nat.
Proof.
  induction actions as [|x l IH]; intros m Hm Hc; cbn [register map].
  - exists m. rewrite app_nil_r. auto.
  - destruct (add_consistent (build_action x) m Hm Hc (proj1 (build_sorted x))) as (m1 & E & C & A1 & A2 & A3). rewrite E. cbn [bind].
    destruct (IH m1 C A3) as (m2 & E2 & C2 & B1 & B2 & B3). exists m2. split; [exact E2|]. split; [exact C2|].
    split; [rewrite B1, A1, <- app_assoc; reflexivity|]. split; congruence.
Qed.

(** *** What the schedule designates *)
(** The changes of the schedule in order, each action giving its own in turn. *)
Fixpoint resolve (l : list (R * nat)) (rem : nat -> list (R * A)) : list (R * A) :=
  match l with
  | [] => []
  | (_, a) :: l' => match rem a with x :: r => x :: resolve l' (upd rem a r) | [] => [] end
  end.
Definition agrees (l : list (R * nat)) (rem : nat -> list (R * A)) : Prop :=
  forall a, map fst (of_action a l) = map fst (rem a).

Lemma agrees_cons d a l rem : agrees ((d, a) :: l) rem -> exists x r, rem a = x :: r /\ fst x = d /\ agrees l (upd rem a r).
Proof.
  intros H. pose proof (H a) as Ha. unfold of_action in Ha. cbn in Ha. rewrite Nat.eqb_refl in Ha. cbn in Ha.
  destruct (rem a) as [|x r] eqn:E; [discriminate|]. cbn in Ha. injection Ha as H1 H2.
  exists x, r. split; [reflexivity|]. split; [auto|]. intros b. unfold upd. destruct (Nat.eqb_spec b a) as [->|n]; [exact H2|].
  specialize (H b). unfold of_action in H. cbn in H. destruct (Nat.eqb_spec a b); [congruence|]. exact H.
Qed.
Lemma resolve_dates l : forall rem, agrees l rem -> map fst (resolve l rem) = map fst l.
Proof.
  induction l as [|[d a] l IH]; intros rem H; cbn [resolve map]; [reflexivity|].
  destruct (agrees_cons _ _ _ _ H) as (x & r & E & Ex & H'). rewrite E. cbn. rewrite IH by exact H'. congruence.
Qed.
Lemma concat_upd (rem : nat -> list (R * A)) a x r n : rem a = x :: r -> (a < n)%nat ->
  Permutation (concat (map rem (seq 0 n))) (x :: concat (map (upd rem a r) (seq 0 n))).
Proof.
  intros E. induction n as [|n IH]; intros Hn; [lia|]. rewrite seq_S, !map_app, !concat_app. cbn [map concat]. rewrite !app_nil_r. cbn [Nat.add].
  destruct (Nat.eq_dec a n) as [->|ne].
  - rewrite upd_same, E. replace (map (upd rem n r) (seq 0 n)) with (map rem (seq 0 n)).
    + symmetry. apply Permutation_middle.
    + apply map_ext_in. intros b Hb. apply in_seq in Hb. rewrite upd_other by lia. reflexivity.
  - rewrite (upd_other rem a n) by lia. rewrite IH by lia. reflexivity.
Qed.
Lemma resolve_perm n l : (forall e, In e l -> (snd e < n)%nat) -> forall rem, agrees l rem ->
  Permutation (resolve l rem) (concat (map rem (seq 0 n))).
Proof.
  intros Hn. induction l as [|[d a] l IH]; intros rem H; cbn [resolve].
  - replace (concat (map rem (seq 0 n))) with (@nil (R * A)); [constructor|].
    symmetry. apply concat_nil_Forall. rewrite Forall_forall. intros x Hx. apply in_map_iff in Hx. destruct Hx as (b & <- & _).
    specialize (H b). cbn in H. destruct (rem b); [reflexivity|discriminate].
  - destruct (agrees_cons _ _ _ _ H) as (x & r & E & Ex & H'). rewrite E. rewrite (concat_upd rem a x r n E).
    + constructor. apply IH; [intros; apply Hn; right; assumption|exact H'].
    + apply (Hn (d, a)). left. reflexivity.
Qed.

(** Changes not yet applied. *)
Definition remaining (m : manager A) : nat -> list (R * A) := fun a => skipn (m_cursors m a) (nth a (m_actions m) []).
Record ready (m : manager A) : Prop := {
  rd_sorted : sorted fst (m_sched m);
  rd_index : forall e, In e (m_sched m) -> (snd e < length (m_actions m))%nat;
  rd_agrees : agrees (skipn (m_cursor m) (m_sched m)) (remaining m) }.

Lemma consistent_ready m : consistent m -> (forall a, m_cursors m a = 0%nat) -> m_cursor m = 0%nat -> ready m.
Proof.
  intros [C1 C2 C3] H1 H2. constructor; auto. intros a. unfold remaining. rewrite H1, H2. cbn [skipn].
  destruct (Nat.lt_ge_cases a (length (m_actions m))) as [L|L]; [apply C3; exact L|].
  rewrite nth_overflow by exact L. cbn. unfold of_action. rewrite filter_none; [reflexivity|].
  intros e He. apply Nat.eqb_neq. specialize (C2 e He). lia.
Qed.

(** Fires exactly the due part of the remaining schedule. *)
Fixpoint due_part (date : R) (l : list (R * A)) : list (R * A) :=
  match l with [] => [] | x :: l' => if Rleb (fst x) date then x :: due_part date l' else [] end.
Definition pending (m : manager A) : list (R * A) := resolve (skipn (m_cursor m) (m_sched m)) (remaining m).

Lemma resolve_ext l : forall r1 r2, (forall a, r1 a = r2 a) -> resolve l r1 = resolve l r2.
Proof.
  induction l as [|[d a] l IH]; intros r1 r2 H; cbn [resolve]; [reflexivity|]. rewrite <- H. destruct (r1 a); [reflexivity|].
  f_equal. apply IH. intros b. unfold upd. destruct (Nat.eqb b a); auto.
Qed.

Lemma fire_spec date : forall l m, skipn (m_cursor m) (m_sched m) = l -> ready m ->
  exists log m', fire date l m = Ok (log, m') /\ ready m' /\ m_actions m' = m_actions m /\ m_sched m' = m_sched m /\
    log = map (fun x => (date, x)) (due_part date (pending m)) /\ pending m = due_part date (pending m) ++ pending m'.
Proof.
  induction l as [|[d a] l IH]; intros m Hl Hm; cbn [fire].
  - exists [], m. unfold pending. rewrite Hl. cbn. auto 8.
  - pose proof Hm as [R1 R2 R3]. rewrite Hl in R3. destruct (agrees_cons _ _ _ _ R3) as (x & r & E & Ex & Ha').
    destruct (Rleb_spec d date) as [Hd|Hd].
    + assert (Hin : In (d, a) (m_sched m)).
      { rewrite <- (firstn_skipn (m_cursor m) (m_sched m)). apply in_or_app. right. rewrite Hl. left. reflexivity. }
      pose proof (R2 _ Hin) as Hlt. cbn in Hlt. unfold remaining in E.
      destruct (nth_error (m_actions m) a) as [changes|] eqn:En; [|apply nth_error_None in En; lia].
      assert (Ech : nth a (m_actions m) [] = changes) by (apply nth_error_nth; exact En). rewrite Ech in E.
      destruct (nth_skipn changes (m_cursors m a)) as [Z|(y & Z1 & Z2)]; [rewrite Z in E; discriminate|].
      rewrite Z1. rewrite Z2 in E. injection E as -> Er.
      set (m1 := mkM (m_actions m) (upd (m_cursors m) a (S (m_cursors m a))) (m_sched m) (S (m_cursor m))).
      assert (Hl1 : skipn (m_cursor m1) (m_sched m1) = l).
      { cbn [m1 m_cursor m_sched]. destruct (nth_skipn (m_sched m) (m_cursor m)) as [Z|(z & Y1 & Y2)]; [rewrite Z in Hl; discriminate|].
        rewrite Y2 in Hl. injection Hl as _ Hl. exact Hl. }
      assert (Hrem : forall b, remaining m1 b = upd (remaining m) a r b).
      { intros b. unfold remaining. cbn [m1 m_cursors m_actions]. unfold upd. destruct (Nat.eqb_spec b a) as [->|]; [|reflexivity].
        rewrite Ech. exact Er. }
      assert (Hm1 : ready m1).
      { constructor; [exact R1|exact R2|]. rewrite Hl1. intros b. rewrite Hrem. apply Ha'. }
      destruct (IH m1 Hl1 Hm1) as (log & m' & F & G1 & G2 & G3 & G4 & G5). rewrite F. cbn [bind].
      assert (P : pending m = x :: pending m1).
      { unfold pending at 1. rewrite Hl. cbn [resolve]. unfold remaining at 1. rewrite Ech, Z2. f_equal.
        unfold pending. rewrite Hl1. apply resolve_ext. intros b. rewrite Hrem, <- Er. reflexivity. }
      exists ((date, x) :: log), m'. split; [reflexivity|]. split; [exact G1|]. split; [exact G2|]. split; [exact G3|].
      rewrite P. cbn [due_part]. rewrite Ex. rewrite (proj2 (Rleb_true d date)) by lra. cbn [map app].
      split; [f_equal; exact G4|]. f_equal. exact G5.
    + exists [], m. split; [reflexivity|]. split; [exact Hm|]. split; [reflexivity|]. split; [reflexivity|].
      assert (P : due_part date (pending m) = []).
      { unfold pending. rewrite Hl. cbn [resolve]. rewrite E. cbn [due_part]. rewrite Ex. rewrite (proj2 (Rleb_false d date)) by lra. reflexivity. }
      rewrite P. auto.
Qed.

(** Sorted pending list: the due part is a filter. *)
Lemma due_filter date l : sorted fst l -> due_part date l = filter (fun x : R * A => Rleb (fst x) date) l.
Proof.
  unfold sorted. induction l as [|x l IH]; intros H; cbn; [reflexivity|]. inversion H as [|y z H1 H2]; subst.
  destruct (Rleb_spec (fst x) date) as [L|L]; [f_equal; apply IH; exact H1|].
  symmetry. apply filter_none. intros y Hy. rewrite Forall_forall in H2. specialize (H2 y Hy). apply Rleb_false. lra.
Qed.
Lemma pending_sorted m : ready m -> sorted fst (pending m).
Proof.
  intros [R1 R2 R3]. apply (proj2 (sorted_map fst _)). unfold pending. rewrite (resolve_dates _ _ R3). apply (proj1 (sorted_map fst _)). apply sorted_skipn. exact R1.
Qed.

(** A whole run. *)
Lemma run_spec dates : forall m, ready m ->
  exists log m', run_dates dates m = Ok (log, m') /\ ready m' /\ m_actions m' = m_actions m /\ m_sched m' = m_sched m /\
    pending m = map snd log ++ pending m' /\
    (forall w x, In (w, x) log -> In w dates /\ fst x <= w) /\
    (forall D x, In D dates -> In x (pending m') -> D < fst x) /\
    (StronglySorted Rlt dates -> forall w x, In (w, x) log -> forall D, In D dates -> D < w -> D < fst x).
Proof.
  induction dates as [|d dates IH]; intros m Hm; cbn [run_dates].
  - exists [], m. cbn. repeat split; auto; try contradiction; apply Hm.
  - destruct (fire_spec d _ m eq_refl Hm) as (log1 & m1 & F & G1 & G2 & G3 & G4 & G5). unfold date_update. rewrite F. cbn [bind].
    destruct (IH m1 G1) as (log2 & m2 & F2 & H1 & H2 & H3 & H4 & H5 & H6 & H7). rewrite F2. cbn [bind].
    exists (log1 ++ log2), m2. split; [reflexivity|]. split; [exact H1|]. split; [congruence|]. split; [congruence|].
    assert (L1 : forall w x, In (w, x) log1 -> w = d /\ fst x <= d /\ In x (due_part d (pending m))).
    { intros w x Hx. rewrite G4 in Hx. apply in_map_iff in Hx. destruct Hx as (y & E & Hy). injection E as <- <-. split; [reflexivity|].
      pose proof Hy as Hy'. rewrite (due_filter d _ (pending_sorted m Hm)) in Hy. apply filter_In in Hy. destruct Hy as (_ & Hy).
      apply Rleb_true in Hy. auto. }
    assert (P1 : forall x, In x (pending m1) -> d < fst x).
    { intros x Hx. assert (Hs := pending_sorted m Hm). rewrite G5 in Hs. rewrite (due_filter d _ (pending_sorted m Hm)) in G5.
      (* x is in the pending list and not due *)
      destruct (Rle_lt_dec (fst x) d) as [L|L]; [|exact L]. exfalso.
      assert (forall l1 l2 : list (R * A), l1 ++ l2 = pending m -> l1 = filter (fun x => Rleb (fst x) d) (pending m) -> In x l2 -> False) as K.
      { intros l1 l2 E1 E2 Hin. assert (length (filter (fun x : R * A => Rleb (fst x) d) (pending m)) = length (filter (fun x : R * A => Rleb (fst x) d) (l1 ++ l2))) by (rewrite E1; reflexivity).
        rewrite filter_app, app_length in H. rewrite (filter_all _ l1) in H.
        - rewrite <- E2 in H. assert (Z : In x (filter (fun x : R * A => Rleb (fst x) d) l2)) by (apply filter_In; split; [exact Hin|apply Rleb_true; exact L]).
          destruct (filter (fun x : R * A => Rleb (fst x) d) l2); [contradiction|cbn in H; lia].
        - intros y Hy. rewrite E2 in Hy. apply filter_In in Hy. tauto. }
      eapply K; [symmetry; exact G5|reflexivity|exact Hx]. }
    split; [rewrite G5, H4, map_app, G4, map_map; cbn; rewrite map_id; apply app_assoc|].
    split.
    { intros w x Hx. apply in_app_or in Hx. destruct Hx as [Hx|Hx].
      - destruct (L1 w x Hx) as (-> & L & _). split; [left; reflexivity|exact L].
      - destruct (H5 w x Hx) as (L & L'). split; [right; exact L|exact L']. }
    split.
    { intros D x [<-|HD] Hx; [apply P1|apply (H6 D x HD Hx)]. rewrite H4. apply in_or_app. right. exact Hx. }
    intros Hs w x Hx D HD HDw. inversion Hs as [|y z S1 S2]; subst. rewrite Forall_forall in S2.
    apply in_app_or in Hx. destruct Hx as [Hx|Hx].
    + destruct (L1 w x Hx) as (-> & _ & _). destruct HD as [<-|HD]; [lra|]. specialize (S2 D HD). lra.
    + destruct HD as [<-|HD]; [|apply (H7 S1 w x Hx D HD HDw)]. apply P1. rewrite H4. apply in_or_app. left.
      apply in_map_iff. exists (w, x). auto.
Qed.
End Manager.

(** *** Whole registrations *)
From Verif Require Import ActionsSpec.

Lemma concat_seq {X} (l : list (list X)) : map (fun a => nth a l []) (seq 0 (length l)) = l.
Proof.
  induction l as [|x l IH] using rev_ind; [reflexivity|]. rewrite app_length. cbn [length]. rewrite Nat.add_1_r, seq_S, map_app. cbn [map Nat.add].
  rewrite app_nth2, Nat.sub_diag by lia. cbn [nth]. f_equal. etransitivity; [|exact IH]. apply map_ext_in. intros a Ha. apply in_seq in Ha. rewrite app_nth1 by lia. reflexivity.
Qed.
Lemma concat_build_perm {A} (l : list (list (R * A))) : Permutation (concat (map build_action l)) (concat l).
Proof. induction l as [|x l IH]; cbn; [constructor|]. apply Permutation_app; [apply build_sorted|exact IH]. Qed.

Definition fresh {A} (m : manager A) : Prop := consistent m /\ (forall a, m_cursors m a = 0%nat) /\ m_cursor m = 0%nat.

Lemma register_fresh {A} (actions : list (list (R * A))) :
  exists m, register actions new_manager = Ok m /\ fresh m /\ m_actions m = map build_action actions.
Proof.
  destruct (register_consistent actions (@new_manager A) new_consistent eq_refl) as (m & E & C & H1 & H2 & H3).
  exists m. split; [exact E|]. split; [|exact H1]. split; [exact C|]. split; [|exact H3]. intros a. rewrite H2. reflexivity.
Qed.
Lemma fresh_pending {A} (m : manager A) : fresh m -> Permutation (pending m) (concat (m_actions m)).
Proof.
  intros (C & H1 & H2). pose proof (consistent_ready m C H1 H2) as [R1 R2 R3]. unfold pending.
  etransitivity; [apply (resolve_perm (length (m_actions m))); [|exact R3]|].
  - intros e He. apply R2. rewrite <- (firstn_skipn (m_cursor m) (m_sched m)). apply in_or_app. right. exact He.
  - replace (map (remaining m) (seq 0 (length (m_actions m)))) with (m_actions m); [reflexivity|].
    rewrite <- (concat_seq (m_actions m)) at 1. apply map_ext. intros a. unfold remaining. rewrite H1. reflexivity.
Qed.

Lemma log_chronological {A} dates : forall (m : manager A) log m', ready m -> StronglySorted Rlt dates -> run_dates dates m = Ok (log, m') -> chronological log.
Proof.
  intros m log m' Hm Hs H. destruct (run_spec dates m Hm) as (log' & m2 & E & R1 & _ & _ & P & L1 & L2 & L3). rewrite E in H. injection H as <- <-.
  (* the registered dates are sorted; the simulated dates follow from the first-date property *)
  assert (Q : sorted fst (map snd log')).
  { assert (S := pending_sorted m Hm). rewrite P in S. unfold sorted in *. clear - S. induction (map snd log') as [|x l IH]; cbn in *; [constructor|].
    inversion S as [|y z S1 S2]; subst. constructor; [apply IH; exact S1|]. apply Forall_app in S2. apply S2. }
  specialize (L3 Hs). assert (L1' : forall w x, In (w, x) log' -> In w dates /\ fst x <= w) by exact L1. clear - Q L1' L3.
  unfold chronological. induction log' as [|[w x] log IH]; [constructor|]. cbn in Q. inversion Q as [|y z Q1 Q2]; subst.
  constructor.
  - apply IH; [intros w0 x0 H D; apply (L3 w0 x0); right; assumption|exact Q1|intros; apply L1'; right; assumption].
  - rewrite Forall_forall in *. intros [w2 x2] H2. cbn. assert (K : fst x <= fst x2) by (apply Q2; apply in_map_iff; exists (w2, x2); auto).
    split; [|exact K]. destruct (Rle_lt_dec w w2) as [L|L]; [exact L|]. exfalso.
    assert (w2 < fst x) by (apply (L3 w x); [left; reflexivity|apply (L1' w2 x2); right; exact H2|exact L]).
    assert (fst x2 <= w2) by (apply (L1' w2 x2); right; exact H2). lra.
Qed.

Theorem run_registered {A} (m : manager A) dates last : fresh m -> StronglySorted Rlt (dates ++ [last]) ->
  exists log m', run_dates (dates ++ [last]) m = Ok (log, m') /\ chronological log /\ each_once (concat (m_actions m)) last log /\
    at_first_date (dates ++ [last]) log /\ m_actions m' = m_actions m /\ m_sched m' = m_sched m.
Proof.
  intros F Hs. pose proof F as (C & H1 & H2). pose proof (consistent_ready m C H1 H2) as Hm.
  destruct (run_spec (dates ++ [last]) m Hm) as (log & m' & E & R1 & A1 & A2 & P & L1 & L2 & L3).
  exists log, m'. split; [exact E|]. split; [exact (log_chronological (dates ++ [last]) m log m' Hm Hs E)|]. split; [|split; [|split; [exact A1|exact A2]]].
  - exists (map snd log), (pending m'). split; [rewrite <- P; apply Permutation_sym, fresh_pending; exact F|]. split; [reflexivity|]. split.
    + intros x Hx. apply in_map_iff in Hx. destruct Hx as ([w y] & <- & Hx). cbn. destruct (L1 w y Hx) as (I1 & I2).
      apply Rle_trans with w; [exact I2|]. apply in_app_or in I1. destruct I1 as [I1|[<-|[]]]; [|lra].
      clear - Hs I1. induction dates as [|d dates IH]; [contradiction|]. cbn in Hs. inversion Hs as [|a b S1 S2]; subst.
      destruct I1 as [<-|I1]; [|apply IH; assumption]. rewrite Forall_forall in S2. left. apply S2. apply in_or_app. right. left. reflexivity.
    + intros x Hx. apply L2; [apply in_or_app; right; left; reflexivity|exact Hx].
  - intros w x Hx. destruct (L1 w x Hx) as (I1 & I2). split; [exact I1|]. split; [exact I2|]. apply (L3 Hs w x Hx).
Qed.

Lemma reset_fresh {A} (m m0 : manager A) : fresh m0 -> m_actions m = m_actions m0 -> m_sched m = m_sched m0 ->
  fresh (reset_manager m) /\ reset_manager m = reset_manager m0.
Proof.
  intros ([C1 C2 C3] & _ & _) E1 E2. split.
  - split; [|split; reflexivity]. constructor; cbn [reset_manager m_sched m_actions]; rewrite ?E1, ?E2; assumption.
  - unfold reset_manager. rewrite E1, E2. reflexivity.
Qed.

(** *** Recurring actions *)
Lemma existsb_Z x l : existsb (Z.eqb x) l = true <-> In x l.
Proof.
  rewrite existsb_exists. split.
  - intros (y & H & E). apply Z.eqb_eq in E. congruence.
  - intros H. exists x. split; [exact H|apply Z.eqb_refl].
Qed.
Lemma fires_on_iff l month day : fires_on (build_recurring l) month day = true <->
  (exists d, In (month, d) (map (fun '(m, d) => recursive_date m d) l)) /\ (exists m, In (m, day) (map (fun '(m, d) => recursive_date m d) l)).
Proof.
  unfold fires_on, build_recurring. cbn [fst snd]. rewrite andb_true_iff, !existsb_Z, !in_map_iff. split.
  - intros (([m d] & E1 & H1) & ([m2 d2] & E2 & H2)). cbn in *. subst. split; eauto.
  - intros ((d & H1) & (m & H2)). split; [exists (month, d)|exists (m, day)]; auto.
Qed.

(** Managers that differ only by the representation of their cursors behave alike. *)
Definition same_manager {A} (a b : manager A) : Prop :=
  m_actions a = m_actions b /\ m_sched a = m_sched b /\ m_cursor a = m_cursor b /\ (forall i, m_cursors a i = m_cursors b i).
Lemma fire_same {A} d : forall l (a b : manager A), same_manager a b -> forall log a', fire d l a = Ok (log, a') ->
  exists b', fire d l b = Ok (log, b') /\ same_manager a' b'.
Proof.
  induction l as [|[dd i] l IH]; intros a b Hsm log a' X; cbn [fire] in *.
  - injection X as <- <-. exists b. auto.
  - destruct (Rleb dd d); [|injection X as <- <-; exists b; auto]. pose proof Hsm as (X1 & X2 & X3 & X4).
    rewrite <- X1, <- X4, <- X2, <- X3. destruct (nth_error (m_actions a) i) as [ch|]; [|discriminate].
    destruct (nth_error ch (m_cursors a i)) as [x|]; [|discriminate].
    set (a1 := mkM (m_actions a) (upd (m_cursors a) i (S (m_cursors a i))) (m_sched a) (S (m_cursor a))) in *.
    set (b1 := mkM (m_actions a) (upd (m_cursors b) i (S (m_cursors a i))) (m_sched a) (S (m_cursor a))).
    destruct (fire d l a1) as [[l1 a2]| |] eqn:E3; cbn [bind] in X; try discriminate. injection X as <- <-.
    assert (S1 : same_manager a1 b1).
    { repeat split; auto. intros j. cbn. unfold upd. destruct (Nat.eqb j i); auto. }
    destruct (IH a1 b1 S1 _ _ E3) as (b' & Y & Y'). rewrite Y. cbn [bind]. exists b'. auto.
Qed.
Lemma run_same' {A} : forall dates (a b : manager A), same_manager a b -> forall log a', run_dates dates a = Ok (log, a') ->
  exists b', run_dates dates b = Ok (log, b') /\ same_manager a' b'.
Proof.
  induction dates as [|d ds IH]; intros a b Hsm log a' X; cbn [run_dates] in *.
  - injection X as <- <-. exists b. auto.
  - pose proof Hsm as (X1 & X2 & X3 & X4). unfold date_update in *. rewrite <- X3, <- X2.
    destruct (fire d (skipn (m_cursor a) (m_sched a)) a) as [[l1 a1]| |] eqn:E1; cbn [bind] in X; try discriminate.
    destruct (run_dates ds a1) as [[l3 a3]| |] eqn:E3; cbn [bind] in X; try discriminate. injection X as <- <-.
    destruct (fire_same d _ a b Hsm _ _ E1) as (b1 & Y1 & S1). rewrite Y1. cbn [bind].
    destruct (IH a1 b1 S1 _ _ E3) as (b3 & Y3 & S3). rewrite Y3. cbn [bind]. eauto.
Qed.
Lemma run_same {A} dates (a b : manager A) : m_actions a = m_actions b -> m_sched a = m_sched b -> m_cursor a = m_cursor b ->
  (forall i, m_cursors a i = m_cursors b i) -> forall log a', run_dates dates a = Ok (log, a') -> exists b', run_dates dates b = Ok (log, b').
Proof. intros H1 H2 H3 H4 log a' H. destruct (run_same' dates a b (conj H1 (conj H2 (conj H3 H4))) log a' H) as (b' & E & _). eauto. Qed.
