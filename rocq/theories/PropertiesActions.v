(** Property theorems: the schedule of actions (C29, C30, C31). *)
From Coq Require Import Permutation Sorted.
From Verif Require Import Base BaseFacts Actions ActionsSpec ActionsFacts.
Open Scope R_scope.

(** *** C29 *)
(** Whatever the actions and the order in which their changes were given, and for every increasing sequence of dates passed to
    the manager: registration succeeds, the run succeeds, changes are applied in the order of their dates, exactly those that are
    reached, each once, and at the first date that reaches it. *)
Theorem c29_dated_actions : forall (A : Type) (actions : list (list (R * A))) dates last, StronglySorted Rlt (dates ++ [last]) ->
  exists m log m', register actions new_manager = Ok m /\ run_dates (dates ++ [last]) m = Ok (log, m') /\
    chronological log /\ each_once (concat actions) last log /\ at_first_date (dates ++ [last]) log.
Proof.
  intros A actions dates last Hs. destruct (register_fresh actions) as (m & E & F & EA).
  destruct (run_registered m dates last F Hs) as (log & m' & H1 & H2 & (reached & rest & P1 & P2) & H4 & _ & _).
  exists m, log, m'. split; [exact E|]. split; [exact H1|]. split; [exact H2|]. split; [|exact H4].
  exists reached, rest. split; [|exact P2]. rewrite <- P1, EA. symmetry. apply concat_build_perm.
Qed.
Print Assumptions c29_dated_actions.
(** After a reset, the same changes are applied again: a second run gives the same log. *)
Theorem c29_reset_reapplies : forall (A : Type) (actions : list (list (R * A))) m dates log m',
  register actions new_manager = Ok m -> run_dates dates m = Ok (log, m') ->
  exists m'', run_dates dates (reset_manager m') = Ok (log, m'').
Proof.
  intros A actions m dates log m' R H. destruct (register_fresh actions) as (m0 & E & F & EA). rewrite E in R. injection R as ->.
  pose proof F as (C & H1 & H2). destruct (run_spec dates m (consistent_ready m C H1 H2)) as (l2 & m2 & E2 & _ & A1 & A2 & P & _).
  rewrite E2 in H. injection H as <- <-. destruct (reset_fresh m2 m F A1 A2) as (F2 & Er). rewrite Er.
  apply (run_same dates m (reset_manager m) eq_refl eq_refl H2 H1 _ _ E2).
Qed.
Print Assumptions c29_reset_reapplies.

(** Two actions given out of order, with a change (date 9) not reached. *)
Example c29_holds_somewhere :
  exists m log m', register [[(7, 1%nat); (3, 2%nat)]; [(9, 3%nat); (5, 4%nat)]] new_manager = Ok m /\
    run_dates [4; 6; 8] m = Ok (log, m') /\ log = [(4, (3, 2%nat)); (6, (5, 4%nat)); (8, (7, 1%nat))].
Proof.
  assert (L : forall a b, a <= b -> Rleb a b = true) by (intros; apply Rleb_true; assumption).
  assert (L' : forall a b, b < a -> Rleb a b = false) by (intros; apply Rleb_false; assumption).
  assert (M : forall a b, b <= a -> Rltb a b = false) by (intros; apply Rltb_false; assumption).
  assert (M' : forall a b, a < b -> Rltb a b = true) by (intros; apply Rltb_true; assumption).
  Ltac step L L' M M' := repeat (progress (unfold add_action, schedule_one, date_update in *; cbn -[Rleb Rltb]) || first [rewrite L by lra | rewrite L' by lra | rewrite M by lra | rewrite M' by lra]).
  step L L' M M'. eexists _, _, _. split; [reflexivity|]. step L L' M M'.
  split; reflexivity.
Qed.

(** *** C30 *)
(** Refuted: two changes of one action with the same date are applied in the reverse of the order in which they were added ... *)
Theorem c30_same_date_reversed_refuted : forall (A : Type) d (x y : A) w, d <= w ->
  exists m m', register [[(d, x); (d, y)]] new_manager = Ok m /\ run_dates [w] m = Ok ([(w, (d, y)); (w, (d, x))], m').
Proof.
  intros A d x y w H. assert (L : Rleb d d = true) by (apply Rleb_true; lra). assert (L2 : Rleb d w = true) by (apply Rleb_true; lra).
  assert (L3 : Rltb d d = false) by (apply Rltb_false; lra).
  cbn -[Rleb Rltb]. repeat (rewrite ?L, ?L2, ?L3; cbn -[Rleb Rltb]).
  eexists _, _. split; [reflexivity|]. repeat (rewrite ?L, ?L2, ?L3; cbn -[Rleb Rltb]). reflexivity.
Qed.
Print Assumptions c30_same_date_reversed_refuted.
(** ... and so are those of two actions: the action added last is applied first. *)
Theorem c30_same_date_actions_reversed_refuted : forall (A : Type) d (x y : A) w, d <= w ->
  exists m m', register [[(d, x)]; [(d, y)]] new_manager = Ok m /\ run_dates [w] m = Ok ([(w, (d, y)); (w, (d, x))], m').
Proof.
  intros A d x y w H. assert (L : Rleb d d = true) by (apply Rleb_true; lra). assert (L2 : Rleb d w = true) by (apply Rleb_true; lra).
  assert (L3 : Rltb d d = false) by (apply Rltb_false; lra).
  cbn -[Rleb Rltb]. repeat (rewrite ?L, ?L2, ?L3; cbn -[Rleb Rltb]).
  eexists _, _. split; [reflexivity|]. repeat (rewrite ?L, ?L2, ?L3; cbn -[Rleb Rltb]). reflexivity.
Qed.
Print Assumptions c30_same_date_actions_reversed_refuted.

(** *** C31 *)
(** A recurring action fires on every pair it was registered for (days beyond the month being moved to its last day, 28 in
    February) ... *)
Theorem c31_registered_days_fire : forall l month day, In (month, day) l ->
  fires_on (build_recurring l) (fst (recursive_date month day)) (snd (recursive_date month day)) = true.
Proof.
  intros l m d H. apply fires_on_iff. destruct (recursive_date m d) as [m' d'] eqn:E. cbn. split; [exists d'|exists m'];
    apply in_map_iff; exists (m, d); auto.
Qed.
Print Assumptions c31_registered_days_fire.
(** ... a valid pair is kept as given ... *)
Theorem c31_valid_day_kept : forall month day, (1 <= month <= 12)%Z -> (1 <= day <= nth (Z.to_nat (month - 1)) days_in_month 0)%Z ->
  recursive_date month day = (month, day).
Proof.
  intros m d Hm Hd. unfold recursive_date. replace ((m <? 1)%Z || (12 <? m)%Z) with false.
  - f_equal. lia.
  - symmetry. apply orb_false_iff. split; [apply Z.ltb_ge|apply Z.ltb_ge]; lia.
Qed.
Print Assumptions c31_valid_day_kept.
(** ... and a single registration, or registrations that share their month or share their day, fire on no other day. *)
Theorem c31_no_other_day_partial : forall l month day,
  (forall a b, In a l -> In b l -> fst (recursive_date (fst a) (snd a)) = fst (recursive_date (fst b) (snd b))) \/
  (forall a b, In a l -> In b l -> snd (recursive_date (fst a) (snd a)) = snd (recursive_date (fst b) (snd b))) ->
  fires_on (build_recurring l) month day = true -> exists p, In p l /\ recursive_date (fst p) (snd p) = (month, day).
Proof.
  intros l m d H F. apply fires_on_iff in F. destruct F as ((d1 & H1) & (m1 & H2)).
  apply in_map_iff in H1. destruct H1 as ([a1 b1] & E1 & I1). apply in_map_iff in H2. destruct H2 as ([a2 b2] & E2 & I2). destruct H as [H|H].
  - specialize (H _ _ I1 I2). cbn [fst snd] in H. exists (a2, b2). split; [exact I2|]. cbn [fst snd]. rewrite E1, E2 in H. cbn in H. rewrite E2. congruence.
  - specialize (H _ _ I1 I2). cbn [fst snd] in H. exists (a1, b1). split; [exact I1|]. cbn [fst snd]. rewrite E1, E2 in H. cbn in H. rewrite E1. congruence.
Qed.
Print Assumptions c31_no_other_day_partial.
Example c31_holds_somewhere : fires_on (build_recurring [(4, 1); (10, 1)])%Z 10%Z 1%Z = true /\ fires_on (build_recurring [(4, 1); (10, 1)])%Z 10%Z 2%Z = false.
Proof. split; reflexivity. Qed.
(** Refuted in general: every registered month is combined with every registered day. *)
Theorem c31_cross_product_refuted : exists l month day, fires_on (build_recurring l) month day = true /\
  ~ exists p, In p l /\ recursive_date (fst p) (snd p) = (month, day).
Proof.
  exists [(4, 1); (10, 15)]%Z, 4%Z, 15%Z. split; [reflexivity|]. intros (p & [<-|[<-|[]]] & E); discriminate E.
Qed.
Print Assumptions c31_cross_product_refuted.
(** With a time step below one day, the action is applied at every step of its day: [k] dates of that day, [k] applications. *)
Theorem c31_several_times_a_day_refuted : forall l month day k, In (month, day) l ->
  recurring_run (build_recurring l) (repeat (recursive_date month day) k) = repeat 1%nat k.
Proof.
  intros l m d k H. pose proof (c31_registered_days_fire l m d H) as F. unfold recurring_run. induction k as [|k IH]; [reflexivity|].
  cbn [repeat map]. destruct (recursive_date m d) as [a b]. cbn in F. rewrite F. f_equal. exact IH.
Qed.
Print Assumptions c31_several_times_a_day_refuted.
(** February 29 is never a firing day. *)
Theorem c31_leap_day_refuted : forall l, fires_on (build_recurring l) 2 29 = true ->
  exists p, In p l /\ snd (recursive_date (fst p) (snd p)) = 29%Z /\ fst (recursive_date (fst p) (snd p)) <> 2%Z.
Proof.
  intros l F. apply fires_on_iff in F. destruct F as (_ & (m & H)). apply in_map_iff in H. destruct H as ([a b] & E & I).
  exists (a, b). split; [exact I|]. cbn [fst snd]. rewrite E. split; [reflexivity|]. cbn. intros ->.
  unfold recursive_date in E. set (m := if ((a <? 1)%Z || (12 <? a)%Z) then 1%Z else a) in E. clearbody m. injection E as E1 E2. subst m. change (Z.max (Z.min b 28) 1 = 29)%Z in E2. lia.
Qed.
Print Assumptions c31_leap_day_refuted.
