(** Lemmas about the ranges, the values, the constraints and the random draws of parameter sets. *)
From Verif Require Import BaseFacts ParamSetSpec ParamSetFacts.
Open Scope R_scope.

Definition all_between (low high l : list R) : Prop := forall k a b x, nth_error low k = Some a -> nth_error high k = Some b -> nth_error l k = Some x -> a <= x <= b.
Lemma all_between_cons a b x low high l : all_between (a :: low) (b :: high) (x :: l) <-> a <= x <= b /\ all_between low high l.
Proof.
  split.
  - intro H. split; [apply (H 0%nat a b x); reflexivity|]. intros k. exact (H (S k)).
  - intros (H & K) [|k] a' b' x'; cbn; [intros [= <-] [= <-] [= <-]; exact H|apply K].
Qed.
Lemma check_list_strict low : forall high l, (all_between low high l -> check_list false low high l = Ok l) /\ (forall r, check_list false low high l = Ok r -> all_between low high l /\ r = l) /\ check_list false low high l <> UB.
Proof.
  assert (N : forall low high l, low = [] \/ high = [] \/ l = [] -> all_between low high l).
  { intros ? ? ? [->|[->| ->]] k a b x; destruct k; cbn; discriminate. }
  induction low as [|a low IH]; intros [|b high] [|x l];
    try (cbn; split; [reflexivity|]; split; [|discriminate]; intros r [= <-]; split; [apply N; auto|reflexivity]).
  cbn [check_list negb]. rewrite !andb_true_r. rewrite all_between_cons. destruct (IH high l) as (A & B & C).
  destruct (Rltb_spec b x); [split; [intros ((? & ?) & _); exfalso; lra|]; split; [discriminate|discriminate]|]. destruct (Rltb_spec x a); [split; [intros ((? & ?) & _); exfalso; lra|]; split; [discriminate|discriminate]|].
  split; [|split].
  - intros (_ & K). rewrite (A K). reflexivity.
  - intros r. destruct (check_list false low high l) as [r'| |]; cbn [bind]; try discriminate. intros [= <-]. destruct (B r' eq_refl) as (K & ->). split; [apply all_between_cons; split; [lra|exact K]|reflexivity].
  - destruct (check_list false low high l); cbn [bind]; [discriminate|discriminate|contradiction].
Qed.
Lemma check_list_adapt low : forall high l, exists r, check_list true low high l = Ok r /\ List.length r = List.length l /\
  (forall k a b x, nth_error low k = Some a -> nth_error high k = Some b -> nth_error l k = Some x -> a <= b -> nth_error r k = Some (Rmax a (Rmin b x))) /\
  forall k, nth_error low k = None \/ nth_error high k = None -> nth_error r k = nth_error l k.
Proof.
  induction low as [|a low IH]; intros [|b high] [|x l];
    try (eexists; split; [reflexivity|]; split; [reflexivity|]; split; [intros [|k]; cbn; discriminate|intros; reflexivity]).
  destruct (IH high l) as (r & A & B & C & D). cbn [check_list negb]. rewrite !andb_false_r, A. cbn [bind]. eexists. split; [reflexivity|]. split; [cbn; lia|]. split.
  - intros [|k] a' b' x'; cbn [nth_error].
    + intros [= <-] [= <-] [= <-] H. f_equal. destruct (Rltb_spec x a); [rewrite Rmin_right, Rmax_left by lra; reflexivity|]. destruct (Rltb_spec b x).
      * rewrite Rmin_left, Rmax_right by lra. reflexivity.
      * rewrite Rmin_right, Rmax_right by lra. reflexivity.
    + apply C.
  - intros [|k]; cbn [nth_error]; [intros [H|H]; discriminate|apply D].
Qed.

Lemma number_min p low high : number_range p low high -> forall l, pa_min p <> Some (PList l).
Proof. intros (A & _) l. rewrite A. destruct low; discriminate. Qed.
Lemma option_num (o o' : option R) : option_map PNum o = option_map PNum o' -> o = o'.
Proof. destruct o, o'; cbn; congruence. Qed.

(** Numbers. *)
Lemma check_number p low high adapt x : number_range p low high ->
  check_value_range adapt p (PNum x) =
    match high with
    | Some b => if Rltb b x then (if adapt then Ok (PNum b) else Throw) else match low with Some a => if Rltb x a then (if adapt then Ok (PNum a) else Throw) else Ok (PNum x) | None => Ok (PNum x) end
    | None => match low with Some a => if Rltb x a then (if adapt then Ok (PNum a) else Throw) else Ok (PNum x) | None => Ok (PNum x) end
    end.
Proof.
  intros (A & B). unfold check_value_range. rewrite A, B. destruct low as [a|], high as [b|]; cbn [option_map py_lt bind]; try reflexivity.
Qed.
Lemma check_mixed p low high adapt l : number_range p low high -> low <> None \/ high <> None -> check_value_range adapt p (PList l) = Throw.
Proof.
  intros (A & B) H. unfold check_value_range. rewrite A, B. destruct low as [a|], high as [b|]; cbn; try reflexivity. destruct H; congruence.
Qed.
Lemma check_lists p low high adapt v : list_range p low high -> check_value_range adapt p v = match v with PList l => bind (check_list adapt low high l) (fun r => Ok (PList r)) | PNum _ => Throw end.
Proof. intros (A & B). unfold check_value_range. rewrite A, B. destruct v; reflexivity. Qed.

(** A value is accepted as it is exactly if it is in the range.  (Without any bound everything is accepted.) *)
Lemma check_strict p v : ranged p -> bounded p ->
  (fits p v -> check_value_range false p v = Ok v) /\ (forall w, check_value_range false p v = Ok w -> w = v /\ fits p v) /\ check_value_range false p v <> UB.
Proof.
  intros [(low & high & H)|(low & high & H)] Hb.
  - destruct v as [x|l].
    + rewrite (check_number p low high false x H). split; [|split].
      * intros [(lo & hi & y & H' & [= <-] & Hl & Hh)|(lo & hi & m & _ & X & _)]; [|discriminate].
        destruct H as (E1 & E2), H' as (E3 & E4). rewrite E1 in E3. rewrite E2 in E4. apply option_num in E3, E4. subst lo hi.
        destruct high as [b|].
        -- specialize (Hh b eq_refl). destruct (Rltb_spec b x); [lra|]. destruct low as [a|]; [|reflexivity]. specialize (Hl a eq_refl). destruct (Rltb_spec x a); [lra|reflexivity].
        -- destruct low as [a|]; [|reflexivity]. specialize (Hl a eq_refl). destruct (Rltb_spec x a); [lra|reflexivity].
      * intros w E. assert (K : w = PNum x /\ between low high x).
        { destruct high as [b|], low as [a|]; repeat match goal with _ : context [Rltb ?u ?v] |- _ => destruct (Rltb_spec u v) end; try discriminate; injection E as <-;
            (split; [reflexivity|split; intros ? [= <-]; lra]). }
        destruct K as (K1 & K2). split; [exact K1|]. left. exists low, high, x. auto.
      * destruct high as [b|], low as [a|]; repeat match goal with |- context [Rltb ?u ?v] => destruct (Rltb u v) end; discriminate.
    + rewrite (check_mixed p low high false l H). 2:{ destruct low; [left; discriminate|]. destruct high; [right; discriminate|]. contradiction. }
      split; [|split; discriminate]. intros [(lo & hi & y & _ & X & _)|(lo & hi & m & H' & _)]; [discriminate|]. destruct H' as (X & _). elim (number_min p low high H lo X).
  - rewrite (check_lists p low high false v H). destruct v as [x|l].
    + split; [|split; discriminate]. intros [(lo & hi & y & H' & _)|(lo & hi & m & _ & X & _)]; [|discriminate]. destruct H as (X & _). elim (number_min p lo hi H' low X).
    + destruct (check_list_strict low high l) as (A & B & C). split; [|split].
      * intros [(lo & hi & y & _ & X & _)|(lo & hi & m & H' & [= <-] & K)]; [discriminate|]. destruct H as (E1 & E2), H' as (E3 & E4). rewrite E1 in E3. rewrite E2 in E4. injection E3 as <-. injection E4 as <-.
        rewrite (A K). reflexivity.
      * intros w. destruct (check_list false low high l) as [r| |]; cbn [bind]; try discriminate. intros [= <-]. destruct (B r eq_refl) as (K & ->). split; [reflexivity|]. right. exists low, high, l. auto.
      * destruct (check_list false low high l); cbn [bind]; [discriminate|discriminate|contradiction].
Qed.

(** One row in range. *)
Lemma row_in_range_number p low high x : number_range p low high -> pa_value p = Some (PNum x) -> exists b, row_in_range p = Ok b /\ (b = true <-> between low high x).
Proof.
  intros (A & B) V. unfold row_in_range. rewrite A, B, V. destruct low as [a|], high as [b|]; cbn [option_map py_lt bind].
  - destruct (Rltb_spec b x); [exists false; split; [reflexivity|]; split; [discriminate|intros (_ & K); specialize (K b eq_refl); lra]|].
    destruct (Rltb_spec x a); cbn [bind]; [exists false; split; [reflexivity|]; split; [discriminate|intros (K & _); specialize (K a eq_refl); lra]|].
    exists true. split; [reflexivity|]. split; [intros _; split; intros ? [= <-]; lra|reflexivity].
  - destruct (Rltb_spec x a); cbn [bind]; [exists false; split; [reflexivity|]; split; [discriminate|intros (K & _); specialize (K a eq_refl); lra]|].
    exists true. split; [reflexivity|]. split; [intros _; split; intros ? [= <-]; lra|reflexivity].
  - destruct (Rltb_spec b x); [exists false; split; [reflexivity|]; split; [discriminate|intros (_ & K); specialize (K b eq_refl); lra]|].
    exists true. split; [reflexivity|]. split; [intros _; split; intros ? [= <-]; lra|reflexivity].
  - exists true. split; [reflexivity|]. split; [intros _; split; intros ? [=]|reflexivity].
Qed.
Lemma list_in_range_iff low : forall high l, list_in_range low high l = true <-> all_between low high l.
Proof.
  induction low as [|a low IH]; intros [|b high] [|x l]; try (split; [intros _ [|k] ? ? ?; cbn; discriminate|reflexivity]).
  cbn [list_in_range]. rewrite all_between_cons. destruct (Rltb_spec b x); [split; [discriminate|lra]|]. destruct (Rltb_spec x a); [split; [discriminate|lra]|]. rewrite IH. split; [intro K; split; [lra|exact K]|tauto].
Qed.
(** A value of the right kind. *)
Lemma row_in_range_iff p : right_kind p -> exists b, row_in_range p = Ok b /\ (b = true <-> exists v, pa_value p = Some v /\ fits p v).
Proof.
  unfold right_kind. destruct (pa_value p) as [[x|l]|] eqn:V.
  - intros (low & high & H). destruct (row_in_range_number p low high x H V) as (b & A & B). exists b. split; [exact A|]. rewrite B. split.
    + intro K. exists (PNum x). split; [reflexivity|]. left. exists low, high, x. auto.
    + intros (v & [= <-] & [(lo & hi & y & H' & [= <-] & K)|(lo & hi & m & _ & X & _)]); [|discriminate]. destruct H as (E1 & E2), H' as (E3 & E4). rewrite E1 in E3. rewrite E2 in E4. apply option_num in E3, E4. subst. exact K.
  - intros (low & high & H). pose proof H as (E1 & E2). unfold row_in_range. rewrite V, E1, E2. exists (list_in_range low high l). split; [reflexivity|]. rewrite list_in_range_iff. split.
    + intro K. exists (PList l). split; [reflexivity|]. right. exists low, high, l. auto.
    + intros (v & [= <-] & [(lo & hi & y & _ & X & _)|(lo & hi & m & H' & [= <-] & K)]); [discriminate|]. destruct H' as (E3 & E4). rewrite E1 in E3. rewrite E2 in E4. injection E3 as <-. injection E4 as <-. exact K.
  - intros _. exists false. unfold row_in_range. rewrite V. split; [reflexivity|]. split; [discriminate|intros (v & X & _); discriminate].
Qed.
Lemma rows_in_range_iff l : (forall p, In p l -> right_kind p) -> exists b, rows_in_range l = Ok b /\ (b = true <-> forall p, In p l -> exists v, pa_value p = Some v /\ fits p v).
Proof.
  induction l as [|p l IH]; intro H; cbn [rows_in_range].
  - exists true. split; [reflexivity|]. split; [intros _ p []|reflexivity].
  - destruct (row_in_range_iff p (H p (or_introl eq_refl))) as (b & A & B). rewrite A. cbn [bind]. destruct IH as (c & C & D); [intros q Hq; apply H; right; exact Hq|]. destruct b.
    + exists c. split; [exact C|]. rewrite D. split.
      * intros K q [<-|Hq]; [apply B; reflexivity|apply K; exact Hq].
      * intros K q Hq. apply K. right. exact Hq.
    + exists false. split; [reflexivity|]. split; [discriminate|]. intro K. apply B. apply K. left. reflexivity.
Qed.
(** What is accepted has the values in their ranges, whatever the kinds. *)
Lemma py_lt_list l m : py_lt (PList l) (PList m) = Ok (list_lt l m).
Proof. reflexivity. Qed.

(** *** Constraints *)
Lemma violated_is o v1 v2 x y : v1 = Some (PNum x) -> v2 = Some (PNum y) ->
  exists b, violated o v1 v2 = Ok b /\ (b = false <-> forall rel, meaning o = Some rel -> rel x y).
Proof.
  intros -> ->. unfold violated, operator_in, meaning. cbn [existsb].
  destruct (String.eqb o ">"); cbn [orb]; [eexists; split; [reflexivity|]; destruct (Rleb_spec x y); (split; [intros E rel [= <-]; try discriminate; lra|intros K; try reflexivity; specialize (K _ eq_refl); lra])|].
  destruct (String.eqb o "gt"); cbn [orb]; [eexists; split; [reflexivity|]; destruct (Rleb_spec x y); (split; [intros E rel [= <-]; try discriminate; lra|intros K; try reflexivity; specialize (K _ eq_refl); lra])|].
  destruct (String.eqb o ">="); cbn [orb]; [eexists; split; [reflexivity|]; destruct (Rltb_spec x y); (split; [intros E rel [= <-]; try discriminate; lra|intros K; try reflexivity; specialize (K _ eq_refl); lra])|].
  destruct (String.eqb o "ge"); cbn [orb]; [eexists; split; [reflexivity|]; destruct (Rltb_spec x y); (split; [intros E rel [= <-]; try discriminate; lra|intros K; try reflexivity; specialize (K _ eq_refl); lra])|].
  destruct (String.eqb o "<"); cbn [orb]; [eexists; split; [reflexivity|]; destruct (Rleb_spec y x); (split; [intros E rel [= <-]; try discriminate; lra|intros K; try reflexivity; specialize (K _ eq_refl); lra])|].
  destruct (String.eqb o "lt"); cbn [orb]; [eexists; split; [reflexivity|]; destruct (Rleb_spec y x); (split; [intros E rel [= <-]; try discriminate; lra|intros K; try reflexivity; specialize (K _ eq_refl); lra])|].
  destruct (String.eqb o "<="); cbn [orb]; [eexists; split; [reflexivity|]; destruct (Rltb_spec y x); (split; [intros E rel [= <-]; try discriminate; lra|intros K; try reflexivity; specialize (K _ eq_refl); lra])|].
  destruct (String.eqb o "le"); cbn [orb]; [eexists; split; [reflexivity|]; destruct (Rltb_spec y x); (split; [intros E rel [= <-]; try discriminate; lra|intros K; try reflexivity; specialize (K _ eq_refl); lra])|].
  eexists; split; [reflexivity|]. split; [intros _ rel [=]|reflexivity].
Qed.
Definition met (s : pset) (l : list (string * string * string)) : Prop :=
  forall a o b rel x y, In (a, o, b) l -> meaning o = Some rel -> valued s a x -> valued s b y -> rel x y.
Lemma constraints_hold_true s l : constraints_hold s l = Ok true -> met s l.
Proof.
  induction l as [|((a, o), b) l IH]; cbn [constraints_hold]; [intros _ ? ? ? ? ? ? []|]. intros E a' o' b' rel x y [[= <- <- <-]|Hin] Hr (i & I1 & I2) (j & J1 & J2).
  - rewrite I1, J1, I2, J2 in E. cbn [is_list orb] in E. destruct (violated_is o (Some (PNum x)) (Some (PNum y)) x y eq_refl eq_refl) as (v & V & W). rewrite V in E. cbn [bind] in E. destruct v; [discriminate|]. apply W; [reflexivity|exact Hr].
  - assert (Hl : constraints_hold s l = Ok true).
    { destruct (param_index s a) as [i'|]; [|exact E]. destruct (param_index s b) as [j'|]; [|exact E]. destruct (_ || _); [discriminate|].
      destruct (violated _ _ _) as [[|]| |]; cbn [bind] in E; try discriminate. exact E. }
    apply (IH Hl a' o' b' rel x y Hin Hr); [exists i; auto|exists j; auto].
Qed.
Lemma constraints_hold_iff s l : (forall a o b, In (a, o, b) l -> has s a = true -> has s b = true -> (exists x, valued s a x) /\ exists y, valued s b y) ->
  exists r, constraints_hold s l = Ok r /\ (r = true <-> met s l).
Proof.
  induction l as [|((a, o), b) l IH]; intro H; cbn [constraints_hold].
  - exists true. split; [reflexivity|]. split; [intros _ ? ? ? ? ? ? []|reflexivity].
  - destruct IH as (r & A & B); [intros a' o' b' Hin; apply (H a' o' b'); right; exact Hin|].
    assert (Tail : met s ((a, o, b) :: l) -> met s l) by (intros K a' o' b' rel x y Hin; apply K; right; exact Hin).
    pose proof (H a o b (or_introl eq_refl)) as Hab. unfold has in Hab.
    destruct (param_index s a) as [i|] eqn:Ei; [destruct (param_index s b) as [j|] eqn:Ej|].
    + destruct (Hab eq_refl eq_refl) as ((x & i' & I1 & I2) & y & j' & J1 & J2). rewrite Ei in I1. rewrite Ej in J1. injection I1 as <-. injection J1 as <-. rewrite I2, J2. cbn [is_list orb].
      destruct (violated_is o (Some (PNum x)) (Some (PNum y)) x y eq_refl eq_refl) as (v & V & W). rewrite V. cbn [bind]. destruct v.
      * exists false. split; [reflexivity|]. split; [discriminate|]. intro K. symmetry. apply W. intros rel Hr. apply (K a o b rel x y); [left; reflexivity|exact Hr|exists i; auto|exists j; auto].
      * exists r. split; [exact A|]. rewrite B. split; [|exact Tail]. intros K a' o' b' rel x' y' [[= <- <- <-]|Hin] Hr Hx Hy; [|apply (K a' o' b' rel x' y'); assumption].
        destruct Hx as (i2 & X1 & X2), Hy as (j2 & Y1 & Y2). rewrite Ei in X1. rewrite Ej in Y1. injection X1 as <-. injection Y1 as <-. rewrite I2 in X2. rewrite J2 in Y2. injection X2 as <-. injection Y2 as <-. apply W; [reflexivity|exact Hr].
    + exists r. split; [exact A|]. rewrite B. split; [|exact Tail]. intros K a' o' b' rel x' y' [[= <- <- <-]|Hin] Hr Hx Hy; [|apply (K a' o' b' rel x' y'); assumption]. destruct Hy as (j2 & Y1 & _). congruence.
    + exists r. split; [exact A|]. rewrite B. split; [|exact Tail]. intros K a' o' b' rel x' y' [[= <- <- <-]|Hin] Hr Hx Hy; [|apply (K a' o' b' rel x' y'); assumption]. destruct Hx as (i2 & X1 & _). congruence.
Qed.
