(** Lemmas about Base.v. *)
From Verif Require Import Base.

Lemma Rleb_true a b : Rleb a b = true <-> a <= b.
Proof. unfold Rleb; destruct (Rle_dec a b); split; intros; try easy; lra. Qed.
Lemma Rleb_false a b : Rleb a b = false <-> b < a.
Proof. unfold Rleb; destruct (Rle_dec a b); split; intros; try easy; lra. Qed.
Lemma Rltb_true a b : Rltb a b = true <-> a < b.
Proof. unfold Rltb; destruct (Rlt_dec a b); split; intros; try easy; lra. Qed.
Lemma Rltb_false a b : Rltb a b = false <-> b <= a.
Proof. unfold Rltb; destruct (Rlt_dec a b); split; intros; try easy; lra. Qed.
Lemma Reqb_true a b : Reqb a b = true <-> a = b.
Proof. unfold Reqb; destruct (Req_EM_T a b); split; intros; try easy; lra. Qed.
Lemma Reqb_false a b : Reqb a b = false <-> a <> b.
Proof. unfold Reqb; destruct (Req_EM_T a b); split; intros; try easy; lra. Qed.

Lemma Rleb_spec a b : BoolSpec (a <= b) (b < a) (Rleb a b).
Proof. unfold Rleb; destruct (Rle_dec a b); constructor; lra. Qed.
Lemma Rltb_spec a b : BoolSpec (a < b) (b <= a) (Rltb a b).
Proof. unfold Rltb; destruct (Rlt_dec a b); constructor; lra. Qed.

Lemma EPSILON_D_pos : 0 < EPSILON_D.
Proof. unfold EPSILON_D; lra. Qed.
Lemma PRECISION_pos : 0 < PRECISION.
Proof. unfold PRECISION; lra. Qed.
Lemma EPSILON_D_lt : EPSILON_D < PRECISION.
Proof. unfold EPSILON_D, PRECISION; lra. Qed.

Lemma bind_ok {A B} (x : outcome A) (f : A -> outcome B) b :
  bind x f = Ok b -> exists a, x = Ok a /\ f a = Ok b.
Proof. destruct x; simpl; intros H; try discriminate; eauto. Qed.

Section Rsum.
Context {A : Type}.
Implicit Types (f g : A -> R) (l : list A).

Lemma Rsum_app f l1 l2 : Rsum f (l1 ++ l2) = Rsum f l1 + Rsum f l2.
Proof. induction l1; simpl; lra. Qed.
Lemma Rsum_ext_in f g l : (forall x, In x l -> f x = g x) -> Rsum f l = Rsum g l.
Proof.
  induction l as [|x l IH]; simpl; intros H; [reflexivity|].
  rewrite IH, (H x); auto.
Qed.
Lemma Rsum_le f g l : (forall x, In x l -> f x <= g x) -> Rsum f l <= Rsum g l.
Proof.
  induction l as [|x l IH]; simpl; intros H; [lra|].
  assert (f x <= g x) by auto. assert (Rsum f l <= Rsum g l) by auto. lra.
Qed.
Lemma Rsum_zero f l : (forall x, In x l -> f x = 0) -> Rsum f l = 0.
Proof.
  induction l as [|x l IH]; simpl; intros H; [lra|]. rewrite (H x), IH; auto; lra.
Qed.
Lemma Rsum_nonneg f l : (forall x, In x l -> 0 <= f x) -> 0 <= Rsum f l.
Proof.
  induction l as [|x l IH]; simpl; intros H; [lra|].
  assert (0 <= f x) by auto. assert (0 <= Rsum f l) by auto. lra.
Qed.
Lemma Rsum_plus f g l : Rsum (fun x => f x + g x) l = Rsum f l + Rsum g l.
Proof. induction l; simpl; lra. Qed.
Lemma Rsum_minus f g l : Rsum (fun x => f x - g x) l = Rsum f l - Rsum g l.
Proof. induction l; simpl; lra. Qed.
Lemma Rsum_scal c f l : Rsum (fun x => c * f x) l = c * Rsum f l.
Proof. induction l; simpl; [lra|]. rewrite IHl; lra. Qed.
Lemma Rsum_scal_r c f l : Rsum (fun x => f x * c) l = Rsum f l * c.
Proof. induction l; simpl; [lra|]. rewrite IHl; lra. Qed.
Lemma Rsum_const c l : Rsum (fun _ => c) l = INR (length l) * c.
Proof.
  induction l as [|x l IH]; [simpl; lra|].
  simpl Rsum. rewrite IH. simpl length. rewrite S_INR. lra.
Qed.
Lemma Rsum_Rabs f l : Rabs (Rsum f l) <= Rsum (fun x => Rabs (f x)) l.
Proof.
  induction l as [|x l IH]; simpl; [rewrite Rabs_R0; lra|].
  eapply Rle_trans; [apply Rabs_triang|]. lra.
Qed.
Lemma Rsum_filter_split f (p : A -> bool) l :
  Rsum f l = Rsum f (filter p l) + Rsum f (filter (fun x => negb (p x)) l).
Proof. induction l as [|x l IH]; simpl; [lra|]. destruct (p x); simpl; lra. Qed.
Lemma Rsum_filter_if f (p : A -> bool) l :
  Rsum f (filter p l) = Rsum (fun x => if p x then f x else 0) l.
Proof. induction l as [|x l IH]; simpl; [lra|]. destruct (p x); simpl; lra. Qed.
Lemma Rsum_elem_le f l x :
  (forall y, In y l -> 0 <= f y) -> In x l -> f x <= Rsum f l.
Proof.
  induction l as [|a l IH]; simpl; intros H Hin; [tauto|]. destruct Hin as [->|Hx].
  - assert (0 <= Rsum f l) by (apply Rsum_nonneg; auto). lra.
  - assert (f x <= Rsum f l) by auto. assert (0 <= f a) by auto. lra.
Qed.
End Rsum.

Lemma Rsum_map {A B} (g : A -> B) (f : B -> R) l : Rsum f (map g l) = Rsum (fun x => f (g x)) l.
Proof. induction l as [|x l IH]; simpl; [reflexivity|]. rewrite IH; reflexivity. Qed.

(** Exchange of two finite sums. *)
Lemma Rsum_swap {A B} (f : A -> B -> R) la lb :
  Rsum (fun a => Rsum (f a) lb) la = Rsum (fun b => Rsum (fun a => f a b) la) lb.
Proof.
  induction la as [|a la IH]; simpl.
  - symmetry; apply Rsum_zero; reflexivity.
  - rewrite IH, <- Rsum_plus. reflexivity.
Qed.

Lemma upd_same {A} (f : nat -> A) i v : upd f i v i = v.
Proof. unfold upd; rewrite Nat.eqb_refl; reflexivity. Qed.
Lemma upd_other {A} (f : nat -> A) i j v : j <> i -> upd f i v j = f j.
Proof. unfold upd; intros H; apply Nat.eqb_neq in H; rewrite H; reflexivity. Qed.

(** A sum over [seq 0 n] of a function that is non zero at one index only. *)
Lemma Rsum_single (v : R) i l :
  NoDup l -> In i l -> Rsum (fun j => if Nat.eqb j i then v else 0) l = v.
Proof.
  induction l as [|a l IH]; simpl; intros Hnd Hin; [tauto|].
  inversion Hnd as [|? ? Hna Hnd']; subst.
  destruct Hin as [->|Hin].
  - rewrite Nat.eqb_refl. rewrite Rsum_zero; [lra|].
    intros x Hx. destruct (Nat.eqb_spec x i); [subst; tauto|reflexivity].
  - destruct (Nat.eqb_spec a i); [subst; tauto|]. rewrite IH; auto; lra.
Qed.

Lemma Rabs_bounds x a : Rabs x <= a -> - a <= x <= a.
Proof. intros H. unfold Rabs in H. destruct (Rcase_abs x); lra. Qed.
