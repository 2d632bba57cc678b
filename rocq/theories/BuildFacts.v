(** Facts about lists used for built catchments. *)
From Coq Require Import FinFun.
From Verif Require Import Base Container Direct DirectSpec Network NetworkSpec Topology Catchment CatchmentSpec Build BuildSpec.
Open Scope list_scope.

Section Lists.
Context {X : Type}.
Lemma index_where_spec (t : X -> bool) : forall l i, index_where t l = Some i -> exists x, nth_error l i = Some x /\ t x = true.
Proof.
  induction l as [|y l IH]; cbn; intros i H; [discriminate|]. destruct (t y) eqn:E.
  - injection H as <-. exists y. auto.
  - destruct (index_where t l) as [j|] eqn:Ej; [|discriminate]. injection H as <-. apply IH; reflexivity.
Qed.
Lemma index_where_found (t : X -> bool) : forall l x, In x l -> t x = true -> exists i, index_where t l = Some i.
Proof.
  induction l as [|y l IH]; cbn; intros x H E; [contradiction|]. destruct (t y) eqn:Ey; [eauto|].
  destruct H as [->|H]; [congruence|]. destruct (IH x H E) as [i ->]. eauto.
Qed.
Lemma before_In (l : list X) x y : before l x y -> In x l /\ In y l.
Proof. intros (l1&l2&l3& ->). split; rewrite in_app_iff; right; [left; reflexivity|right; rewrite in_app_iff; right; left; reflexivity]. Qed.
Lemma before_filter (t : X -> bool) (l : list X) x y : before l x y -> t x = true -> t y = true -> before (filter t l) x y.
Proof.
  intros (l1&l2&l3& ->) Hx Hy. exists (filter t l1), (filter t l2), (filter t l3).
  rewrite filter_app. cbn. rewrite Hx, filter_app. cbn. rewrite Hy. reflexivity.
Qed.
Lemma before_app_l (l l' : list X) x y : before l x y -> before (l ++ l') x y.
Proof. intros (l1&l2&l3& ->). exists l1, l2, (l3 ++ l'). rewrite <- app_assoc. cbn. repeat rewrite <- app_assoc. cbn. repeat rewrite <- app_assoc. reflexivity. Qed.
Lemma before_app_r (l l' : list X) x y : before l' x y -> before (l ++ l') x y.
Proof. intros (l1&l2&l3& ->). exists (l ++ l1), l2, l3. rewrite <- app_assoc. reflexivity. Qed.
Lemma before_cross (l l' : list X) x y : In x l -> In y l' -> before (l ++ l') x y.
Proof.
  intros Hx Hy. apply in_split in Hx as (a&b& ->). apply in_split in Hy as (c&d& ->). exists a, (b ++ c), d.
  repeat rewrite <- app_assoc. cbn. repeat rewrite <- app_assoc. cbn. repeat rewrite <- app_assoc. reflexivity.
Qed.
Lemma before_concat (L : list (list X)) l x y : In l L -> before l x y -> before (concat L) x y.
Proof.
  induction L as [|a L IH]; cbn; intros H B; [contradiction|]. destruct H as [->|H]; [apply before_app_l; exact B|apply before_app_r; auto].
Qed.
Lemma before_lt (l : list X) x y i j : NoDup l -> before l x y -> nth_error l i = Some x -> nth_error l j = Some y -> (i < j)%nat.
Proof.
  intros ND (l1&l2&l3& ->) Hi Hj.
  assert (Ei : i = length l1).
  { apply (proj1 (NoDup_nth_error _) ND); [apply nth_error_Some; congruence|]. rewrite Hi. rewrite nth_error_app2, Nat.sub_diag by lia. reflexivity. }
  assert (Ej : j = (length l1 + S (length l2))%nat).
  { apply (proj1 (NoDup_nth_error _) ND); [apply nth_error_Some; congruence|]. rewrite Hj. rewrite nth_error_app2 by lia.
    replace (length l1 + S (length l2) - length l1)%nat with (S (length l2)) by lia. cbn. rewrite nth_error_app2, Nat.sub_diag by lia. reflexivity. }
  lia.
Qed.
End Lists.
Lemma before_map {X Y} (f : X -> Y) l x y : before l x y -> before (map f l) (f x) (f y).
Proof. intros (l1&l2&l3& ->). exists (map f l1), (map f l2), (map f l3). rewrite map_app. cbn. rewrite map_app. reflexivity. Qed.
Lemma NoDup_map_filter {X Y} (f : X -> Y) t (l : list X) : NoDup (map f l) -> NoDup (map f (filter t l)).
Proof.
  induction l as [|x l IH]; cbn; intros H; [constructor|]. inversion H; subst. destruct (t x); cbn; auto. constructor; auto.
  intros K. apply H2. apply in_map_iff in K as (y&E&K). apply filter_In in K as [K _]. rewrite <- E. apply in_map; exact K.
Qed.
Lemma NoDup_app_intro {X} (l l' : list X) : NoDup l -> NoDup l' -> (forall x, In x l -> ~ In x l') -> NoDup (l ++ l').
Proof.
  induction l as [|x l IH]; cbn; intros H H' D; [exact H'|]. inversion H; subst. constructor.
  - rewrite in_app_iff. intros [K|K]; [auto|]. exact (D x (or_introl eq_refl) K).
  - apply IH; auto.
Qed.

(** Items: owner and brick, looked up by owner and name. *)
Section Items.
Context {K : Type} (keq : K -> K -> bool) (Hkeq : forall a b, keq a b = true <-> a = b).
Definition key (x : K * bset) : K * string := (fst x, bs_name (snd x)).
Definition lookup (l : list (K * bset)) (k : K) (name : string) : option nat :=
  index_where (fun x => keq (fst x) k && String.eqb (bs_name (snd x)) name) l.
Lemma lookup_spec l k name i : lookup l k name = Some i -> exists b, nth_error l i = Some (k, b) /\ bs_name b = name.
Proof.
  intros H. apply index_where_spec in H as ([k' b]&E&T). apply andb_true_iff in T as [T1 T2]. apply Hkeq in T1. apply String.eqb_eq in T2.
  cbn in T1, T2. subst k'. eauto.
Qed.
Lemma key_unique l x y : NoDup (map key l) -> In x l -> In y l -> key x = key y -> x = y.
Proof.
  intros ND Hx Hy E. apply In_nth_error in Hx as [i Hi]. apply In_nth_error in Hy as [j Hj].
  assert (i = j); [|congruence].
  apply (proj1 (NoDup_nth_error _) ND).
  - rewrite map_length. apply nth_error_Some. congruence.
  - rewrite (map_nth_error key _ _ Hi), (map_nth_error key _ _ Hj). congruence.
Qed.
Lemma lookup_found l k b : NoDup (map key l) -> In (k, b) l -> exists i, lookup l k (bs_name b) = Some i /\ nth_error l i = Some (k, b).
Proof.
  intros ND H. destruct (index_where_found (fun x => keq (fst x) k && String.eqb (bs_name (snd x)) (bs_name b)) l (k, b) H) as [i E].
  { cbn. rewrite (proj2 (Hkeq k k) eq_refl), String.eqb_refl. reflexivity. }
  exists i. split; [exact E|]. destruct (lookup_spec l k (bs_name b) i E) as (b'&Hn&En). rewrite Hn. f_equal.
  apply (key_unique l); auto; [apply nth_error_In in Hn; exact Hn|]. unfold key. cbn. congruence.
Qed.
Lemma NoDup_of_keys l : NoDup (map key l) -> NoDup l.
Proof. apply NoDup_map_inv. Qed.
End Items.
Lemma keys_concat {U} (us : list U) (f : U -> list bset) : NoDup us -> (forall u, In u us -> NoDup (map bs_name (f u))) ->
  NoDup (map (@key U) (concat (map (fun u => map (pair u) (f u)) us))).
Proof.
  induction us as [|u us IH]; intros ND H; cbn; [constructor|]. inversion ND as [|? ? N1 N2]; subst. rewrite map_app. apply NoDup_app_intro.
  - rewrite map_map. unfold key. cbn. rewrite <- (map_map bs_name (pair u)). apply Injective_map_NoDup; [|apply H; left; reflexivity].
    intros x y E. injection E as E. exact E.
  - apply IH; auto. intros v Hv. apply H. right. exact Hv.
  - intros x Hx Hy. apply in_map_iff in Hx as ([v b]&E1&Hx). apply in_map_iff in Hx as (b0&E2&_). injection E2 as E2 E3. subst v b0.
    apply in_map_iff in Hy as ([v b']&E4&Hy). apply in_concat in Hy as (l&Hl&Hy). apply in_map_iff in Hl as (w&El&Hw). subst l.
    apply in_map_iff in Hy as (b0&E2&_). injection E2 as E2 E3. subst w b0. unfold key in E1, E4. cbn in E1, E4. subst x. injection E4 as E4 _. subst v. contradiction.
Qed.
