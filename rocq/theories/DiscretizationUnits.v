(** Facts about the units of the discretization. *)
From Coq Require Import Permutation Sorted.
From Verif Require Import BaseFacts DiscretizationSpec DiscretizationFacts.
Open Scope R_scope.

Fixpoint find_unit (n : nat) (l : list (list class)) (c : cell) (i : nat) : option nat :=
  match l with [] => None | u :: r => if in_unit n u c then Some i else find_unit n r c (S i) end.
Definition tag n l c i (d : nat) : nat := match find_unit n l c i with Some j => j | None => d end.
Lemma find_unit_none n l c : (forall u, In u l -> in_unit n u c = false) -> forall i, find_unit n l c i = None.
Proof. induction l as [|u l IH]; intros H i; cbn [find_unit]; [reflexivity|]. rewrite (H u (or_introl eq_refl)). apply IH. intros v Hv. apply H. right. exact Hv. Qed.
Lemma find_unit_some n l c : ForallOrdPairs (apart n all_test) l -> forall i k u, nth_error l k = Some u -> in_unit n u c = true -> find_unit n l c i = Some (i + k)%nat.
Proof.
  induction 1 as [|v l Hv Hl IH]; intros i k u Hk Hu; [destruct k; discriminate|]. cbn [find_unit]. destruct k as [|k].
  - cbn in Hk. injection Hk as ->. rewrite Hu, Nat.add_0_r. reflexivity.
  - cbn in Hk. destruct (in_unit n v c) eqn:E.
    + exfalso. rewrite Forall_forall in Hv. unfold in_unit in E, Hu. apply andb_true_iff in E, Hu. exact (Hv u (nth_error_In _ _ Hk) c (proj2 E) (proj2 Hu)).
    + rewrite (IH (S i) k u Hk Hu). f_equal. lia.
Qed.
Lemma find_unit_inv n l c : forall i j, find_unit n l c i = Some j -> exists k u, j = (i + k)%nat /\ nth_error l k = Some u /\ in_unit n u c = true.
Proof.
  induction l as [|v l IH]; intros i j; cbn [find_unit]; [discriminate|]. destruct (in_unit n v c) eqn:E.
  - intros [= <-]. exists O, v. split; [lia|]. split; [reflexivity|exact E].
  - intro H. destruct (IH _ _ H) as (k & u & -> & A & B). exists (S k), u. split; [lia|]. split; [exact A|exact B].
Qed.
Lemma existsb_pairs (p : cell -> bool) (f : cell -> nat) g : existsb (fun q => p (fst q)) (map (fun c => (c, f c)) g) = existsb p g.
Proof. induction g as [|c g IH]; cbn; [reflexivity|]. rewrite IH. reflexivity. Qed.
Definition made (n : nat) (g : list cell) (l : list (list class)) : list (list class) := filter (fun u => existsb (in_unit n u) g) l.
Lemma fop_filter {A} (P : A -> A -> Prop) (p : A -> bool) l : ForallOrdPairs P l -> ForallOrdPairs P (filter p l).
Proof.
  induction 1 as [|x l Hx Hl IH]; cbn [filter]; [constructor|]. destruct (p x); [|exact IH]. constructor; [|exact IH].
  apply Forall_forall. intros y Hy. apply filter_In in Hy. rewrite Forall_forall in Hx. apply Hx. tauto.
Qed.
Lemma assign_spec n g l : ForallOrdPairs (apart n all_test) l -> forall f next, (forall c u, In c g -> In u l -> in_unit n u c = true -> f c = O) ->
  assign n l (map (fun c => (c, f c)) g) next = Ok (map (fun c => (c, tag n (made n g l) c next (f c))) g, made n g l).
Proof.
  induction 1 as [|u l Hu Hl IH]; intros f next F; cbn [assign made filter].
  - reflexivity.
  - fold (made n g l). rewrite (existsb_pairs (in_unit n u) f g). destruct (existsb (in_unit n u) g) eqn:E.
    + replace (existsb _ _) with false.
      2:{ symmetry. apply not_true_is_false. intro H. apply existsb_exists in H. destruct H as (q & Hq & H). apply in_map_iff in Hq. destruct Hq as (c & <- & Hc). cbn [fst snd] in H. apply andb_true_iff in H. destruct H as (A & B).
          rewrite (F c u Hc (or_introl eq_refl) A) in B. discriminate. }
      rewrite map_map. cbn [fst snd]. set (f' := fun c => if in_unit n u c then next else f c).
      replace (map _ g) with (map (fun c => (c, f' c)) g). 2:{ apply map_ext. intro c. unfold f'. destruct (in_unit n u c); reflexivity. }
      assert (Ap : forall c v, In v l -> in_unit n v c = true -> in_unit n u c = false).
      { intros c v Hv K. destruct (in_unit n u c) eqn:E2; [|reflexivity]. exfalso. rewrite Forall_forall in Hu. unfold in_unit in E2, K. apply andb_true_iff in E2, K. exact (Hu v Hv c (proj2 E2) (proj2 K)). }
      rewrite (IH f' (S next)).
      2:{ intros c v Hc Hv K. unfold f'. rewrite (Ap c v Hv K). apply (F c v Hc (or_intror Hv) K). }
      cbn [bind fst snd]. do 2 f_equal. apply map_ext. intro c. f_equal. unfold tag. cbn [find_unit]. unfold f'. destruct (in_unit n u c) eqn:E2; [|reflexivity].
      rewrite find_unit_none; [reflexivity|]. intros v Hv. apply filter_In in Hv. destruct (in_unit n v c) eqn:E3; [|reflexivity]. rewrite (Ap c v (proj1 Hv) E3) in E2. discriminate.
    + apply IH. intros c v Hc Hv. apply F; [exact Hc|right; exact Hv].
Qed.

(** *** Limits of the bands *)
Lemma known_in l x : In x (known l) <-> In (Some x) l.
Proof. induction l as [|[y|] l IH]; cbn; [tauto| |]; rewrite IH; [split; intros [H|H]; auto; left; congruence|split; [auto|intros [H|H]; [discriminate|exact H]]]. Qed.
Lemma fold_min l : forall x, (In (fold_left Rmin l x) (x :: l)) /\ forall y, In y (x :: l) -> fold_left Rmin l x <= y.
Proof.
  induction l as [|a l IH]; intro x; cbn [fold_left].
  - split; [left; reflexivity|]. intros y [<-|[]]. lra.
  - destruct (IH (Rmin x a)) as (A & B). split.
    + destruct A as [A|A]; [|right; right; exact A]. rewrite <- A. unfold Rmin. destruct (Rle_dec x a); [left; reflexivity|right; left; reflexivity].
    + intros y [<-|[<-|Hy]]; [| |apply B; right; exact Hy]; apply (Rle_trans _ (Rmin x a)); try (apply B; left; reflexivity); [apply Rmin_l|apply Rmin_r].
Qed.
Lemma fold_max l : forall x, (In (fold_left Rmax l x) (x :: l)) /\ forall y, In y (x :: l) -> y <= fold_left Rmax l x.
Proof.
  induction l as [|a l IH]; intro x; cbn [fold_left].
  - split; [left; reflexivity|]. intros y [<-|[]]. lra.
  - destruct (IH (Rmax x a)) as (A & B). split.
    + destruct A as [A|A]; [|right; right; exact A]. rewrite <- A. unfold Rmax. destruct (Rle_dec x a); [right; left; reflexivity|left; reflexivity].
    + intros y [<-|[<-|Hy]]; [| |apply B; right; exact Hy]; apply (Rle_trans _ (Rmax x a)); try (apply B; left; reflexivity); [apply Rmax_l|apply Rmax_r].
Qed.
Lemma minimum_spec l x : minimum l = Some x -> In x l /\ forall y, In y l -> x <= y.
Proof. destruct l as [|a l]; cbn [minimum]; [discriminate|]. intros [= <-]. apply fold_min. Qed.
Lemma maximum_spec l x : maximum l = Some x -> In x l /\ forall y, In y l -> y <= x.
Proof. destruct l as [|a l]; cbn [maximum]; [discriminate|]. intros [= <-]. apply fold_max. Qed.

(** Regular bands: they exist as soon as a value is known, exclude each other and hold every known value. *)
Lemma regular_edges d data : 0 < d -> known data <> [] -> exists e, edges (EqualIntervals d None None) data = Ok e /\ rising e /\
  (forall x, In (Some x) data -> exists i, (S i < length e)%nat /\ nth i e 0 <= x < nth (S i) e 0) /\
  forall i, (S i < length e)%nat -> nth (S i) e 0 = nth i e 0 + d /\ exists z, nth i e 0 = d * IZR z.
Proof.
  intros Hd K. cbn [edges]. destruct (minimum (known data)) as [mn|] eqn:Emn; [|destruct (known data); [elim K; reflexivity|discriminate]].
  destruct (maximum (known data)) as [mx|] eqn:Emx; [|destruct (known data); [elim K; reflexivity|discriminate]].
  unfold Reqb. destruct (Req_EM_T d 0); [lra|]. eexists. split; [reflexivity|]. set (a := mn - modulo mn d). set (b := mx + (d - modulo mx d)).
  apply minimum_spec in Emn. apply maximum_spec in Emx. destruct (modulo_spec mn d Hd) as (z & Za & Zb). destruct (modulo_spec mx d Hd) as (z' & Za' & Zb').
  assert (mn <= mx) by (apply Emn; apply Emx). assert (Hab : a < b + d) by (unfold a, b; lra). destruct (arange_last a (b + d) d Hd Hab) as (L & Last).
  split; [apply arange_rising; exact Hd|]. split.
  - intros x Hx. apply known_in in Hx. apply band_exists; [exact L| |].
    + rewrite arange_nth by lia. cbn [INR]. assert (mn <= x) by (apply Emn; exact Hx). unfold a. lra.
    + assert (x <= mx) by (apply Emx; exact Hx). unfold b in *. lra.
  - intros i Hi. rewrite !arange_nth by lia. split; [rewrite S_INR; lra|]. exists (z + Z.of_nat i)%Z. rewrite plus_IZR, <- INR_IZR_INZ. fold a in Za. rewrite Za. lra.
Qed.

(** *** Quantiles *)
Lemma insert_perm x l : Permutation (x :: l) (insert x l).
Proof. induction l as [|y l IH]; cbn [insert]; [apply Permutation_refl|]. destruct (Rleb x y); [apply Permutation_refl|]. rewrite perm_swap. apply perm_skip. exact IH. Qed.
Lemma sorted_perm l : Permutation l (sorted l).
Proof. induction l as [|x l IH]; cbn; [constructor|]. rewrite <- insert_perm. apply perm_skip. exact IH. Qed.
Lemma insert_sorted x l : StronglySorted Rle l -> StronglySorted Rle (insert x l).
Proof.
  induction 1 as [|y l Hl IH Hy]; cbn [insert]; [repeat constructor|]. unfold Rleb. destruct (Rle_dec x y) as [H|H].
  - constructor; [constructor; assumption|]. constructor; [exact H|]. apply (Forall_impl _ (fun a (K : y <= a) => Rle_trans _ _ _ H K) Hy).
  - constructor; [exact IH|]. rewrite <- insert_perm. constructor; [lra|exact Hy].
Qed.
Lemma sorted_sorted l : StronglySorted Rle (sorted l).
Proof. induction l as [|x l IH]; cbn; [constructor|]. apply insert_sorted. exact IH. Qed.
Lemma sorted_rising l : StronglySorted Rle l -> rising l.
Proof.
  induction 1 as [|x l Hl IH Hx]; intros i j Hij Hj; [cbn in Hj; lia|]. cbn [length] in Hj. destruct i as [|i], j as [|j]; cbn [nth]; [lra| |lia|apply IH; lia].
  rewrite Forall_forall in Hx. apply Hx. apply nth_In. lia.
Qed.
Lemma interpolate_between s h : rising s -> 0 <= h <= INR (length s - 1) -> (0 < length s)%nat ->
  let i := Z.to_nat (Int_part h) in (i < length s)%nat /\ nth i s 0 <= interpolate s h /\ (forall k, (i < k)%nat -> (k < length s)%nat -> interpolate s h <= nth k s 0) /\
  (h = INR i -> interpolate s h = nth i s 0).
Proof.
  intros Ri H L i. pose proof (ip h) as (A & B).
  assert (Z0 : (0 <= Int_part h)%Z) by (apply Z.lt_succ_r; apply lt_IZR; rewrite succ_IZR; lra).
  assert (Ii : INR i = IZR (Int_part h)) by (unfold i; rewrite INR_IZR_INZ, Z2Nat.id by exact Z0; reflexivity).
  assert (Li : (i < length s)%nat). { enough (i <= length s - 1)%nat by lia. apply INR_le. lra. }
  split; [exact Li|]. unfold interpolate. fold i. destruct (Nat.ltb_spec (S i) (length s)) as [C|C].
  - pose proof (Ri i (S i) ltac:(lia) C) as D. split; [|split].
    + assert (0 <= (nth (S i) s 0 - nth i s 0) * (h - IZR (Int_part h))) by (apply Rmult_le_pos; lra). lra.
    + intros k K1 K2. assert ((nth (S i) s 0 - nth i s 0) * (h - IZR (Int_part h)) <= (nth (S i) s 0 - nth i s 0) * 1) by (apply Rmult_le_compat_l; lra). pose proof (Ri (S i) k ltac:(lia) K2). lra.
    + intro E. rewrite <- Ii, <- E. lra.
  - split; [lra|]. split; [intros; lia|intros _; lra].
Qed.
Lemma interpolate_rising s h h' : rising s -> (0 < length s)%nat -> 0 <= h -> h <= h' -> h' <= INR (length s - 1) -> interpolate s h <= interpolate s h'.
Proof.
  intros Ri L H0 H1 H2. destruct (interpolate_between s h Ri ltac:(lra) L) as (A & _ & C & _). destruct (interpolate_between s h' Ri ltac:(lra) L) as (A' & B' & _ & _).
  pose proof (ip h) as I. pose proof (ip h') as I'.
  assert (Z0 : (0 <= Int_part h)%Z) by (apply Z.lt_succ_r; apply lt_IZR; rewrite succ_IZR; lra).
  assert (Le : (Int_part h <= Int_part h')%Z) by (apply Z.lt_succ_r; apply lt_IZR; rewrite succ_IZR; lra).
  destruct (Z.eq_dec (Int_part h) (Int_part h')) as [E|E].
  - unfold interpolate. rewrite <- E. set (i := Z.to_nat (Int_part h)) in *. assert (D : 0 <= nth (if Nat.ltb (S i) (length s) then S i else i) s 0 - nth i s 0).
    { destruct (Nat.ltb_spec (S i) (length s)); [pose proof (Ri i (S i) ltac:(lia) ltac:(lia)); lra|lra]. }
    apply Rplus_le_compat_l. apply Rmult_le_compat_l; [exact D|lra].
  - apply (Rle_trans _ (nth (Z.to_nat (Int_part h')) s 0)); [|exact B']. apply C; [lia|exact A'].
Qed.
Lemma linspace_length n : length (linspace n) = n. Proof. unfold linspace. rewrite map_length, seq_length. reflexivity. Qed.
Lemma linspace_nth n i : (i < n)%nat -> n <> 1%nat -> nth i (linspace n) 0 = INR i / INR (n - 1).
Proof.
  intros H N. unfold linspace. set (f := fun i => if Nat.eqb n 1 then 0 else INR i / INR (n - 1)). rewrite (nth_indep _ 0 (f O)) by (rewrite map_length, seq_length; exact H).
  rewrite map_nth, seq_nth by exact H. unfold f. destruct (Nat.eqb_spec n 1); [contradiction|reflexivity].
Qed.
Lemma quantile_edges n data v : known data = v -> v <> [] -> exists e, edges (Quantiles n) data = Ok e /\ length e = n /\ rising e /\
  ((2 <= n)%nat -> Some (nth 0 e 0) = minimum v /\ Some (nth (n - 1) e 0) = maximum v) .
Proof.
  intros <- Nv. cbn [edges]. destruct (known data) as [|v0 v'] eqn:K; [elim Nv; reflexivity|]. rewrite <- K in *. clear K. set (v := known data) in *.
  eexists. split; [reflexivity|]. assert (Ls : length (sorted v) = length v) by (symmetry; apply Permutation_length; apply sorted_perm).
  assert (Lv : (0 < length v)%nat) by (destruct v; [elim Nv; reflexivity|cbn; lia]). pose proof (sorted_rising _ (sorted_sorted v)) as Rs.
  assert (Q : forall i, (i < n)%nat -> nth i (map (quantile v) (linspace n)) 0 = quantile v (nth i (linspace n) 0)).
  { intros i Hi. rewrite (nth_indep _ 0 (quantile v 0)) by (rewrite map_length, linspace_length; exact Hi). apply map_nth. }
  assert (L0 : 0 <= INR (length v - 1)) by apply pos_INR.
  split; [rewrite map_length, linspace_length; reflexivity|]. split.
  - intros i j Hij Hj. rewrite map_length, linspace_length in Hj. rewrite !Q by lia. destruct (Nat.eq_dec n 1) as [->|N1]; [replace i with j by lia; lra|].
    rewrite !linspace_nth by (exact N1 || lia). unfold quantile. assert (P : 0 < INR (n - 1)) by (apply lt_0_INR; lia).
    assert (A : 0 <= INR i / INR (n - 1)) by (apply Rmult_le_pos; [apply pos_INR|apply Rlt_le, Rinv_0_lt_compat, P]).
    assert (B : INR i / INR (n - 1) <= INR j / INR (n - 1)) by (apply Rmult_le_compat_r; [apply Rlt_le, Rinv_0_lt_compat, P|apply le_INR, Hij]).
    assert (C : INR j / INR (n - 1) <= 1) by (apply Rmult_le_reg_r with (INR (n - 1)); [exact P|]; unfold Rdiv; rewrite Rmult_assoc, Rinv_l, Rmult_1_r, Rmult_1_l by lra; apply le_INR; lia).
    apply interpolate_rising; [exact Rs|lia|apply Rmult_le_pos; assumption|apply Rmult_le_compat_r; assumption|]. rewrite Ls. rewrite <- (Rmult_1_l (INR (length v - 1))) at 2. apply Rmult_le_compat_r; assumption.
  - intro N2. rewrite !Q by lia. rewrite !linspace_nth by lia. assert (P : 0 < INR (n - 1)) by (apply lt_0_INR; lia).
    assert (E0 : quantile v (INR 0 / INR (n - 1)) = nth 0 (sorted v) 0).
    { unfold quantile. cbn [INR]. replace (0 / INR (n - 1) * INR (length v - 1)) with 0 by (unfold Rdiv; ring). assert (I0 : Int_part 0 = 0%Z) by (apply ip_unique; lra).
      destruct (interpolate_between (sorted v) 0 Rs) as (_ & _ & _ & X); [rewrite Ls; lra|lia|]. rewrite I0 in X. apply X. reflexivity. }
    assert (E1 : quantile v (INR (n - 1) / INR (n - 1)) = nth (length v - 1) (sorted v) 0).
    { unfold quantile. replace (INR (n - 1) / INR (n - 1)) with 1 by (field; lra). rewrite Rmult_1_l. assert (I1 : Int_part (INR (length v - 1)) = Z.of_nat (length v - 1)) by (apply ip_unique; rewrite INR_IZR_INZ; lra).
      destruct (interpolate_between (sorted v) (INR (length v - 1)) Rs) as (_ & _ & _ & X); [rewrite Ls; lra|lia|]. rewrite I1, Nat2Z.id in X. apply X. reflexivity. }
    rewrite E0, E1. destruct (minimum v) as [a|] eqn:Ea; [|destruct v; [elim Nv; reflexivity|discriminate]]. destruct (maximum v) as [b|] eqn:Eb; [|destruct v; [elim Nv; reflexivity|discriminate]].
    apply minimum_spec in Ea. apply maximum_spec in Eb.
    assert (In0 : In (nth 0 (sorted v) 0) v) by (eapply Permutation_in; [apply Permutation_sym, sorted_perm|apply nth_In; lia]).
    assert (In1 : In (nth (length v - 1) (sorted v) 0) v) by (eapply Permutation_in; [apply Permutation_sym, sorted_perm|apply nth_In; lia]).
    assert (In2 : In a (sorted v)) by (eapply Permutation_in; [apply sorted_perm|apply Ea]). assert (In3 : In b (sorted v)) by (eapply Permutation_in; [apply sorted_perm|apply Eb]).
    apply In_nth with (d := 0) in In2, In3. destruct In2 as (i2 & L2 & N2'), In3 as (i3 & L3 & N3'). split; f_equal.
    + apply Rle_antisym; [|apply Ea; exact In0]. rewrite <- N2'. apply Rs; lia.
    + apply Rle_antisym; [apply Eb; exact In1|]. rewrite <- N3'. apply Rs; lia.
Qed.
