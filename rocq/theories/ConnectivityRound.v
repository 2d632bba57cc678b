(** Lemmas: rounding of shares. *)
From Coq Require Import Permutation Sorted.
From Verif Require Import BaseFacts ConnectivitySpec ConnectivityFacts.
Open Scope R_scope.

Lemma ip x : IZR (Int_part x) <= x < IZR (Int_part x) + 1.
Proof. destruct (base_Int_part x). lra. Qed.
Lemma ip_unique x z : IZR z <= x < IZR z + 1 -> Int_part x = z.
Proof.
  intro H. pose proof (ip x) as K. assert (A : (Int_part x < z + 1)%Z) by (apply lt_IZR; rewrite plus_IZR; lra). assert (B : (z < Int_part x + 1)%Z) by (apply lt_IZR; rewrite plus_IZR; lra). lia.
Qed.
Lemma py_round_Z z : py_round (IZR z) = z.
Proof. unfold py_round. rewrite (ip_unique (IZR z) z) by lra. rewrite (proj2 (Rltb_true _ _)) by lra. reflexivity. Qed.
Lemma pow_ten p : (10 ^ p)%R = IZR (10 ^ Z.of_nat p).
Proof. apply pow_IZR. Qed.
Lemma ten_pos p : 0 < 10 ^ p. Proof. apply pow_lt. lra. Qed.

Lemma insert_perm q l : Permutation (q :: l) (insert_rem q l).
Proof.
  induction l as [|r l IH]; cbn; [apply Permutation_refl|]. destruct (Rltb (snd r) (snd q)); [apply Permutation_refl|]. apply (perm_trans (perm_swap _ _ _)). apply perm_skip. exact IH.
Qed.
Lemma sort_perm_aux l : forall a, Permutation (a ++ l) (fold_left (fun acc q => insert_rem q acc) l a).
Proof.
  induction l as [|q l IH]; intro a; cbn [fold_left]; [rewrite app_nil_r; apply Permutation_refl|]. apply (perm_trans (l' := insert_rem q a ++ l)); [|apply IH].
  apply (perm_trans (Permutation_sym (Permutation_middle a l q))). apply (Permutation_app_tail l (insert_perm q a)).
Qed.
Lemma sort_perm l : Permutation l (sort_rem l).
Proof. exact (sort_perm_aux l []). Qed.
Definition descending := StronglySorted (fun a b : Z * R => snd b <= snd a).
Lemma insert_sorted q l : descending l -> descending (insert_rem q l).
Proof.
  induction l as [|r l IH]; cbn; intro H; [constructor; constructor|]. inversion H as [|? ? A B]; subst. destruct (Rltb (snd r) (snd q)) eqn:E.
  - apply Rltb_true in E. constructor; [exact H|]. constructor; [lra|]. rewrite Forall_forall in B |- *. intros x Hx. specialize (B x Hx). lra.
  - apply Rltb_false in E. constructor; [apply IH; exact A|]. rewrite Forall_forall in B |- *. intros x Hx. apply (Permutation_in _ (Permutation_sym (insert_perm q l))) in Hx. destruct Hx as [<-|Hx]; [lra|apply B; exact Hx].
Qed.
Lemma sort_sorted_aux l : forall a, descending a -> descending (fold_left (fun acc q => insert_rem q acc) l a).
Proof. induction l as [|q l IH]; intros a H; cbn; [exact H|]. apply IH. apply insert_sorted. exact H. Qed.
Lemma sort_sorted l : descending (sort_rem l).
Proof. apply sort_sorted_aux. constructor. Qed.
Lemma sorted_split n : forall l, descending l -> forall a b, In a (firstn n l) -> In b (skipn n l) -> snd b <= snd a.
Proof.
  induction n as [|n IH]; intros [|x l] H a b Ha Hb; cbn in *; try contradiction. inversion H as [|? ? A B]; subst. destruct Ha as [<-|Ha]; [|apply (IH l A a b Ha Hb)].
  rewrite Forall_forall in B. apply B. rewrite <- (firstn_skipn n l). apply in_or_app. right. exact Hb.
Qed.
Lemma Rsum_perm {A} (f : A -> R) l m : Permutation l m -> Rsum f l = Rsum f m.
Proof. induction 1; cbn; lra. Qed.
Lemma sum_below {A} (f : A -> R) l : (forall x, In x l -> f x < 1) -> l <> [] -> Rsum f l < INR (List.length l).
Proof.
  induction l as [|a l IH]; intros H N; [congruence|]. cbn [Rsum List.length]. rewrite S_INR. assert (f a < 1) by (apply H; left; reflexivity). destruct l as [|b l]; [cbn in *; lra|].
  assert (Rsum f (b :: l) < INR (List.length (b :: l))) by (apply IH; [intros x Hx; apply H; right; exact Hx|discriminate]). lra.
Qed.
Lemma sum_at_most {A} (f : A -> R) l : (forall x, In x l -> f x < 1) -> Rsum f l <= INR (List.length l).
Proof. intro H. destruct l as [|a l]; [cbn; lra|]. left. apply sum_below; [exact H|discriminate]. Qed.
Lemma fold_Z l : IZR (fold_right Z.add 0%Z l) = Rsum IZR l.
Proof. induction l as [|z l IH]; cbn; [reflexivity|]. rewrite plus_IZR, IH. reflexivity. Qed.

Section Round.
Variables (d : dict) (p : nat).
Hypothesis Nd : NoDup (map fst d).
Hypothesis Pos : forall k x, In (k, x) d -> 0 <= x.
Hypothesis One : Rsum snd d = 1.
Let N := (10 ^ p)%R.
Let fl (q : Z * R) : Z := Int_part (snd q * N).
Let rem (q : Z * R) : R := snd q * N - IZR (fl q).
Let rems := map (fun q => (fst q, rem q)) d.
Let diff := (10 ^ Z.of_nat p - fold_right Z.add 0 (map fl d))%Z.
Let top := firstn (Z.to_nat diff) (sort_rem rems).
Let bit (k : Z) : Z := if existsb (Z.eqb k) (map fst top) then 1%Z else 0%Z.

Lemma rem_range q : 0 <= rem q < 1.
Proof. unfold rem. pose proof (ip (snd q * N)). unfold fl. lra. Qed.
Lemma diff_sum : IZR diff = Rsum rem d.
Proof.
  unfold diff. rewrite minus_IZR, fold_Z, Rsum_map. unfold rem. rewrite Rsum_minus, Rsum_scal_r, One. unfold N. rewrite pow_ten. lra.
Qed.
Lemma diff_nonneg : (0 <= diff)%Z.
Proof. apply le_IZR. rewrite diff_sum. apply Rsum_nonneg. intros q _. apply rem_range. Qed.
Lemma diff_nat : INR (Z.to_nat diff) = Rsum rem d.
Proof. rewrite INR_IZR_INZ, Z2Nat.id by apply diff_nonneg. apply diff_sum. Qed.
Lemma d_some : d <> [].
Proof. intro E. rewrite E in One. cbn in One. lra. Qed.
Lemma diff_below : (Z.to_nat diff < List.length d)%nat.
Proof. apply INR_lt. rewrite diff_nat. apply sum_below; [intros q _; apply rem_range|apply d_some]. Qed.
Lemma sort_length : List.length (sort_rem rems) = List.length d.
Proof. rewrite <- (Permutation_length (sort_perm rems)). unfold rems. apply map_length. Qed.
Lemma top_length : List.length top = Z.to_nat diff.
Proof. unfold top. rewrite firstn_length, sort_length. pose proof diff_below. lia. Qed.
Lemma sort_nodup : NoDup (map fst (sort_rem rems)).
Proof.
  apply (Permutation_NoDup (l := map fst rems)); [apply Permutation_map; apply sort_perm|]. unfold rems. rewrite map_map. exact Nd.
Qed.
Lemma bit_range k : bit k = 0%Z \/ bit k = 1%Z.
Proof. unfold bit. destruct (existsb _ _); auto. Qed.
Lemma bit_one k : bit k = 1%Z <-> In k (map fst top).
Proof.
  unfold bit. destruct (existsb (Z.eqb k) (map fst top)) eqn:E.
  - split; [intros _|reflexivity]. apply existsb_exists in E. destruct E as (j & H & K). apply Z.eqb_eq in K. subst j. exact H.
  - split; [discriminate|]. intro H. assert (existsb (Z.eqb k) (map fst top) = true); [|congruence]. apply existsb_exists. exists k. split; [exact H|apply Z.eqb_refl].
Qed.
Lemma bits_sum : Rsum (fun q => IZR (bit (fst q))) d = INR (Z.to_nat diff).
Proof.
  assert (A : Rsum (fun q => IZR (bit (fst q))) d = Rsum (fun q => IZR (bit (fst q))) (sort_rem rems)).
  { rewrite <- (Rsum_perm _ _ _ (sort_perm rems)). unfold rems. rewrite Rsum_map. reflexivity. }
  rewrite A. rewrite <- (firstn_skipn (Z.to_nat diff) (sort_rem rems)). fold top. rewrite Rsum_app, (Rsum_ext_in _ (fun _ => 1) top), Rsum_const, top_length.
  - rewrite Rsum_zero; [lra|]. intros q Hq. destruct (bit_range (fst q)) as [-> |E]; [reflexivity|]. exfalso. apply bit_one in E.
    pose proof sort_nodup as Sn. rewrite <- (firstn_skipn (Z.to_nat diff) (sort_rem rems)), map_app in Sn. fold top in Sn.
    assert (K : In (fst q) (map fst (skipn (Z.to_nat diff) (sort_rem rems)))) by (apply in_map; exact Hq). clear -Sn E K. induction (map fst top) as [|a l IH]; [destruct E|]. cbn in Sn. inversion Sn as [|? ? X Y]; subst. destruct E as [->|E]; [apply X; apply in_or_app; right; exact K|apply IH; assumption].
  - intros q Hq. rewrite (proj2 (bit_one (fst q))); [reflexivity|]. apply in_map. exact Hq.
Qed.
Lemma round_is : round_row d p = map (fun q => (fst q, IZR (fl q + bit (fst q)) / N)) d.
Proof.
  unfold round_row. cbv zeta. rewrite !map_map. cbn [fst snd]. unfold d_sum. rewrite One, Rmult_1_l.
  assert (E : py_round (10 ^ p) = (10 ^ Z.of_nat p)%Z) by (rewrite pow_ten; apply py_round_Z). rewrite E.
  assert (S : forall A (l : list A), slice l diff = firstn (Z.to_nat diff) l). { intros A l. unfold slice. pose proof diff_nonneg. destruct (Z.ltb_spec diff 0); [lia|reflexivity]. }
  unfold diff, fl, N in S. cbn [snd] in S. rewrite S. reflexivity.
Qed.
Lemma in_rems k z : In (k, z) rems -> exists x, In (k, x) d /\ z = rem (k, x).
Proof. unfold rems. intro H. apply in_map_iff in H. destruct H as ((j, x) & E & H). injection E as <- <-. exists x. auto. Qed.
Lemma same_key k x y : In (k, x) d -> In (k, y) d -> x = y.
Proof. intros A B. rewrite <- (val_in d k x Nd A). apply (val_in d k y Nd B). Qed.
(** The remainders rounded up are the largest, and not zero. *)
Lemma top_in k x : In (k, x) d -> bit k = 1%Z -> In (k, rem (k, x)) top.
Proof.
  intros H B. apply bit_one in B. apply in_map_iff in B. destruct B as ((j, z) & E & B). cbn in E. subst j.
  assert (K : In (k, z) rems) by (apply (Permutation_in _ (Permutation_sym (sort_perm rems))); unfold top in B; rewrite <- (firstn_skipn (Z.to_nat diff)); apply in_or_app; left; exact B).
  destruct (in_rems k z K) as (y & Hy & ->). rewrite (same_key k x y H Hy). exact B.
Qed.
Lemma rest_in k x : In (k, x) d -> bit k = 0%Z -> In (k, rem (k, x)) (skipn (Z.to_nat diff) (sort_rem rems)).
Proof.
  intros H B. assert (K : In (k, rem (k, x)) (sort_rem rems)) by (apply (Permutation_in _ (sort_perm rems)); unfold rems; apply in_map_iff; exists (k, x); auto).
  rewrite <- (firstn_skipn (Z.to_nat diff)) in K. apply in_app_or in K. destruct K as [K|K]; [|exact K]. assert (bit k = 1%Z) by (apply bit_one; apply in_map_iff; exists (k, rem (k, x)); auto). congruence.
Qed.
Lemma top_largest k x j y : In (k, x) d -> In (j, y) d -> bit k = 1%Z -> bit j = 0%Z -> rem (j, y) <= rem (k, x).
Proof.
  intros A B C D. apply (sorted_split (Z.to_nat diff) _ (sort_sorted rems) (k, rem (k, x)) (j, rem (j, y))); [apply top_in; assumption|apply rest_in; assumption].
Qed.
Lemma top_positive k x : In (k, x) d -> bit k = 1%Z -> 0 < rem (k, x).
Proof.
  intros H B. destruct (proj1 (rem_range (k, x))) as [G|G]; [exact G|]. exfalso. symmetry in G. pose proof (top_in k x H B) as T.
  assert (E : Rsum rem d = Rsum snd (sort_rem rems)) by (rewrite <- (Rsum_perm snd _ _ (sort_perm rems)); unfold rems; rewrite Rsum_map; reflexivity).
  rewrite <- (firstn_skipn (Z.to_nat diff) (sort_rem rems)), Rsum_app in E. fold top in E.
  assert (Z1 : Rsum snd (skipn (Z.to_nat diff) (sort_rem rems)) <= 0).
  { replace 0 with (Rsum (fun _ : Z * R => 0) (skipn (Z.to_nat diff) (sort_rem rems))) by (apply Rsum_zero; reflexivity). apply Rsum_le. intros q Hq. pose proof (sorted_split (Z.to_nat diff) _ (sort_sorted rems) _ q T Hq) as L. cbn in L. lra. }
  assert (Z2 : Rsum snd top <= INR (List.length top) - 1).
  { apply in_split in T. destruct T as (l1 & l2 & T). rewrite T, Rsum_app, app_length. cbn [Rsum List.length snd]. rewrite plus_INR, S_INR.
    assert (L : forall q, In q top -> snd q < 1). { intros (j, z) Hq. assert (K : In (j, z) rems) by (apply (Permutation_in _ (Permutation_sym (sort_perm rems))); unfold top in Hq; rewrite <- (firstn_skipn (Z.to_nat diff)); apply in_or_app; left; exact Hq). destruct (in_rems j z K) as (y & _ & ->). apply rem_range. }
    pose proof (sum_at_most snd l1) as L1. pose proof (sum_at_most snd l2) as L2. assert (Rsum snd l1 <= INR (List.length l1)) by (apply L1; intros q Hq; apply L; rewrite T; apply in_or_app; left; exact Hq). assert (Rsum snd l2 <= INR (List.length l2)) by (apply L2; intros q Hq; apply L; rewrite T; apply in_or_app; right; right; exact Hq). lra. }
  rewrite top_length, diff_nat in Z2. lra.
Qed.
Lemma round_spec : let r := round_row d p in
  map fst r = map fst d /\ Rsum snd r = 1 /\
  (forall k x, In (k, x) d -> exists n : nat, In (k, INR n / 10 ^ p) r /\ Rabs (INR n / 10 ^ p - x) < / 10 ^ p /\ (1 <= x * 10 ^ p -> (1 <= n)%nat)) /\
  (forall k x j y y1 y2, In (k, x) d -> In (j, y) d -> In (k, y1) r -> In (j, y2) r -> x < y -> y1 <= y2).
Proof.
  cbv zeta. rewrite round_is. pose proof (ten_pos p) as Np. fold N in Np |- *. split; [rewrite map_map; reflexivity|]. split; [|split].
  - rewrite Rsum_map. cbn [snd]. rewrite (Rsum_ext_in _ (fun q => (IZR (fl q) + IZR (bit (fst q))) * / N)) by (intros q _; rewrite plus_IZR; reflexivity).
    rewrite Rsum_scal_r, Rsum_plus, bits_sum, diff_nat. unfold rem. rewrite Rsum_minus, Rsum_scal_r, One. field. lra.
  - intros k x H. assert (Fp : (0 <= fl (k, x))%Z). { unfold fl. cbn [snd]. pose proof (ip (x * N)) as I. assert (0 <= x * N) by (apply Rmult_le_pos; [apply (Pos k x H)|lra]). assert ((-1 < Int_part (x * N))%Z); [apply lt_IZR; change (IZR (-1)) with (-1); lra|lia]. }
    assert (Bp : (0 <= bit k)%Z) by (destruct (bit_range k) as [-> | ->]; lia).
    exists (Z.to_nat (fl (k, x) + bit k)). rewrite INR_IZR_INZ, Z2Nat.id by lia. split; [apply in_map_iff; exists (k, x); auto|]. split.
    + rewrite plus_IZR. pose proof (rem_range (k, x)) as Rr. assert (Ex : (IZR (fl (k, x)) + IZR (bit k)) / N - x = (IZR (bit k) - rem (k, x)) * / N) by (unfold rem; cbn [snd]; field; lra). rewrite Ex, Rabs_mult, (Rabs_right (/ N)) by (left; apply Rinv_0_lt_compat; exact Np).
      rewrite <- (Rmult_1_l (/ N)) at 2. apply Rmult_lt_compat_r; [apply Rinv_0_lt_compat; exact Np|]. apply Rabs_def1; destruct (bit_range k) as [E|E]; rewrite E; try lra. pose proof (top_positive k x H E). lra.
    + intro L. assert ((1 <= fl (k, x))%Z); [|lia]. unfold fl. cbn [snd]. pose proof (ip (x * N)) as I. assert ((0 < Int_part (x * N))%Z); [apply lt_IZR; lra|lia].
  - intros k x j y y1 y2 Hk Hj H1 H2 L. apply in_map_iff in H1. destruct H1 as ((k', x') & E1 & G1). injection E1 as -> <-. rewrite (same_key k x' x G1 Hk) in *. apply in_map_iff in H2. destruct H2 as ((j', y') & E2 & G2). injection E2 as -> <-. rewrite (same_key j y' y G2 Hj) in *. cbn [fst].
    unfold Rdiv. apply Rmult_le_compat_r; [left; apply Rinv_0_lt_compat; exact Np|]. apply IZR_le. assert (Lt : x * N < y * N) by (apply Rmult_lt_compat_r; assumption).
    pose proof (rem_range (k, x)) as R1. pose proof (rem_range (j, y)) as R2. unfold rem in R1, R2. cbn [snd] in R1, R2. assert (Fle : (fl (k, x) <= fl (j, y))%Z). { assert (fl (k, x) < fl (j, y) + 1)%Z; [apply lt_IZR; rewrite plus_IZR; lra|lia]. }
    destruct (bit_range k) as [Ek|Ek], (bit_range j) as [Ej|Ej]; rewrite Ek, Ej; try lia.
    destruct (Z.eq_dec (fl (k, x)) (fl (j, y))) as [E|E]; [|lia]. exfalso. pose proof (top_largest k x j y Hk Hj Ek Ej) as T. unfold rem in T. cbn [snd] in T. rewrite E in T. lra.
Qed.
End Round.
