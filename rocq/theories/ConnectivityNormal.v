(** Lemmas: from weights to shares; neighbours. *)
From Coq Require Import Permutation.
From Verif Require Import BaseFacts ConnectivitySpec ConnectivityFacts ConnectivityRound.
Open Scope R_scope.

Lemma total_unique w rc T T' : total w rc T -> total w rc T' -> T = T'.
Proof.
  intros (l & A & B & ->) (l' & A' & B' & ->). apply Rsum_perm. apply NoDup_Permutation; [exact A|exact A'|]. intro k. rewrite B, B'. reflexivity.
Qed.
Definition weights (d : dict) (w : Z -> R) : Prop := forall k x, In (k, x) d -> w k = x.
Lemma weights_sum d w : weights d w -> Rsum snd d = Rsum w (map fst d).
Proof. intro H. rewrite Rsum_map. apply Rsum_ext_in. intros (k, x) Hq. cbn. symmetry. apply H. exact Hq. Qed.
Definition thin (d : dict) : dict := filter (fun q => Rleb (1/100) (snd q)) (normalize_row d).

Lemma round_nil p : round_row [] p = [].
Proof. reflexivity. Qed.
Lemma normal_spec d w rc p : NoDup (map fst d) -> (forall k x, In (k, x) d -> 0 < x) -> d <> [] -> weights d w -> (forall k, In k (map fst d) <-> rc k) ->
  let r := round_row (normalize_row (thin d)) p in
  ((r = [] /\ forall k, ~ kept w rc k) \/ shares p w (kept w rc) r) /\ ((2 <= p)%nat -> forall k x, In (k, x) r -> 0 < x).
Proof.
  intros Nd Pos Ne W Rc. cbv zeta. set (T := Rsum snd d).
  assert (Tp : 0 < T).
  { destruct d as [|(k, x) d']; [congruence|]. unfold T. cbn [Rsum snd]. assert (0 < x) by (apply (Pos k x); left; reflexivity). assert (0 <= Rsum snd d'); [|lra]. apply Rsum_nonneg. intros (j, y) Hj. left. apply (Pos j y). right. exact Hj. }
  assert (Tt : total w rc T) by (exists (map fst d); split; [exact Nd|]; split; [exact Rc|apply weights_sum; exact W]).
  assert (Kept : forall k, kept w rc k <-> exists x, In (k, x) d /\ T / 100 <= x).
  { intro k. split.
    - intros (A & B). apply Rc in A. apply in_keys in A. destruct A as (x & A). exists x. split; [exact A|]. rewrite <- (W k x A). apply B. exact Tt.
    - intros (x & A & B). split; [apply Rc, in_keys; exists x; exact A|]. intros T' HT. rewrite (total_unique _ _ _ _ HT Tt), (W k x A). exact B. }
  assert (Thin : forall k y, In (k, y) (thin d) <-> exists x, In (k, x) d /\ y = x / T /\ T / 100 <= x).
  { intros k y. unfold thin. rewrite filter_In. unfold normalize_row. fold (d_sum d). change (d_sum d) with T. rewrite in_map_iff. cbn [snd]. rewrite Rleb_true. split.
    - intros (((j, x) & E & H) & L). injection E as -> <-. exists x. split; [exact H|]. split; [reflexivity|]. assert (1/100 * T <= x / T * T) by (apply Rmult_le_compat_r; lra). replace (x / T * T) with x in H0 by (field; lra). lra.
    - intros (x & H & -> & L). split; [exists (k, x); auto|]. assert (T / 100 * / T <= x * / T) by (apply Rmult_le_compat_r; [left; apply Rinv_0_lt_compat; exact Tp|exact L]). replace (T / 100 * / T) with (1/100) in H0 by (field; lra). exact H0. }
  assert (Nth : NoDup (map fst (thin d))).
  { unfold thin. apply nodup_filter. unfold normalize_row. rewrite map_map. exact Nd. }
  assert (Kt : forall k, In k (map fst (thin d)) <-> kept w rc k).
  { intro k. rewrite in_keys, Kept. split; [intros (y & H); apply Thin in H; destruct H as (x & A & _ & B); exists x; auto|]. intros (x & A & B). exists (x / T). apply Thin. exists x. auto. }
  destruct (thin d) as [|q0 rest] eqn:Et.
  { split; [left; split; [apply round_nil|intros k K; apply Kt in K; exact K]|intros _ k x []]. }
  set (d2 := q0 :: rest) in *. set (S := Rsum snd d2).
  assert (Vp : forall k y, In (k, y) d2 -> 1/100 <= y). { intros k y H. rewrite <- Et in H. unfold thin in H. apply filter_In in H. destruct H as (_ & H). apply Rleb_true in H. exact H. }
  assert (Sp : 0 < S). { unfold S, d2. cbn [Rsum]. destruct q0 as (k0, y0). assert (1/100 <= y0) by (apply (Vp k0); left; reflexivity). cbn [snd]. assert (0 <= Rsum snd rest); [|lra]. apply Rsum_nonneg. intros (j, y) Hj. cbn. assert (1/100 <= y) by (apply (Vp j); right; exact Hj). lra. }
  assert (S1 : S <= 1).
  { unfold S. rewrite <- Et. unfold thin. rewrite Rsum_filter_if. apply (Rle_trans _ (Rsum snd (normalize_row d))).
    - apply Rsum_le. intros (k, y) Hq. cbn. unfold normalize_row in Hq. apply in_map_iff in Hq. destruct Hq as ((j, x) & E & H). injection E as -> <-. assert (0 < x / d_sum d); [|destruct (Rleb (1/100) (x / d_sum d)); lra].
      change (d_sum d) with T. apply Rmult_lt_0_compat; [apply (Pos k x H)|apply Rinv_0_lt_compat; exact Tp].
    - unfold normalize_row. change (d_sum d) with T. rewrite Rsum_map. cbn [snd]. unfold Rdiv. rewrite Rsum_scal_r. fold T. rewrite Rinv_r; lra. }
  set (d3 := normalize_row d2).
  assert (In3 : forall k y, In (k, y) d3 <-> exists x, In (k, x) d2 /\ y = x / S).
  { intros k y. unfold d3, normalize_row. change (d_sum d2) with S. rewrite in_map_iff. split; [intros ((j, x) & E & H); injection E as -> <-; exists x; auto|intros (x & H & ->); exists (k, x); auto]. }
  assert (Nd3 : NoDup (map fst d3)) by (unfold d3, normalize_row; rewrite map_map; exact Nth).
  assert (K3 : map fst d3 = map fst d2) by (unfold d3, normalize_row; rewrite map_map; reflexivity).
  assert (Pos3 : forall k x, In (k, x) d3 -> 1/100 <= x).
  { intros k x H. apply In3 in H. destruct H as (y & H & ->). pose proof (Vp k y H) as L. assert (y * 1 <= y * / S); [|unfold Rdiv; lra]. apply Rmult_le_compat_l; [lra|]. rewrite <- Rinv_1. apply Rinv_le_contravar; assumption. }
  assert (One : Rsum snd d3 = 1). { unfold d3, normalize_row. change (d_sum d2) with S. rewrite Rsum_map. cbn [snd]. unfold Rdiv. rewrite Rsum_scal_r. fold S. apply Rinv_r. lra. }
  destruct (round_spec d3 p Nd3) as (R1 & R2 & R3 & R4); [intros k x H; pose proof (Pos3 k x H); lra|exact One|].
  set (r := round_row d3 p) in *. pose proof (ten_pos p) as Np.
  assert (Ndr : NoDup (map fst r)) by (rewrite R1; exact Nd3).
  assert (Of : forall k y, In (k, y) r -> exists x, In (k, x) d3).
  { intros k y H. apply in_keys. rewrite <- R1. apply in_keys. exists y. exact H. }
  assert (Wr : Rsum (fun q => w (fst q)) r = S * T).
  { rewrite <- (Rsum_map fst w r), R1, K3, Rsum_map. rewrite (Rsum_ext_in _ (fun q => snd q * T)); [rewrite Rsum_scal_r; reflexivity|]. intros (k, y) Hq. cbn. apply Thin in Hq. destruct Hq as (x & A & -> & _). rewrite (W k x A). field. lra. }
  assert (Ex : forall k x, In (k, x) d3 -> x = w k / (S * T)).
  { intros k x H. apply In3 in H. destruct H as (y & H & ->). apply Thin in H. destruct H as (z & A & -> & _). rewrite (W k z A). field. lra. }
  split.
  - right. unfold shares. split; [exact Ndr|]. split; [intro k; rewrite R1, K3; apply Kt|]. split; [exact R2|]. split; [|split].
    + intros k x H. destruct (Of k x H) as (y & Hy). destruct (R3 k y Hy) as (n & A & _). exists n. rewrite <- (val_in r k x Ndr H). apply (val_in r k _ Ndr A).
    + intros k x H. destruct (Of k x H) as (y & Hy). destruct (R3 k y Hy) as (n & A & B & _). assert (E : x = INR n / 10 ^ p) by (rewrite <- (val_in r k x Ndr H); apply (val_in r k _ Ndr A)). rewrite E, Wr, <- (Ex k y Hy). exact B.
    + intros k x j y Hk Hj L. destruct (Of k x Hk) as (x3 & X3). destruct (Of j y Hj) as (y3 & Y3). apply (R4 k x3 j y3 x y X3 Y3 Hk Hj). rewrite (Ex k x3 X3), (Ex j y3 Y3). unfold Rdiv. apply Rmult_lt_compat_r; [apply Rinv_0_lt_compat; apply Rmult_lt_0_compat; assumption|exact L].
  - intros P2 k x H. destruct (Of k x H) as (y & Hy). destruct (R3 k y Hy) as (n & A & _ & C). assert (E : x = INR n / 10 ^ p) by (rewrite <- (val_in r k x Ndr H); apply (val_in r k _ Ndr A)).
    assert (L : 1 <= y * 10 ^ p). { pose proof (Pos3 k y Hy) as Ly. assert (Hp : 100 <= 10 ^ p) by (replace 100 with (10 ^ 2) by (cbn; lra); apply Rle_pow; [lra|exact P2]). assert (1/100 * 100 <= y * 10 ^ p) by (apply Rmult_le_compat; lra). lra. }
    specialize (C L). rewrite E. apply Rmult_lt_0_compat; [apply lt_0_INR; lia|apply Rinv_0_lt_compat; exact Np].
Qed.

(** *** Neighbours *)
Lemma insert_id_in k l j : In j (insert_id k l) <-> j = k \/ In j l.
Proof.
  induction l as [|i l IH]; cbn [insert_id]; [cbn; intuition|]. destruct (Z.ltb_spec k i); [cbn; intuition|]. destruct (Z.eqb_spec k i) as [->|]; [cbn; intuition|]. cbn [In]. rewrite IH. intuition.
Qed.
Lemma insert_id_sorted k l : Sorted.StronglySorted Z.lt l -> Sorted.StronglySorted Z.lt (insert_id k l).
Proof.
  induction l as [|i l IH]; cbn [insert_id]; intro H; [constructor; constructor|]. inversion H as [|? ? A B]; subst. rewrite Forall_forall in B. destruct (Z.ltb_spec k i).
  - constructor; [exact H|]. constructor; [exact H0|]. rewrite Forall_forall. intros x Hx. specialize (B x Hx). lia.
  - destruct (Z.eqb_spec k i) as [->|Hne]; [exact H|]. constructor; [apply IH; exact A|]. rewrite Forall_forall. intros x Hx. apply insert_id_in in Hx. destruct Hx as [->|Hx]; [lia|apply B; exact Hx].
Qed.
Lemma sorted_nodup l : Sorted.StronglySorted Z.lt l -> NoDup l.
Proof. induction l as [|i l IH]; intro H; [constructor|]. inversion H as [|? ? A B]; subst. constructor; [|apply IH; exact A]. intro K. rewrite Forall_forall in B. specialize (B i K). lia. Qed.
Lemma fold_insert l : forall a, Sorted.StronglySorted Z.lt a -> Sorted.StronglySorted Z.lt (fold_left (fun m k => insert_id k m) l a) /\ forall j, In j (fold_left (fun m k => insert_id k m) l a) <-> In j a \/ In j l.
Proof.
  induction l as [|k l IH]; intros a H; cbn [fold_left]; [split; [exact H|intro j; cbn; tauto]|]. destruct (IH _ (insert_id_sorted k a H)) as (A & B). split; [exact A|]. intro j. rewrite B, insert_id_in. cbn. intuition.
Qed.
Lemma is_unit_iff g u i j : is_unit g u i j = true <-> In (i, j) (cells g) /\ id_of g (i, j) = u.
Proof. unfold is_unit, in_grid, id_of. rewrite !andb_true_iff, !Nat.ltb_lt, Z.eqb_eq, in_cells. reflexivity. Qed.
Lemma dilated_iff g u c' : In c' (cells g) -> id_of g c' <> u -> (dilated g u c' = true <-> exists c, In c (cells g) /\ id_of g c = u /\ touches c c').
Proof.
  intros Hc Hu. destruct c' as (i, j). unfold dilated. rewrite !orb_true_iff. split.
  - intros [[[[H|H]|H]|H]|H].
    + apply is_unit_iff in H. destruct H as (_ & H). contradiction.
    + apply is_unit_iff in H. exists (S i, j). split; [apply H|]. split; [apply H|]. unfold touches. cbn. auto.
    + apply is_unit_iff in H. exists (i, S j). split; [apply H|]. split; [apply H|]. unfold touches. cbn. auto.
    + destruct i as [|k]; [discriminate|]. apply is_unit_iff in H. exists (k, j). split; [apply H|]. split; [apply H|]. unfold touches. cbn. auto.
    + destruct j as [|k]; [discriminate|]. apply is_unit_iff in H. exists (i, k). split; [apply H|]. split; [apply H|]. unfold touches. cbn. auto.
  - intros ((a, b) & A & B & T). unfold touches in T. cbn in T. assert (I : is_unit g u a b = true) by (apply is_unit_iff; auto).
    destruct T as [(-> & [->| ->])|(-> & [->| ->])]; rewrite I; auto.
Qed.
Lemma neighbours_spec g u : let d := connect_to_neighbours g u [] in
  NoDup (map fst d) /\ (forall v, In v (map fst d) <-> neighbour g u v) /\
  forall v x, In (v, x) d -> 0 < x /\ exists l, border g u v l /\ x = INR (List.length l).
Proof.
  cbv zeta. unfold connect_to_neighbours. set (bl := fun v => filter (fun c => dilated g u c && Z.eqb v (id_of g c)) (cells g)).
  assert (Len : forall v, List.length (filter (Z.eqb v) (dilated_ids g u)) = List.length (bl v)).
  { intro v. unfold dilated_ids, bl. rewrite cells_all. induction (cells g) as [|c l IH]; [reflexivity|]. cbn [filter]. destruct (dilated g u c); cbn [filter map andb]; [|exact IH]. unfold id_of at 1. destruct (Z.eqb v (g_id g (fst c) (snd c))); cbn [List.length]; rewrite IH; reflexivity. }
  assert (Bd : forall v, v <> u -> border g u v (bl v)).
  { intros v Hv. split; [apply NoDup_filter; apply nodup_cells|]. intro c'. unfold bl. rewrite filter_In, andb_true_iff, Z.eqb_eq. split.
    - intros (A & B & C). split; [exact A|]. split; [congruence|]. apply (dilated_iff g u c' A); [congruence|exact B].
    - intros (A & B & C). split; [exact A|]. split; [|congruence]. apply (dilated_iff g u c' A); [congruence|exact C]. }
  destruct (fold_insert (dilated_ids g u) [] (Sorted.SSorted_nil _)) as (So & Si).
  assert (Nn : forall v, In v (neighbour_ids g u) <-> v <> 0%Z /\ v <> u /\ In v (dilated_ids g u)).
  { intro v. unfold neighbour_ids. rewrite !filter_In, Si, !negb_true_iff, !Z.eqb_neq. cbn. tauto. }
  assert (Some_cell : forall v, In v (dilated_ids g u) <-> bl v <> []).
  { intro v. unfold dilated_ids, bl. rewrite cells_all, in_map_iff. split.
    - intros (c & E & H) K. apply filter_In in H. assert (X : In c (filter (fun c => dilated g u c && Z.eqb v (id_of g c)) (cells g))) by (apply filter_In; split; [apply H|]; rewrite (proj2 H); unfold id_of; rewrite E; apply Z.eqb_refl). rewrite K in X. destruct X.
    - intro H. destruct (filter (fun c => dilated g u c && Z.eqb v (id_of g c)) (cells g)) as [|c l] eqn:E; [congruence|]. assert (X : In c (c :: l)) by (left; reflexivity). rewrite <- E in X. apply filter_In in X. destruct X as (X & Y). apply andb_true_iff in Y. destruct Y as (Y & Z0). apply Z.eqb_eq in Z0. exists c. split; [symmetry; exact Z0|apply filter_In; auto]. }
  assert (Bu : forall v l l', border g u v l -> border g u v l' -> List.length l = List.length l').
  { intros v l l' (A & B) (A' & B'). apply Permutation_length. apply NoDup_Permutation; [exact A|exact A'|]. intro c. rewrite B, B'. reflexivity. }
  split; [rewrite map_map; cbn; rewrite map_id; unfold neighbour_ids; apply NoDup_filter, NoDup_filter, sorted_nodup; exact So|]. split.
  - intro v. rewrite map_map. cbn. rewrite map_id, Nn. unfold neighbour. split.
    + intros (A & B & C). split; [exact A|]. split; [exact B|]. exists (bl v). split; [apply Bd; exact B|apply Some_cell; exact C].
    + intros (A & B & l & C & D). split; [exact A|]. split; [exact B|]. apply Some_cell. intro K. pose proof (Bu v l (bl v) C (Bd v B)) as L. rewrite K in L. destruct l; [congruence|discriminate].
  - intros v x H. apply in_map_iff in H. destruct H as (k & E & H). injection E as -> <-. apply Nn in H. destruct H as (A & B & C). rewrite Len. split.
    + apply Some_cell in C. destruct (bl v); [congruence|]. apply lt_0_INR. cbn. lia.
    + exists (bl v). split; [apply Bd; exact B|reflexivity].
Qed.
