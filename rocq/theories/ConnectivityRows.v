(** Lemmas: the row of each unit in the table of connectivity. *)
From Coq Require Import Permutation String.
From Verif Require Import BaseFacts ConnectivitySpec ConnectivityFacts ConnectivityRound ConnectivityNormal.
Open Scope R_scope.

Lemma each_in f t u d : In (u, d) (each f t) <-> exists d0, In (u, d0) t /\ d = f u d0.
Proof.
  unfold each. rewrite in_map_iff. split; [intros ((w, d0) & E & H); injection E as -> <-; exists d0; auto|intros (d0 & H & ->); exists (u, d0); auto].
Qed.
Lemma each_keys f t : map fst (each f t) = map fst t.
Proof. unfold each. rewrite map_map. reflexivity. Qed.

(** What the table holds before the shares are computed: positive weights of the receivers. *)
Record row_of (w : Z -> R) (rc : Z -> Prop) (d : dict) : Prop :=
  mkRowOf { ro_nodup : NoDup (map fst d); ro_keys : forall k, In k (map fst d) <-> rc k; ro_w : weights d w; ro_pos : forall k x, In (k, x) d -> 0 < x }.
Lemma row_del w rc d k : row_of w rc d -> row_of w (fun v => v <> k /\ rc v) (d_del d k).
Proof.
  intros [A B C D]. assert (I : forall j x, In (j, x) (d_del d k) <-> In (j, x) d /\ j <> k).
  { intros j x. unfold d_del. rewrite filter_In. cbn. rewrite negb_true_iff, Z.eqb_neq. tauto. }
  constructor.
  - apply nodup_filter. exact A.
  - intro j. rewrite in_keys. split.
    + intros (x & H). apply I in H. split; [apply H|]. apply B, in_keys. exists x. apply H.
    + intros (H & K). apply B, in_keys in K. destruct K as (x & K). exists x. apply I. auto.
  - intros j x H. apply I in H. apply C. apply H.
  - intros j x H. apply I in H. apply (D j x). apply H.
Qed.
Lemma row_nil w rc d : row_of w rc d -> (d = [] <-> forall k, ~ rc k).
Proof.
  intros [A B C D]. split; [intros -> k K; apply B in K; destruct K|]. intro H. destruct d as [|(k, x) r]; [reflexivity|]. elim (H k). apply B. left. reflexivity.
Qed.
Lemma row_sum_zero w rc d : row_of w rc d -> (Rsum snd d = 0 <-> d = []).
Proof.
  intros [A B C D]. split; [|intros ->; reflexivity]. destruct d as [|(k, x) r]; [reflexivity|]. cbn [Rsum snd]. intro H. exfalso.
  assert (0 < x) by (apply (D k x); left; reflexivity). assert (0 <= Rsum snd r); [|lra]. apply Rsum_nonneg. intros (j, y) Hj. left. apply (D j y). right. exact Hj.
Qed.
Lemma crowded w rc d : row_of w rc d -> d <> [] -> (forall k, ~ kept w rc k) -> crowd rc.
Proof.
  intros [A B C D] Ne H. exists (map fst d). split; [exact A|]. split; [apply B|]. destruct (le_lt_dec (List.length (map fst d)) 100) as [L|L]; [exfalso|exact L].
  assert (Tt : total w rc (Rsum snd d)) by (exists (map fst d); split; [exact A|]; split; [exact B|apply weights_sum; exact C]).
  set (T := Rsum snd d) in *.
  assert (Lt : forall q, In q d -> snd q < T / 100).
  { intros (k, x) Hq. cbn. apply Rnot_le_lt. intro K. apply (H k). split; [apply B, in_keys; exists x; exact Hq|]. intros T' HT. rewrite (total_unique _ _ _ _ HT Tt), (C k x Hq). exact K. }
  assert (S : T < Rsum (fun _ => T / 100) d).
  { unfold T at 1. clear - Lt Ne. destruct d as [|q r]; [congruence|]. cbn [Rsum]. pose proof (Lt q (or_introl eq_refl)). assert (Rsum snd r <= Rsum (fun _ => T / 100) r); [|lra]. apply Rsum_le. intros x Hx. left. apply Lt. right. exact Hx. }
  assert (Tp : 0 <= T) by (apply Rsum_nonneg; intros (j, y) Hj; left; apply (D j y Hj)).
  rewrite Rsum_const in S. rewrite map_length in L. apply le_INR in L. change (INR 100) with (INR (4 * 25)) in L. rewrite mult_INR in L. cbn [INR] in L.
  assert (INR (List.length d) * (T / 100) <= 100 * (T / 100)) by (apply Rmult_le_compat_r; lra). lra.
Qed.

(** One row in mode "multiple". *)
Lemma normal_row w rc d p force : row_of w rc d -> let r := normalize_connectivity force p d in
  let rc' := fun v => v <> 0%Z /\ rc v in
  (r <> [] -> shares p w (kept w rc') r) /\
  (force = false -> rc 0%Z -> (forall v, rc' v -> w v < w 0%Z) -> r = []) /\
  (force = true \/ ~ rc 0%Z \/ (exists v, rc' v /\ w 0%Z < w v) -> r = [] -> (forall v, ~ rc' v) \/ crowd rc') /\
  ((2 <= p)%nat -> forall k x, In (k, x) r -> 0 < x) /\ (forall k x, In (k, x) r -> rc' k).
Proof.
  intros Ro. cbv zeta. set (rc' := fun v => v <> 0%Z /\ rc v). unfold normalize_connectivity. destruct (max_key d) as [m|] eqn:M.
  2:{ apply max_key_none in M. subst d. split; [congruence|]. split; [reflexivity|]. split; [|split; [intros _ k x []|intros k x []]]. intros _ _. left. intros v (_ & V). apply (proj1 (row_nil _ _ _ Ro) eq_refl v V). }
  apply max_key_spec in M. destruct M as (y & Hm & Top). pose proof (ro_w _ _ _ Ro m y Hm) as Wm.
  assert (Rm : rc m) by (apply (ro_keys _ _ _ Ro), in_keys; exists y; exact Hm).
  assert (Le : forall v, rc v -> w v <= w m).
  { intros v V. apply (ro_keys _ _ _ Ro), in_keys in V. destruct V as (z & V). rewrite (ro_w _ _ _ Ro v z V), Wm. apply (Top v z V). }
  destruct (Z.eqb_spec m 0) as [->|Hm0].
  - destruct force; cbn [negb andb].
    2:{ split; [congruence|]. split; [reflexivity|]. split; [|split; [intros _ k x []|intros k x []]]. intros [K|[K|(v & (V0 & V) & L)]] _; [discriminate|contradiction|]. specialize (Le v V). lra. }
    pose proof (row_del _ _ _ 0%Z Ro) as Rd. fold rc' in Rd. set (d1 := d_del d 0) in *. destruct (Reqb (d_sum d1) 0) eqn:Z0.
    + apply Reqb_true in Z0. apply (row_sum_zero _ _ _ Rd) in Z0. rewrite Z0 in Rd |- *. split; [congruence|]. split; [reflexivity|]. split; [|split; [intros _ k x []|intros k x []]]. intros _ _. left. apply (row_nil _ _ _ Rd). reflexivity.
    + apply Reqb_false in Z0. assert (Ne : d1 <> []) by (intro K; apply Z0; rewrite K; reflexivity).
      destruct (normal_spec d1 w rc' p (ro_nodup _ _ _ Rd) (ro_pos _ _ _ Rd) Ne (ro_w _ _ _ Rd) (ro_keys _ _ _ Rd)) as (A & B). unfold thin in A, B.
      split; [intro K; destruct A as [(A & _)|A]; [contradiction|exact A]|]. split; [discriminate|]. split; [|split; [exact B|]].
      * intros _ E. right. destruct A as [(_ & A)|A]; [apply (crowded _ _ _ Rd Ne A)|]. destruct A as (_ & _ & A & _). rewrite E in A. cbn in A. lra.
      * intros k x H. destruct A as [(A & _)|A]; [rewrite A in H; destruct H|]. destruct A as (_ & A & _). apply (A k), in_keys. exists x. exact H.
  - cbn [andb]. pose proof (row_del _ _ _ 0%Z Ro) as Rd. fold rc' in Rd. set (d1 := d_del d 0) in *. destruct (Reqb (d_sum d1) 0) eqn:Z0.
    + apply Reqb_true in Z0. apply (row_sum_zero _ _ _ Rd) in Z0. rewrite Z0 in Rd |- *. split; [congruence|]. split; [reflexivity|]. split; [|split; [intros _ k x []|intros k x []]]. intros _ _. left. apply (row_nil _ _ _ Rd). reflexivity.
    + apply Reqb_false in Z0. assert (Ne : d1 <> []) by (intro K; apply Z0; rewrite K; reflexivity).
      destruct (normal_spec d1 w rc' p (ro_nodup _ _ _ Rd) (ro_pos _ _ _ Rd) Ne (ro_w _ _ _ Rd) (ro_keys _ _ _ Rd)) as (A & B). unfold thin in A, B.
      split; [intro K; destruct A as [(A & _)|A]; [contradiction|exact A]|]. split; [|split; [|split; [exact B|]]].
      * intros _ R0 K. exfalso. assert (w m < w 0%Z) by (apply K; split; assumption). specialize (Le 0%Z R0). lra.
      * intros _ E. right. destruct A as [(_ & A)|A]; [apply (crowded _ _ _ Rd Ne A)|]. destruct A as (_ & _ & A & _). rewrite E in A. cbn in A. lra.
      * intros k x H. destruct A as [(A & _)|A]; [rewrite A in H; destruct H|]. destruct A as (_ & A & _). apply (A k), in_keys. exists x. exact H.
Qed.
(** One row in mode "single". *)
Lemma single_row w rc d force : row_of w rc d -> let r := keep_highest force d in
  (force = true -> ~ rc 0%Z) ->
  (r = [] /\ (forall v, ~ rc v) \/ r = [] /\ rc 0%Z /\ (forall v, rc v -> w v <= w 0%Z)) \/
  (exists v, r = [(v, 1)] /\ v <> 0%Z /\ rc v /\ forall k, rc k -> w k <= w v).
Proof.
  intros Ro. cbv zeta. intro F. unfold keep_highest. destruct (max_key d) as [m|] eqn:M.
  2:{ apply max_key_none in M. subst d. left. left. split; [reflexivity|]. apply (row_nil _ _ _ Ro). reflexivity. }
  apply max_key_spec in M. destruct M as (y & Hm & Top). pose proof (ro_w _ _ _ Ro m y Hm) as Wm.
  assert (Rm : rc m) by (apply (ro_keys _ _ _ Ro), in_keys; exists y; exact Hm).
  assert (Le : forall v, rc v -> w v <= w m).
  { intros v V. apply (ro_keys _ _ _ Ro), in_keys in V. destruct V as (z & V). rewrite (ro_w _ _ _ Ro v z V), Wm. apply (Top v z V). }
  destruct (Z.eqb_spec m 0) as [->|Hm0]; cbn [andb].
  - destruct force; cbn [negb]; [elim (F eq_refl Rm)|]. left. right. auto.
  - right. exists m. auto.
Qed.

(** *** The gathered rows *)
Lemma flow_positive g u v : flowing g -> u <> 0%Z -> receives g u v -> 0 < flow g u v.
Proof.
  intros Fl Hu (c & c' & Hc & Hc' & D & Ec & Ec'). unfold flow, flow_where.
  assert (Nn : forall a b, In a (cells g) -> 0 <= (if drains g a b && Z.eqb (id_of g a) u && Z.eqb v (id_of g b) then g_acc g (fst a) (snd a) else 0)).
  { intros a b Ha. destruct (Z.eqb_spec (id_of g a) u) as [E|]; [|rewrite andb_false_r; apply Rle_refl]. destruct (drains g a b && true && Z.eqb v (id_of g b)); [|lra]. left. apply Fl; [exact Ha|congruence]. }
  apply (Rlt_le_trans _ (g_acc g (fst c) (snd c))); [apply Fl; [exact Hc|congruence]|].
  eapply Rle_trans; [|apply (Rsum_elem_le (fun a => Rsum (fun b => if drains g a b && Z.eqb (id_of g a) u && Z.eqb v (id_of g b) then g_acc g (fst a) (snd a) else 0) (cells g)) (cells g) c); [|exact Hc]].
  - eapply Rle_trans; [|apply (Rsum_elem_le (fun b => if drains g c b && Z.eqb (id_of g c) u && Z.eqb v (id_of g b) then g_acc g (fst c) (snd c) else 0) (cells g) c'); [|exact Hc']].
    + cbv beta. rewrite D, Ec, Ec', !Z.eqb_refl. cbn. lra.
    + intros b _. apply (Nn c b Hc).
  - intros a Ha. apply Rsum_nonneg. intros b _. apply (Nn a b Ha).
Qed.
Lemma flow_other g u v : v <> u -> flow_where g u (fun w => Z.eqb v w && negb (Z.eqb w u)) = flow g u v.
Proof.
  intro H. unfold flow, flow_where. apply Rsum_ext_in. intros c _. apply Rsum_ext_in. intros c' _. destruct (Z.eqb_spec v (id_of g c')) as [E|]; [|rewrite !andb_false_r; reflexivity].
  rewrite <- E, (proj2 (Z.eqb_neq _ _) H). reflexivity.
Qed.
Lemma gathered_row g ids t : NoDup ids -> flowing g -> gather g ids = Ok t -> map fst t = ids /\
  forall u d, In (u, d) t -> u <> 0%Z -> row_of (flow g u) (fun v => v <> u /\ receives g u v) d.
Proof.
  intros N Fl E. destruct (gathered g ids t N E) as (A & B). split; [exact A|]. intros u d H Hu. destruct (B u d H Hu) as (C1 & C2 & C3).
  assert (W : weights d (flow g u)).
  { intros k x K. assert (Kk : In k (map fst d)) by (apply in_keys; exists x; exact K). apply C2 in Kk. rewrite <- (flow_other g u k (proj1 Kk)), <- C3. apply val_in; [exact C1|exact K]. }
  constructor; [exact C1|exact C2|exact W|]. intros k x K. rewrite <- (W k x K). apply flow_positive; [exact Fl|exact Hu|]. apply C2, in_keys. exists x. exact K.
Qed.
Lemma no_flow_out g u : ~ receives g u 0%Z -> flow g u 0%Z = 0.
Proof.
  intro H. unfold flow, flow_where. apply Rsum_zero. intros c Hc. apply Rsum_zero. intros c' Hc'.
  destruct (drains g c c') eqn:D; [|reflexivity]. destruct (Z.eqb_spec (id_of g c) u) as [E|]; [|reflexivity]. destruct (Z.eqb_spec 0 (id_of g c')) as [E'|]; [|reflexivity]. elim H. exists c, c'. auto.
Qed.
(** The lengths of the borders as weights. *)
Definition border_length (g : grid) (u v : Z) : R := INR (List.length (filter (Z.eqb v) (dilated_ids g u))).
Lemma border_row g u : row_of (border_length g u) (neighbour g u) (connect_to_neighbours g u []) /\
  forall v l, v <> u -> border g u v l -> border_length g u v = INR (List.length l).
Proof.
  destruct (neighbours_spec g u) as (A & B & C). split.
  - constructor; [exact A|exact B| |intros k x H; apply (C k x H)]. intros k x H. unfold connect_to_neighbours in H. apply in_map_iff in H. destruct H as (j & E & _). injection E as -> <-. reflexivity.
  - intros v l Hv (D & E). unfold border_length. f_equal. unfold dilated_ids. rewrite cells_all.
    set (bl := filter (fun c => dilated g u c && Z.eqb v (id_of g c)) (cells g)).
    transitivity (List.length bl).
    + unfold bl. clear. induction (cells g) as [|c m IH]; [reflexivity|]. cbn [filter]. destruct (dilated g u c); cbn [filter map andb]; [|exact IH]. unfold id_of at 1. destruct (Z.eqb v (g_id g (fst c) (snd c))); cbn [List.length]; rewrite IH; reflexivity.
    + apply Permutation_length, NoDup_Permutation; [apply NoDup_filter, nodup_cells|exact D|]. intro c'. unfold bl. rewrite filter_In, andb_true_iff, Z.eqb_eq, E. split.
      * intros (F & G & H). split; [exact F|]. split; [congruence|]. apply (dilated_iff g u c' F); [congruence|exact G].
      * intros (F & G & H). split; [exact F|]. split; [|congruence]. apply (dilated_iff g u c' F); [congruence|exact H].
Qed.
(** With force_connectivity, the row of a unit before the shares are computed. *)
Lemma forced_row g u d : u <> 0%Z -> row_of (flow g u) (fun v => v <> u /\ receives g u v) d ->
  (exists v, downstream g u v) /\ row_of (flow g u) (downstream g u) (connect_to_neighbours g u (remove_out d)) \/
  (forall v, ~ downstream g u v) /\ row_of (border_length g u) (neighbour g u) (connect_to_neighbours g u (remove_out d)).
Proof.
  intros Hu Ro. apply (row_del _ _ _ 0%Z) in Ro. unfold remove_out. fold (downstream g u) in Ro. destruct (d_del d 0) as [|(k, x) r] eqn:E.
  - right. split; [|apply border_row]. intros v V. apply (proj1 (row_nil _ _ _ Ro) eq_refl v V).
  - left. split; [exists k; apply (ro_keys _ _ _ Ro); left; reflexivity|]. exact Ro.
Qed.
