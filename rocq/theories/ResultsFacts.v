(** Lemmas on the results file. *)
From Verif Require Import Base BaseFacts Results ResultsSpec.
Open Scope R_scope.

Lemma set_nth_length {X} (l : list X) i x : length (set_nth l i x) = length l.
Proof. revert i. induction l as [|y l IH]; intros [|i]; cbn; auto. Qed.
Lemma nth_set_nth {X} (l : list X) i x j d : (i < length l)%nat -> nth j (set_nth l i x) d = if Nat.eqb j i then x else nth j l d.
Proof.
  revert i j. induction l as [|y l IH]; intros i j H; [cbn in H; lia|]. destruct i as [|i], j as [|j]; cbn [set_nth nth Nat.eqb]; auto.
  cbn in H. apply IH. lia.
Qed.

(** *** Arrays *)
Definition cell_of (m : matrix) (r c : nat) : value := nth (c * m_rows m + r) (m_data m) None.
Definition wf_matrix (m : matrix) : Prop := length (m_data m) = (m_rows m * m_cols m)%nat.
Lemma index_inj R0 r c r' c' : (r < R0)%nat -> (r' < R0)%nat -> (c * R0 + r = c' * R0 + r')%nat -> r = r' /\ c = c'.
Proof. intros H1 H2 E. assert (c = c') by nia. subst. lia. Qed.
Lemma index_bound R0 C0 r c : (r < R0)%nat -> (c < C0)%nat -> (c * R0 + r < R0 * C0)%nat.
Proof. intros. nia. Qed.
Lemma m_set_spec m r c v m' : wf_matrix m -> m_set m r c v = Ok m' -> wf_matrix m' /\ m_rows m' = m_rows m /\ m_cols m' = m_cols m /\ (r < m_rows m)%nat /\ (c < m_cols m)%nat /\
  forall r' c', (r' < m_rows m)%nat -> (c' < m_cols m)%nat -> cell_of m' r' c' = if (Nat.eqb r' r && Nat.eqb c' c)%bool then v else cell_of m r' c'.
Proof.
  intros W. unfold m_set. destruct (Nat.ltb r (m_rows m)) eqn:E1; [|discriminate]. destruct (Nat.ltb c (m_cols m)) eqn:E2; [|discriminate]. cbn [andb].
  apply Nat.ltb_lt in E1, E2. intros [= <-]. unfold wf_matrix, cell_of in *. cbn [m_rows m_cols m_data]. rewrite set_nth_length. repeat (split; [assumption || reflexivity|]).
  intros r' c' H1 H2. rewrite nth_set_nth by (rewrite W; apply index_bound; assumption).
  destruct (Nat.eqb_spec (c' * m_rows m + r') (c * m_rows m + r)) as [E|E].
  - destruct (index_inj (m_rows m) r' c' r c H1 E1 E) as (-> & ->). rewrite !Nat.eqb_refl. reflexivity.
  - destruct (Nat.eqb_spec r' r) as [->|]; [|reflexivity]. destruct (Nat.eqb_spec c' c) as [->|]; [congruence|reflexivity].
Qed.
Lemma m_set_ok m r c v : (r < m_rows m)%nat -> (c < m_cols m)%nat -> exists m', m_set m r c v = Ok m'.
Proof. intros H1 H2. unfold m_set. rewrite (proj2 (Nat.ltb_lt _ _) H1), (proj2 (Nat.ltb_lt _ _) H2). eexists. reflexivity. Qed.
Lemma nan_matrix_spec r c : wf_matrix (nan_matrix r c) /\ m_rows (nan_matrix r c) = r /\ m_cols (nan_matrix r c) = c /\ forall i j, cell_of (nan_matrix r c) i j = None.
Proof. unfold wf_matrix, cell_of, nan_matrix. cbn [m_rows m_cols m_data]. rewrite repeat_length. repeat split. intros i j. apply nth_repeat. Qed.

Section Rec.
Context {P : Type}.
Implicit Types (p : P) (pts : list (pointer P)).

Lemma record_units_spec p cur : forall pts u m m', wf_matrix m -> record_units p cur u pts m = Ok m' ->
  wf_matrix m' /\ m_rows m' = m_rows m /\ m_cols m' = m_cols m /\
  forall r c, (r < m_rows m)%nat -> (c < m_cols m)%nat -> cell_of m' r c =
    if (Nat.eqb r cur && Nat.leb u c && Nat.ltb c (u + length pts))%bool then match nth (c - u) pts None with Some f => Some (f p) | None => cell_of m r c end else cell_of m r c.
Proof.
  induction pts as [|q pts IH]; intros u m m' W H; cbn [record_units] in H.
  - injection H as <-. repeat (split; [assumption || reflexivity|]). intros r c _ _. cbn [length]. destruct (Nat.eqb r cur); [|reflexivity]. cbn [andb].
    destruct (Nat.leb_spec u c); [|reflexivity]. destruct (Nat.ltb_spec c (u + 0)); [lia|reflexivity].
  - assert (Step : forall m1, wf_matrix m1 -> m_rows m1 = m_rows m -> m_cols m1 = m_cols m ->
      (forall r c, (r < m_rows m)%nat -> (c < m_cols m)%nat -> cell_of m1 r c = if (Nat.eqb r cur && Nat.eqb c u)%bool then match q with Some f => Some (f p) | None => cell_of m r c end else cell_of m r c) ->
      record_units p cur (S u) pts m1 = Ok m' -> wf_matrix m' /\ m_rows m' = m_rows m /\ m_cols m' = m_cols m /\
      forall r c, (r < m_rows m)%nat -> (c < m_cols m)%nat -> cell_of m' r c = if (Nat.eqb r cur && Nat.leb u c && Nat.ltb c (u + length (q :: pts)))%bool then match nth (c - u) (q :: pts) None with Some f => Some (f p) | None => cell_of m r c end else cell_of m r c).
    { intros m1 W1 R1 C1 K1 H1. destruct (IH (S u) m1 m' W1 H1) as (W' & R' & C' & K'). rewrite R1 in *. rewrite C1 in *. repeat (split; [assumption|]).
      intros r c Hr Hc. rewrite (K' r c Hr Hc), (K1 r c Hr Hc). cbn [length]. destruct (Nat.eqb r cur); [|reflexivity]. cbn [andb].
      destruct (Nat.leb_spec (S u) c) as [L1|L1]; cbn [andb].
      - replace (Nat.leb u c) with true by (symmetry; apply Nat.leb_le; lia). replace (Nat.eqb c u) with false by (symmetry; apply Nat.eqb_neq; lia). cbn [andb].
        replace (c - u)%nat with (S (c - S u)) by lia. cbn [nth]. replace (u + S (length pts))%nat with (S u + length pts)%nat by lia. reflexivity.
      - destruct (Nat.eqb_spec c u) as [->|N].
        + rewrite Nat.leb_refl, Nat.sub_diag. cbn [andb nth]. replace (Nat.ltb u (u + S (length pts))) with true by (symmetry; apply Nat.ltb_lt; lia). reflexivity.
        + replace (Nat.leb u c) with false by (symmetry; apply Nat.leb_gt; lia). reflexivity. }
    destruct q as [f|].
    + destruct (m_set m cur u (Some (f p))) as [m1| |] eqn:E; cbn [bind] in H; try discriminate. destruct (m_set_spec _ _ _ _ _ W E) as (W1 & R1 & C1 & _ & _ & K1).
      exact (Step m1 W1 R1 C1 K1 H).
    + apply (Step m W eq_refl eq_refl); [|exact H]. intros r c _ _. destruct (Nat.eqb r cur && Nat.eqb c u)%bool; reflexivity.
Qed.
Lemma record_units_ok p cur : forall pts u m, wf_matrix m -> (cur < m_rows m)%nat -> (u + length pts <= m_cols m)%nat -> exists m', record_units p cur u pts m = Ok m'.
Proof.
  induction pts as [|q pts IH]; intros u m W Hr Hc; cbn [record_units length] in *; [eexists; reflexivity|]. destruct q as [f|].
  - destruct (m_set_ok m cur u (Some (f p)) Hr ltac:(lia)) as (m1 & E). rewrite E. cbn [bind]. destruct (m_set_spec _ _ _ _ _ W E) as (W1 & R1 & C1 & _).
    apply IH; [exact W1|lia|lia].
  - apply IH; [exact W|exact Hr|lia].
Qed.

(** A table of arrays: [times] rows and [units] columns each. *)
Definition shaped (times units : nat) (pt : list (list (pointer P))) (ms : list matrix) : Prop :=
  Forall2 (fun l m => wf_matrix m /\ m_rows m = times /\ m_cols m = units /\ length l = units) pt ms.
Definition cells (ms : list matrix) (i u t : nat) : value := match nth_error ms i with Some m => cell_of m t u | None => None end.
Lemma record_labels_spec p cur times units : forall pt ms, shaped times units pt ms -> (cur < times)%nat ->
  exists ms', record_labels p cur pt ms = Ok ms' /\ shaped times units pt ms' /\
  forall i u t, (i < length pt)%nat -> (u < units)%nat -> (t < times)%nat ->
    cells ms' i u t = if Nat.eqb t cur then match pointer_of pt i u with Some f => Some (f p) | None => cells ms i u t end else cells ms i u t.
Proof.
  intros pt ms H Hc. induction H as [|l m pt ms (W & R0 & C0 & L0) H IH]; cbn [record_labels].
  - eexists. split; [reflexivity|]. split; [constructor|]. intros i u t Hi. cbn in Hi. lia.
  - destruct (record_units_ok p cur l 0 m W) as (m' & E); [lia|lia|]. rewrite E. cbn [bind]. destruct IH as (ms' & E' & S' & K'). rewrite E'. cbn [bind].
    destruct (record_units_spec p cur l 0 m m' W E) as (W' & R' & C' & K). eexists. split; [reflexivity|]. split.
    + constructor; [repeat split; congruence || assumption|exact S'].
    + intros [|i] u t Hi Hu Ht.
      * unfold cells, pointer_of. cbn [nth_error nth]. rewrite K by lia. cbn [Nat.leb Nat.add]. rewrite Nat.sub_0_r. replace (Nat.ltb u (length l)) with true by (symmetry; apply Nat.ltb_lt; lia).
        destruct (Nat.eqb t cur); reflexivity.
      * cbn in Hi. apply (K' i u t); lia.
Qed.
Lemma nth_error_nil_map {X Y} (f : X -> Y) l i : nth_error (map f l) i = option_map f (nth_error l i).
Proof. apply nth_error_map. Qed.
Lemma shaped_nan {L} times units (labels : list L) pt : length pt = length labels -> (forall l, In l pt -> length l = units) -> shaped times units pt (map (fun _ => nan_matrix times units) labels).
Proof.
  revert pt. induction labels as [|x labels IH]; intros [|l pt] H HL; try discriminate; [constructor|]. cbn [map]. destruct (nan_matrix_spec times units) as (W & R0 & C0 & _). constructor.
  - repeat split; try assumption. apply HL. left. reflexivity.
  - apply IH; [cbn in H; lia|]. intros; apply HL; right; assumption.
Qed.
Lemma cells_nan {L} times units (labels : list L) i u t : cells (map (fun _ => nan_matrix times units) labels) i u t = None.
Proof. unfold cells. rewrite nth_error_map. destruct (nth_error labels i); cbn; [apply nan_matrix_spec|reflexivity]. Qed.

(** *** The sub-basin *)
Definition sub_cells (vs : list (list value)) (i t : nat) : value := nth t (nth i vs []) None.
Lemma record_sub_spec p cur times : forall pts vs, length pts = length vs -> (forall q, In q pts -> q <> None) -> (forall v, In v vs -> length v = times) -> (cur < times)%nat ->
  exists vs', record_sub p cur pts vs = Ok vs' /\ length vs' = length vs /\ (forall v, In v vs' -> length v = times) /\
  forall i t, (i < length pts)%nat -> sub_cells vs' i t = if Nat.eqb t cur then shown (nth i pts None) p else sub_cells vs i t.
Proof.
  induction pts as [|q pts IH]; intros [|v vs] HL HN HV Hc; try discriminate; cbn [record_sub].
  - eexists. split; [reflexivity|]. split; [reflexivity|]. split; [exact HV|]. intros i t Hi. cbn in Hi. lia.
  - destruct q as [f|]; [|exfalso; exact (HN None (or_introl eq_refl) eq_refl)]. pose proof (HV v (or_introl eq_refl)) as Lv.
    rewrite (proj2 (Nat.ltb_lt _ _)) by lia. destruct (IH vs) as (vs' & E & L' & V' & K); [cbn in HL; lia|intros; apply HN; right; assumption|intros; apply HV; right; assumption|exact Hc|].
    rewrite E. cbn [bind]. eexists. split; [reflexivity|]. split; [cbn; lia|]. split.
    + intros w [<-|I]; [rewrite set_nth_length; exact Lv|exact (V' w I)].
    + intros [|i] t Hi; unfold sub_cells in *; cbn [nth]; [rewrite nth_set_nth by lia; reflexivity|]. apply K. cbn in Hi. lia.
Qed.

(** *** A run *)
Definition in_shape (times : nat) (r : recorder P) : Prop :=
  length (r_time r) = times /\ length (r_sub_pt r) = length (r_sub r) /\ (forall q, In q (r_sub_pt r) -> q <> None) /\ (forall v, In v (r_sub r) -> length v = times) /\
  shaped times (length (r_ids r)) (r_pt r) (r_values r) /\ shaped times (length (r_ids r)) (r_fractions_pt r) (r_fractions r).
Definition same_setup (a b : recorder P) : Prop :=
  r_sub_labels a = r_sub_labels b /\ r_sub_pt a = r_sub_pt b /\ r_ids a = r_ids b /\ r_structures a = r_structures b /\ r_areas a = r_areas b /\
  r_labels a = r_labels b /\ r_pt a = r_pt b /\ r_covers a = r_covers b /\ r_fractions_pt a = r_fractions_pt b.
Definition over {X} (k : nat) (run : list X) (t : nat) (new old : value) : value := if (Nat.leb k t && Nat.ltb t (k + length run))%bool then new else old.
Definition kept (q : pointer P) (new old : value) : value := match q with Some _ => new | None => old end.
Lemma record_rows_spec times : forall run r, in_shape times r -> (r_cursor r + length run <= times)%nat ->
  exists r', record_rows run r = Ok r' /\ in_shape times r' /\ same_setup r' r /\ r_cursor r' = (r_cursor r + length run)%nat /\
  (forall t, (t < times)%nat -> nth t (r_time r') None = over (r_cursor r) run t (date_at run (t - r_cursor r)) (nth t (r_time r) None)) /\
  (forall i t, (i < length (r_sub_pt r))%nat -> (t < times)%nat -> sub_cells (r_sub r') i t = over (r_cursor r) run t (recorded run (nth i (r_sub_pt r) None) (t - r_cursor r)) (sub_cells (r_sub r) i t)) /\
  (forall i u t, (i < length (r_pt r))%nat -> (u < length (r_ids r))%nat -> (t < times)%nat ->
    cells (r_values r') i u t = over (r_cursor r) run t (kept (pointer_of (r_pt r) i u) (recorded run (pointer_of (r_pt r) i u) (t - r_cursor r)) (cells (r_values r) i u t)) (cells (r_values r) i u t)) /\
  (forall i u t, (i < length (r_fractions_pt r))%nat -> (u < length (r_ids r))%nat -> (t < times)%nat ->
    cells (r_fractions r') i u t = over (r_cursor r) run t (kept (pointer_of (r_fractions_pt r) i u) (recorded run (pointer_of (r_fractions_pt r) i u) (t - r_cursor r)) (cells (r_fractions r) i u t)) (cells (r_fractions r) i u t)).
Proof.
  induction run as [|[d p] run IH]; intros r Sh Hl; cbn [record_rows].
  - exists r. split; [reflexivity|]. split; [exact Sh|]. split; [repeat split|]. split; [cbn; lia|].
    assert (O : forall t new old, @over (R * P) (r_cursor r) [] t new old = old).
    { intros t new old. unfold over. cbn [length]. destruct (Nat.leb_spec (r_cursor r) t); [|reflexivity]. destruct (Nat.ltb_spec t (r_cursor r + 0)); [lia|reflexivity]. }
    repeat split; intros; rewrite O; reflexivity.
  - cbn [length] in Hl. destruct Sh as (ST & SL & SN & SV & SU & SF). set (k := r_cursor r) in *.
    destruct (record_sub_spec p k times (r_sub_pt r) (r_sub r) SL SN SV ltac:(lia)) as (sub & E1 & L1 & V1 & K1).
    destruct (record_labels_spec p k times (length (r_ids r)) (r_pt r) (r_values r) SU ltac:(lia)) as (vals & E2 & S2 & K2).
    destruct (record_labels_spec p k times (length (r_ids r)) (r_fractions_pt r) (r_fractions r) SF ltac:(lia)) as (fr & E3 & S3 & K3).
    unfold record_row. fold k. rewrite (proj2 (Nat.ltb_lt _ _)) by lia. rewrite E1. cbn [bind]. rewrite E2. cbn [bind]. rewrite E3. cbn [bind].
    set (r1 := mkRec _ _ _ _ _ _ _ _ _ _ _ _ _ _). destruct (IH r1) as (r' & E & Sh' & Su & Cu & KT & KS & KU & KF).
    { unfold r1, in_shape. cbn [r_time r_sub_pt r_sub r_ids r_pt r_values r_fractions_pt r_fractions]. rewrite set_nth_length. repeat (split; [assumption || congruence|]). assumption. }
    { unfold r1. cbn [r_cursor]. lia. }
    exists r'. split; [exact E|]. split; [exact Sh'|]. split; [exact Su|]. unfold r1 in *. cbn [r_cursor r_time r_sub_pt r_sub r_ids r_pt r_values r_fractions_pt r_fractions] in *.
    split; [rewrite Cu; cbn [length]; lia|].
    assert (G : forall t (A B : nat -> value) (first old : value), (forall j, A (S j) = B j) -> A 0%nat = first ->
      over (S k) run t (B (t - S k)%nat) (if Nat.eqb t k then first else old) = over k ((d, p) :: run) t (A (t - k)%nat) old).
    { intros t A B first old HA H0. unfold over. cbn [length]. destruct (Nat.eqb_spec t k) as [->|N].
      - replace (Nat.leb (S k) k) with false by (symmetry; apply Nat.leb_gt; lia). rewrite Nat.leb_refl, Nat.sub_diag. replace (Nat.ltb k (k + S (length run))) with true by (symmetry; apply Nat.ltb_lt; lia).
        cbn [andb]. congruence.
      - destruct (Nat.leb_spec (S k) t).
        + replace (Nat.leb k t) with true by (symmetry; apply Nat.leb_le; lia). replace (k + S (length run))%nat with (S k + length run)%nat by lia. cbn [andb].
          replace (t - k)%nat with (S (t - S k)) by lia. rewrite HA. reflexivity.
        + replace (Nat.leb k t) with false by (symmetry; apply Nat.leb_gt; lia). reflexivity. }
    assert (GK : forall (q : pointer P) t old,
      over (S k) run t (kept q (recorded run q (t - S k)) (if Nat.eqb t k then match q with Some f => Some (f p) | None => old end else old))
        (if Nat.eqb t k then match q with Some f => Some (f p) | None => old end else old) = over k ((d, p) :: run) t (kept q (recorded ((d, p) :: run) q (t - k)) old) old).
    { intros [f|] t old; cbn [kept].
      - apply (G t (fun j => recorded ((d, p) :: run) (Some f) j) (fun j => recorded run (Some f) j)); reflexivity.
      - assert (I : (if Nat.eqb t k then old else old) = old) by (destruct (Nat.eqb t k); reflexivity). rewrite I. unfold over. destruct (_ && _)%bool, (_ && _)%bool; reflexivity. }
    split; [|split; [|split]].
    + intros t Ht. rewrite (KT t Ht), nth_set_nth by lia. apply (G t (date_at ((d, p) :: run)) (date_at run)); reflexivity.
    + intros i t Hi Ht. rewrite (KS i t Hi Ht), (K1 i t Hi). apply (G t (fun j => recorded ((d, p) :: run) (nth i (r_sub_pt r) None) j) (fun j => recorded run (nth i (r_sub_pt r) None) j)); reflexivity.
    + intros i u t Hi Hu Ht. rewrite (KU i u t Hi Hu Ht), (K2 i u t Hi Hu Ht). apply GK.
    + intros i u t Hi Hu Ht. rewrite (KF i u t Hi Hu Ht), (K3 i u t Hi Hu Ht). apply GK.
Qed.
Lemma record_rows_too_many times : forall run r, in_shape times r -> (r_cursor r <= times)%nat -> (times < r_cursor r + length run)%nat -> record_rows run r = UB.
Proof.
  intros run r Sh Hc Hl. set (k := (times - r_cursor r)%nat). assert (Hk : (k < length run)%nat) by (unfold k; lia).
  rewrite <- (firstn_skipn k run). assert (F : length (firstn k run) = k) by (rewrite firstn_length; lia).
  assert (App : forall (a b : list (R * P)) r, record_rows (a ++ b) r = bind (record_rows a r) (record_rows b)).
  { clear. induction a as [|[d p] a IH]; intros b r; [reflexivity|]. cbn [app record_rows]. destruct (record_row d p r); cbn [bind]; auto. }
  rewrite App. destruct (record_rows_spec times (firstn k run) r Sh) as (r' & E & Sh' & _ & C' & _); [rewrite F; unfold k; lia|]. rewrite E. cbn [bind].
  destruct (skipn k run) as [|[d p] q] eqn:Es; [assert (length (skipn k run) = 0)%nat by (rewrite Es; reflexivity); rewrite skipn_length in *; lia|].
  cbn [record_rows]. unfold record_row. destruct Sh' as (ST & _). rewrite ST, C', F. replace (Nat.ltb (r_cursor r + k) times) with false by (symmetry; apply Nat.ltb_ge; unfold k; lia). reflexivity.
Qed.
Lemma init_in_shape times ids structures areas sub_labels sub_pt labels pt covers fractions_pt : well_connected (length ids) sub_labels sub_pt labels pt covers fractions_pt ->
  in_shape times (@init_containers P times ids structures areas sub_labels sub_pt labels pt covers fractions_pt).
Proof.
  intros (H1 & H2 & H3 & H4 & H5 & H6). unfold in_shape, init_containers. cbn [r_time r_sub_pt r_sub r_ids r_pt r_values r_fractions_pt r_fractions].
  rewrite repeat_length, map_length. repeat (split; [assumption || reflexivity|]). split; [|split; apply shaped_nan; assumption].
  intros v I. apply in_map_iff in I. destruct I as (x & <- & _). apply repeat_length.
Qed.
End Rec.

(** *** Writing *)
Lemma put_vectors_spec : forall l b cell a t, put_vectors b l cell a t =
  if (Nat.leb b a && Nat.ltb a (b + length l) && Nat.ltb t (length (nth (a - b) l [])))%bool then nth t (nth (a - b) l []) None else cell a t.
Proof.
  induction l as [|v l IH]; intros b cell a t; cbn [put_vectors length].
  - destruct (Nat.leb_spec b a); [|reflexivity]. destruct (Nat.ltb_spec a (b + 0)); [lia|reflexivity].
  - rewrite IH. unfold put_vara_1. destruct (Nat.leb_spec (S b) a).
    + replace (Nat.leb b a) with true by (symmetry; apply Nat.leb_le; lia). replace (a - b)%nat with (S (a - S b)) by lia. cbn [nth andb]. replace (b + S (length l))%nat with (S b + length l)%nat by lia.
      replace (Nat.eqb a b) with false by (symmetry; apply Nat.eqb_neq; lia). reflexivity.
    + cbn [andb]. destruct (Nat.eqb_spec a b) as [->|N].
      * rewrite Nat.leb_refl, Nat.sub_diag. cbn [nth andb]. replace (Nat.ltb b (b + S (length l))) with true by (symmetry; apply Nat.ltb_lt; lia). reflexivity.
      * replace (Nat.leb b a) with false by (symmetry; apply Nat.leb_gt; lia). reflexivity.
Qed.
Lemma put_matrices_spec : forall l b cell a u t, put_matrices b l cell a u t =
  match (if Nat.leb b a then nth_error l (a - b) else None) with
  | Some m => if (Nat.ltb u (m_cols m) && Nat.ltb t (m_rows m))%bool then cell_of m t u else cell a u t
  | None => cell a u t
  end.
Proof.
  induction l as [|m l IH]; intros b cell a u t; cbn [put_matrices].
  - destruct (Nat.leb b a); [|reflexivity]. destruct (a - b)%nat; reflexivity.
  - rewrite IH. unfold put_vara_2. destruct (Nat.leb_spec (S b) a).
    + replace (Nat.leb b a) with true by (symmetry; apply Nat.leb_le; lia). replace (a - b)%nat with (S (a - S b)) by lia. cbn [nth_error].
      replace (Nat.eqb a b) with false by (symmetry; apply Nat.eqb_neq; lia). reflexivity.
    + destruct (Nat.eqb_spec a b) as [->|N].
      * rewrite Nat.leb_refl, Nat.sub_diag. cbn [nth_error andb]. reflexivity.
      * replace (Nat.leb b a) with false by (symmetry; apply Nat.leb_gt; lia). reflexivity.
Qed.
Lemma written_cells {P} times units (pt : list (list (pointer P))) ms i u t : shaped times units pt ms -> (i < length pt)%nat -> (u < units)%nat -> (t < times)%nat ->
  put_matrices 0 ms (fun _ _ _ => None) i u t = cells ms i u t.
Proof.
  intros Sh Hi Hu Ht. rewrite put_matrices_spec. cbn [Nat.leb]. rewrite Nat.sub_0_r. unfold cells. destruct (nth_error ms i) as [m|] eqn:E; [|reflexivity].
  assert (Sm : m_rows m = times /\ m_cols m = units).
  { clear - Sh E. revert i E. induction Sh as [|l m' pt ms (W & R0 & C0 & L0) Sh IH]; intros [|i] E; cbn in E; try discriminate; [injection E as ->; auto|exact (IH i E)]. }
  destruct Sm as (-> & ->). rewrite (proj2 (Nat.ltb_lt _ _) Hu), (proj2 (Nat.ltb_lt _ _) Ht). reflexivity.
Qed.
Lemma written_sub times vs i t : (forall v, In v vs -> length v = times) -> (i < length vs)%nat -> (t < times)%nat -> put_vectors 0 vs (fun _ _ => None) i t = sub_cells vs i t.
Proof.
  intros H Hi Ht. rewrite put_vectors_spec. cbn [Nat.leb Nat.add]. rewrite Nat.sub_0_r. unfold sub_cells.
  rewrite (proj2 (Nat.ltb_lt _ _) Hi). rewrite (H (nth i vs [])) by (apply nth_In; exact Hi). rewrite (proj2 (Nat.ltb_lt _ _) Ht). reflexivity.
Qed.

(** *** Reading *)
Lemma position_some x l i : position x l = Some i -> nth_error l i = Some x.
Proof.
  revert i. induction l as [|y l IH]; intros i; cbn [position]; [discriminate|]. destruct (String.eqb_spec y x) as [->|N]; [intros [= <-]; reflexivity|].
  destruct (position x l) as [j|]; cbn; [|discriminate]. intros [= <-]. cbn. apply IH. reflexivity.
Qed.
Lemma position_none x l : position x l = None <-> ~ In x l.
Proof.
  induction l as [|y l IH]; cbn [position]; [split; [intros _ []|reflexivity]|]. destruct (String.eqb_spec y x) as [->|N].
  - split; [discriminate|]. intros H. exfalso. apply H. left. reflexivity.
  - destruct (position x l); cbn; split; try discriminate; try reflexivity.
    + intros H. exfalso. assert (X0 : @Some nat n = None) by (apply IH; intros I; apply H; right; exact I). discriminate.
    + intros _ [E|I]; [exact (N E)|]. apply (proj1 IH eq_refl I).
Qed.
Lemma position_at x l i : NoDup l -> nth_error l i = Some x -> position x l = Some i.
Proof.
  intros N H. destruct (position x l) as [j|] eqn:E; [|apply position_none in E; exfalso; apply E; exact (nth_error_In _ _ H)].
  apply position_some in E. f_equal. apply (proj1 (NoDup_nth_error l) N); [apply nth_error_Some; congruence|congruence].
Qed.
Lemma ends_with_spec suffix s : ends_with suffix s = true <-> exists a, s = (a ++ suffix)%string.
Proof.
  induction s as [|c s IH]; cbn [ends_with]; rewrite Bool.orb_true_iff.
  - split; [intros [E|]; [|discriminate]; apply String.eqb_eq in E; exists EmptyString; exact E|].
    intros (a & E). left. apply String.eqb_eq. destruct a; [exact E|discriminate].
  - rewrite IH. split.
    + intros [E|(a & ->)]; [apply String.eqb_eq in E; exists EmptyString; exact E|exists (String c a); reflexivity].
    + intros ([|x a] & E); [left; apply String.eqb_eq; exact E|]. right. exists a. cbn in E. congruence.
Qed.
Lemma labels_back l : distributed_labels (attribute_of l) = l.
Proof. destruct l as [|x [|y l]]; reflexivity. Qed.
Lemma resolve_spec labels component i : NoDup labels -> (resolve labels component = Ok i <-> exists label, nth_error labels i = Some label /\ names_label labels component label).
Proof.
  intros N. unfold resolve. destruct (position component labels) as [j|] eqn:E.
  - apply position_some in E. assert (Ic : In component labels) by exact (nth_error_In _ _ E). split.
    + intros [= <-]. exists component. split; [exact E|]. split; [exact Ic|left; reflexivity].
    + intros (l & Hi & _ & [->|(X0 & _)]); [|contradiction]. f_equal. apply (proj1 (NoDup_nth_error labels) N); [apply nth_error_Some; congruence|congruence].
  - apply position_none in E. split.
    + destruct (filter (ends_with component) labels) as [|l [|l' q]] eqn:F; try discriminate.
      assert (Il : In l labels /\ ends_with component l = true) by (apply filter_In; rewrite F; left; reflexivity). destruct Il as (Il & El). apply ends_with_spec in El.
      destruct (position l labels) as [j|] eqn:Ep; [|discriminate]. intros [= <-]. exists l. split; [exact (position_some _ _ _ Ep)|]. split; [exact Il|]. right. split; [exact E|]. split; [exact El|].
      intros l2 I2 E2. assert (X0 : In l2 (filter (ends_with component) labels)) by (apply filter_In; split; [exact I2|apply ends_with_spec; exact E2]). rewrite F in X0. destruct X0 as [->|[]]. reflexivity.
    + intros (l & Hi & Il & [->|(_ & El & U)]); [contradiction|].
      assert (F : filter (ends_with component) labels = [l]).
      { clear - N Il El U. induction labels as [|x labels IH]; [destruct Il|]. inversion N as [|? ? N1 N2]; subst. cbn [filter]. destruct Il as [->|Il].
        - rewrite (proj2 (ends_with_spec component l) El). f_equal. clear - N1 U.
          assert (G : forall q, (forall z, In z q -> In z labels) -> filter (ends_with component) q = []).
          { induction q as [|z q IH]; intros H; [reflexivity|]. cbn [filter]. destruct (ends_with component z) eqn:E; [|apply IH; intros; apply H; right; assumption].
            exfalso. apply ends_with_spec in E. apply N1. rewrite <- (U z (or_intror (H z (or_introl eq_refl))) E). apply H. left. reflexivity. }
          apply G. auto.
        - destruct (ends_with component x) eqn:E; [exfalso; apply ends_with_spec in E; rewrite (U x (or_introl eq_refl) E) in N1; contradiction|].
          apply IH; auto. intros l2 I2 E2. apply U; [right; exact I2|exact E2]. }
      rewrite F. assert (Ep : position l labels = Some i) by (apply position_at; assumption). rewrite Ep. reflexivity.
Qed.

(** *** Means *)
Lemma Rsum_app2 {X} (g : X -> R) l r : Rsum g (l ++ r) = Rsum g l + Rsum g r.
Proof. induction l as [|x l IH]; cbn [app Rsum]; [lra|]. rewrite IH. lra. Qed.
Lemma weight_present l : Rsum weight l = Rsum snd (present l).
Proof. induction l as [|[[v|] [a|]] l IH]; cbn [Rsum]; unfold present in *; cbn [flat_map app Rsum weight snd]; rewrite ?IH; lra. Qed.
Lemma weighted_present l : Rsum weighted l = Rsum (fun c => fst c * snd c) (present l).
Proof. induction l as [|[[v|] [a|]] l IH]; cbn [Rsum]; unfold present in *; cbn [flat_map app Rsum weighted fst snd]; rewrite ?IH; lra. Qed.
