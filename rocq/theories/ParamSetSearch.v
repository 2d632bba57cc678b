(** Lemmas: samples of the optimizer, the search box, the best run. *)
From Verif Require Import BaseFacts ParamSetSpec ParamSetFacts ParamSetRange ParamSetUse ParamSetDraws.
Open Scope R_scope.

Lemma constraints_hold_false s l : constraints_hold s l = Ok false -> ~ met s l.
Proof.
  induction l as [|((a, o), b) l IH]; cbn [constraints_hold]; [discriminate|].
  assert (Tail : met s ((a, o, b) :: l) -> met s l) by (intros K a' o' b' rel x y Hin; apply K; right; exact Hin).
  destruct (param_index s a) as [i|] eqn:Ei; [destruct (param_index s b) as [j|] eqn:Ej|]; [|intros H K; exact (IH H (Tail K))|intros H K; exact (IH H (Tail K))].
  destruct (is_list (pa_value (row s i)) || is_list (pa_value (row s j))); [discriminate|].
  destruct (violated o (pa_value (row s i)) (pa_value (row s j))) as [bad| |] eqn:V; cbn [bind]; try discriminate. destruct bad; [|intros H K; exact (IH H (Tail K))]. intros _ K.
  assert (Both : exists x y, pa_value (row s i) = Some (PNum x) /\ pa_value (row s j) = Some (PNum y)).
  { revert V. unfold violated. destruct (pa_value (row s i)) as [[x|]|], (pa_value (row s j)) as [[y|]|]; try (intros _; exists x, y; split; reflexivity);
      repeat match goal with |- context[if ?c then _ else _] => destruct c end; discriminate. }
  destruct Both as (x & y & Vx & Vy). destruct (violated_is o _ _ x y Vx Vy) as (r & A & B). rewrite V in A. injection A as <-. destruct B as (_ & B).
  assert (true = false); [|discriminate]. apply B. intros rel M. apply (K a o b rel x y (or_introl eq_refl) M); [exists i; auto|exists j; auto].
Qed.
Lemma met_is s : constraints_met s <-> met s (ps_constraints s). Proof. reflexivity. Qed.

Lemma sampled_refl s : sampled s [] s.
Proof. split; [reflexivity|]. split; [reflexivity|]. intros i Hi. split; [apply same_definition_refl|]. split; [reflexivity|]. intros v (l1 & k & l2 & A & _). destruct l1; discriminate. Qed.
Lemma numbers_cons q x : numbers (q :: x) = (fst q, PNum (snd q)) :: numbers x. Proof. reflexivity. Qed.
Lemma set_number s q s' : set_value s false false true (fst q, PNum (snd q)) = Ok s' ->
  exists i y, param_index s (fst q) = Some i /\ real_of (row s i) (snd q) y /\ s' = with_row s i (put_value (PNum y)).
Proof.
  unfold set_value, from_transformed, real_of. cbn [fst snd]. destruct (param_index s (fst q)) as [i|]; [|discriminate]. destruct (pa_transform (row s i)) as [t|] eqn:T.
  - destruct (to_real t (snd q)) as [y| |] eqn:Y; cbn [bind]; try discriminate. intros [= <-]. exists i, y. split; [reflexivity|]. rewrite T. split; [exact Y|reflexivity].
  - cbn [bind]. intros [= <-]. exists i, (snd q). split; [reflexivity|]. rewrite T. split; reflexivity.
Qed.
Lemma real_of_same p q x y : same_definition p q -> real_of q x y -> real_of p x y.
Proof. intros (_ & _ & _ & _ & _ & _ & T). unfold real_of. rewrite T. tauto. Qed.
Lemma set_numbers x : forall s s', set_values s false false true (numbers x) = Returned s' -> sampled s x s'.
Proof.
  induction x as [|q x IH]; intros s s'.
  - cbn. intros [= <-]. apply sampled_refl.
  - rewrite numbers_cons. cbn [set_values]. destruct (set_value s false false true (fst q, PNum (snd q))) as [s1| |] eqn:E; try discriminate. intro H. destruct (set_value_names _ _ _ _ _ _ E) as (N & Cs).
    destruct (IH s1 s' H) as (P1 & P2 & P3). destruct (set_number s q s1 E) as (i0 & y & I1 & Ry & ->). rewrite with_row_parameters in *. split; [exact P1|]. split; [congruence|].
    intros i Hi. destruct (P3 i Hi) as (D1 & D2 & D3). rewrite (put_rows s i0 (PNum y) i Hi) in D1, D2, D3. rewrite (not_given_same_names _ _ (numbers x) i N) in D2.
    assert (Dd : same_definition (row s i) (if (i =? i0)%nat then put_value (PNum y) (row s i) else row s i)) by (destruct (i =? i0)%nat; [apply put_definition|apply same_definition_refl]).
    split; [exact (same_definition_trans _ _ _ Dd D1)|]. split.
    + intro Hn. rewrite D2; [|intros r Hr; apply Hn; right; exact Hr]. destruct (Nat.eqb_spec i i0) as [->|]; [|reflexivity]. elim (Hn _ (or_introl eq_refl)). exact I1.
    + intros v Lg. rewrite numbers_cons in Lg. apply last_given_cases in Lg. destruct Lg as [Lg|(A & B & C)].
      * rewrite <- (last_given_same_names _ _ (numbers x) i (PNum v) N) in Lg. destruct (D3 v Lg) as (y' & R' & V'). exists y'. split; [exact (real_of_same _ _ _ _ Dd R')|exact V'].
      * cbn [fst snd] in A, B. injection B as <-. rewrite A in I1. injection I1 as <-. exists y. split; [exact Ry|]. rewrite (D2 C), Nat.eqb_refl. reflexivity.
Qed.
Lemma set_numbers_kind s x s' : sampled s x s' -> searchable s x -> (forall p, In p (ps_params s') -> right_kind p).
Proof.
  intros (P & _ & Q) (K & G) p Hp. apply in_rows in Hp. destruct Hp as (i & Hi & <-). rewrite P in Hi. destruct (Q i Hi) as (D & N & L).
  destruct (given_or_not s (numbers x) i) as [Ng|(v & Lv)].
  - rewrite (N Ng). apply K. apply in_rows. eauto.
  - assert (Hv : exists z q, v = PNum z /\ In q x /\ param_index s (fst q) = Some i).
    { destruct Lv as (l1 & k & l2 & A & B & _). assert (Hin : In (k, v) (numbers x)) by (rewrite A; apply in_or_app; right; left; reflexivity). unfold numbers in Hin. apply in_map_iff in Hin. destruct Hin as (q & E & Hq). injection E as <- <-. eauto. }
    destruct Hv as (z & q & -> & Hq & Iq). destruct (L z Lv) as (y & _ & V). unfold right_kind. rewrite V. destruct (G q i Hq Iq) as (low & high & Nr). exists low, high. exact (definition_range _ _ _ _ D Nr).
Qed.
Lemma searchable_again s x s' y : sampled s x s' -> searchable s x -> searchable s y -> searchable s' y.
Proof.
  intros S K (_ & G). split; [exact (set_numbers_kind s x s' S K)|]. intros q i Hq Iq. destruct S as (P & _ & Q). pose proof (definition_names s s' P (fun i Hi => proj1 (Q i Hi))) as N.
  rewrite (same_names_index s s' (fst q) N) in Iq. destruct (G q i Hq Iq) as (low & high & Nr). exists low, high. exact (definition_range _ _ _ _ (proj1 (Q i (index_lt _ _ _ Iq))) Nr).
Qed.
Lemma good_is s : (forall p, In p (ps_params s) -> right_kind p) -> good s -> constraints_met s /\ in_ranges s.
Proof.
  intros K (A & B). split; [apply constraints_hold_true; exact A|]. destruct (rows_in_range_iff _ K) as (b & C & D). unfold range_satisfied in B. rewrite C in B. injection B as ->. exact (proj1 D eq_refl).
Qed.
Lemma sampled_trans s x s1 y s2 : sampled s x s1 -> sampled s1 y s2 -> (forall q i, In q x -> param_index s (fst q) = Some i -> exists q', In q' y /\ param_index s (fst q') = Some i) -> sampled s y s2.
Proof.
  intros (P1 & P2 & P3) (Q1 & Q2 & Q3) Cov. pose proof (definition_names s s1 P1 (fun i Hi => proj1 (P3 i Hi))) as N. split; [congruence|]. split; [congruence|]. intros i Hi.
  destruct (P3 i Hi) as (D & Ng & Lg). rewrite P1 in Q3. destruct (Q3 i Hi) as (D' & Ng' & Lg'). split; [exact (same_definition_trans _ _ _ D D')|]. split.
  - intro H. rewrite Ng'; [|apply (not_given_same_names s s1 _ i N); exact H]. apply Ng. intros q Hq Iq. unfold numbers in Hq. apply in_map_iff in Hq. destruct Hq as (q0 & E & Hq0). subst q. cbn in Iq.
    destruct (Cov q0 i Hq0 Iq) as (q' & Hq' & Iq'). apply (H (fst q', PNum (snd q'))); [unfold numbers; apply in_map_iff; exists q'; auto|exact Iq'].
  - intros v Lv. destruct (Lg' v) as (y0 & A & B); [apply (last_given_same_names s s1 _ i _ N); exact Lv|]. exists y0. split; [exact (real_of_same _ _ _ _ D A)|exact B].
Qed.

(** The search box. *)
Lemma box t a b xa xb : a <= b -> undoes t a b -> rising t \/ falling t -> always_real t -> to_transformed t a = Ok xa -> to_transformed t b = Ok xb ->
  forall lo hi, (lo = xa /\ hi = xb \/ lo = xb /\ hi = xa) -> lo <= hi ->
  (forall y, a <= y <= b -> exists x, lo <= x <= hi /\ to_transformed t y = Ok x /\ to_real t x = Ok y) /\
  (forall x, lo <= x <= hi -> exists y, to_real t x = Ok y /\ a <= y <= b).
Proof.
  intros Hab U M Ar Ta Tb lo hi Hlh Hle. destruct (U a) as (xa' & A1 & A2); [lra|]. rewrite Ta in A1. injection A1 as <-. destruct (U b) as (xb' & B1 & B2); [lra|]. rewrite Tb in B1. injection B1 as <-. split.
  - intros y Hy. destruct (U y Hy) as (x & X1 & X2). exists x. split; [|auto].
    assert (Eq : (y = a -> x = xa) /\ (y = b -> x = xb)) by (split; intros ->; congruence). destruct Eq as (Ea & Eb).
    destruct M as [M|M].
    + split.
      * destruct (Rle_or_lt lo x) as [|H]; [assumption|]. exfalso. assert (y <= a) by (apply (M x xa y a X2 A2); destruct Hlh as [(-> & ->)|(-> & ->)]; lra). assert (x = xa) by (apply Ea; lra). destruct Hlh as [(-> & ->)|(-> & ->)]; lra.
      * destruct (Rle_or_lt x hi) as [|H]; [assumption|]. exfalso. assert (b <= y) by (apply (M xb x b y B2 X2); destruct Hlh as [(-> & ->)|(-> & ->)]; lra). assert (x = xb) by (apply Eb; lra). destruct Hlh as [(-> & ->)|(-> & ->)]; lra.
    + split.
      * destruct (Rle_or_lt lo x) as [|H]; [assumption|]. exfalso. assert (b <= y) by (apply (M x xb y b X2 B2); destruct Hlh as [(-> & ->)|(-> & ->)]; lra). assert (x = xb) by (apply Eb; lra). destruct Hlh as [(-> & ->)|(-> & ->)]; lra.
      * destruct (Rle_or_lt x hi) as [|H]; [assumption|]. exfalso. assert (y <= a) by (apply (M xa x a y A2 X2); destruct Hlh as [(-> & ->)|(-> & ->)]; lra). assert (x = xa) by (apply Ea; lra). destruct Hlh as [(-> & ->)|(-> & ->)]; lra.
  - intros x Hx. destruct (Ar x) as (y & Hy). exists y. split; [exact Hy|].
    destruct M as [M|M]; destruct Hlh as [(-> & ->)|(-> & ->)]; pose proof (M x xa y a Hy A2); pose proof (M xa x a y A2 Hy); pose proof (M x xb y b Hy B2); pose proof (M xb x b y B2 Hy); lra.
Qed.

(** The best run. *)
Lemma skills_are (minimize : bool) (runs : list (list (string * R) * option R)) :
  map (fun d => if minimize then - snd d else snd d) (stored minimize runs) = map (fun r => match snd r with Some v => v | None => - WORST end) runs.
Proof. unfold stored. rewrite map_map. apply map_ext. intros (x & [v|]); destruct minimize; cbn; lra. Qed.
Lemma real_values_spec s x : forall q, real_values s x = Ok q -> (forall k, In k x -> has s (fst k) = true) ->
  forall s0, same_names s s0 -> (forall i, (i < parameters s)%nat -> same_definition (row s i) (row s0 i)) -> forall s', set_values s0 false false true (numbers x) = Returned s' -> set_values s0 false false false (numbers q) = Returned s'.
Proof.
  induction x as [|k x IH]; intros q; cbn [real_values].
  - intros [= <-] _ s0 _ _ s'. exact (fun H => H).
  - destruct (real_value s k) as [k'| |] eqn:E; cbn [bind]; try discriminate. destruct (real_values s x) as [q'| |] eqn:E'; cbn [bind]; try discriminate. intros [= <-] Hk s0 N D s'. rewrite !numbers_cons. cbn [set_values].
    destruct (set_value s0 false false true (fst k, PNum (snd k))) as [s1| |] eqn:Es; try discriminate. intro H. destruct (set_number s0 k s1 Es) as (i & y & I & Ry & ->).
    assert (Is : param_index s (fst k) = Some i) by (rewrite <- (same_names_index s s0 _ N); exact I). pose proof (index_lt _ _ _ Is) as Hi.
    assert (Ek : k' = (fst k, y)).
    { revert E. unfold real_value. rewrite Is. unfold real_of in Ry. destruct (D i Hi) as (_ & _ & _ & _ & _ & _ & T). rewrite T in Ry. destruct (pa_transform (row s i)) as [t|].
      - rewrite Ry. cbn [bind]. congruence.
      - intros [= <-]. rewrite Ry. destruct k; reflexivity. }
    subst k'. cbn [fst snd]. unfold set_value at 1. cbn [fst snd]. rewrite I. cbn [bind].
    assert (P0 : parameters s0 = parameters s) by exact (proj1 N).
    apply IH; [reflexivity|intros k0 Hk0; apply Hk; right; exact Hk0| | |exact H].
    + apply (same_names_trans _ s0); [exact N|apply put_value_names].
    + intros j Hj. rewrite put_rows by lia. destruct (j =? i)%nat; [exact (same_definition_trans _ _ _ (D j Hj) (put_definition _ _))|apply D; exact Hj].
Qed.
