(** Facts about the discretization. *)
From Coq Require Import Permutation.
From Verif Require Import BaseFacts DiscretizationSpec.
Open Scope R_scope.

(** *** Membership *)
Lemma within_iff x lo hi : within x lo hi = true <-> between x lo hi.
Proof.
  unfold within, between. destruct x as [x|].
  - unfold Rleb, Rltb. destruct (Rle_dec lo x), (Rlt_dec x hi); cbn; split; try discriminate; try (intros (v & [= <-] & H); lra); intros _; exists x; split; [reflexivity|lra].
  - split; [discriminate|intros (v & [=] & _)].
Qed.
Lemma first_cover_spec l : forall k j, (0 < j)%nat -> (first_cover l k = j <-> (exists i, j = (k + i)%nat /\ nth_error l i = Some true /\ forall h, (h < i)%nat -> nth_error l h = Some false)) \/ k = O.
Proof.
  induction l as [|b l IH]; intros k j Hj; cbn [first_cover].
  - left. split; [lia|]. intros (i & _ & H & _). destruct i; discriminate.
  - destruct k as [|k]; [right; reflexivity|]. left. destruct b.
    + split; [intros <-; exists O; split; [lia|]; split; [reflexivity|lia]|]. intros (i & -> & A & B). destruct i; [lia|]. specialize (B O ltac:(lia)). discriminate.
    + destruct (IH (S (S k)) j Hj) as [E|]; [|discriminate]. rewrite E. split.
      * intros (i & -> & A & B). exists (S i). split; [lia|]. split; [exact A|]. intros [|h] Hh; [reflexivity|]. apply B. lia.
      * intros ([|i] & -> & A & B); [discriminate|]. exists i. split; [lia|]. split; [exact A|]. intros h Hh. apply (B (S h)). lia.
Qed.
Lemma sub_id_spec c n j : length (z_cover c) = n -> (0 < j)%nat -> (sub_id c n = j <-> belongs_to_polygon c j).
Proof.
  intros L Hj. unfold sub_id. rewrite <- L, firstn_all. destruct (first_cover_spec (z_cover c) 1 j Hj) as [->|]; [|discriminate].
  unfold belongs_to_polygon. split; intros (i & A & B); exists i; (split; [lia|exact B]).
Qed.
Definition polygon_ok (n : nat) (c : cell) (k : class) : Prop := match k with SubCatchment j => (0 < j)%nat /\ length (z_cover c) = n | _ => True end.
Lemma in_class_iff n c k : polygon_ok n c k -> (in_class n c k = true <-> belongs c k).
Proof.
  destruct k as [lo hi|lo hi|d|lo hi|j]; cbn [in_class belongs polygon_ok]; intro H; try apply within_iff.
  - assert (W : forall lo hi, within (z_aspect c) lo hi = true <-> exists a, z_aspect c = Some a /\ lo <= a < hi) by (intros; apply within_iff).
    destruct d; try apply W. destruct (z_aspect c) as [a|]; [|split; [discriminate|intros (v & [=] & _)]].
    cbn [faces]. unfold Rleb, Rltb. destruct (Rle_dec 315 a), (Rle_dec a 360), (Rle_dec 0 a), (Rlt_dec a 45); cbn; split; try discriminate; try (intros (v & [= <-] & K); lra); intros _; exists a; (split; [reflexivity|lra]).
  - rewrite Nat.eqb_eq. apply sub_id_spec; tauto.
Qed.
Lemma inside_iff c : inside c = true <-> in_catchment c.
Proof. unfold inside, in_catchment. destruct (z_elev c); split; try discriminate; try (intros (x & [=])); eauto. Qed.
Lemma in_unit_iff n u c : (forall k, In k u -> polygon_ok n c k) -> (in_unit n u c = true <-> part_of c u).
Proof.
  intro H. unfold in_unit, part_of. rewrite andb_true_iff, inside_iff, forallb_forall. split; intros (A & B); (split; [exact A|]); intros k Hk; apply (in_class_iff n); auto.
Qed.

(** *** Exclusive classes *)
Section Exclusive.
Context {A : Type} (P : A -> A -> Prop).
Lemma fop_app l m : ForallOrdPairs P l -> ForallOrdPairs P m -> (forall x y, In x l -> In y m -> P x y) -> ForallOrdPairs P (l ++ m).
Proof.
  induction 1 as [|x l Hx Hl IH]; intros M C; cbn [app]; [exact M|]. constructor.
  - apply Forall_app. split; [exact Hx|]. apply Forall_forall. intros y Hy. apply C; [left; reflexivity|exact Hy].
  - apply IH; [exact M|]. intros y z Hy Hz. apply C; [right; exact Hy|exact Hz].
Qed.
End Exclusive.
Definition apart {X} (n : nat) (test : nat -> X -> cell -> bool) (x y : X) : Prop := forall c, test n x c = true -> test n y c = true -> False.
Definition class_test (n : nat) (k : class) (c : cell) : bool := in_class n c k.
Definition all_test (n : nat) (u : list class) (c : cell) : bool := forallb (in_class n c) u.
Lemma product_apart n l : (forall a, In a l -> ForallOrdPairs (apart n class_test) a) -> ForallOrdPairs (apart n all_test) (product l).
Proof.
  induction l as [|a r IH]; intro H; cbn [product]; [repeat constructor|].
  specialize (IH (fun b Hb => H b (or_intror Hb))). specialize (H a (or_introl eq_refl)). clear - IH H. induction H as [|x a Hx Ha IHa]; cbn [flat_map]; [constructor|].
  apply fop_app; [|exact IHa|].
  - clear - IH. induction IH as [|u l Hu Hl IH]; cbn [map]; constructor; [|exact IH]. apply Forall_forall. intros y Hy. apply in_map_iff in Hy. destruct Hy as (v & <- & Hv).
    rewrite Forall_forall in Hu. intros c A B. unfold all_test in *. cbn [forallb] in *. apply andb_true_iff in A, B. exact (Hu v Hv c (proj2 A) (proj2 B)).
  - intros u v Hu Hv c A B. apply in_map_iff in Hu. destruct Hu as (u' & <- & _). apply in_flat_map in Hv. destruct Hv as (y & Hy & Hv). apply in_map_iff in Hv. destruct Hv as (v' & <- & _).
    rewrite Forall_forall in Hx. unfold all_test in *. cbn [forallb] in *. apply andb_true_iff in A, B. exact (Hx y Hy c (proj1 A) (proj1 B)).
Qed.
Lemma product_exists n c l : (forall a, In a l -> exists k, In k a /\ in_class n c k = true) -> exists u, In u (product l) /\ all_test n u c = true.
Proof.
  induction l as [|a r IH]; intro H; cbn [product]; [exists []; split; [left; reflexivity|reflexivity]|].
  destruct (IH (fun b Hb => H b (or_intror Hb))) as (u & A & B). destruct (H a (or_introl eq_refl)) as (k & C & D). exists (k :: u). split.
  - apply in_flat_map. exists k. split; [exact C|]. apply in_map. exact A.
  - unfold all_test in *. cbn [forallb]. rewrite D, B. reflexivity.
Qed.
Lemma product_in l u : In u (product l) -> forall k, In k u -> exists a, In a l /\ In k a.
Proof.
  revert u. induction l as [|a r IH]; intros u Hu k Hk; cbn [product] in Hu.
  - destruct Hu as [<-|[]]. destruct Hk.
  - apply in_flat_map in Hu. destruct Hu as (x & Hx & Hu). apply in_map_iff in Hu. destruct Hu as (v & <- & Hv). destruct Hk as [<-|Hk].
    + exists a. split; [left; reflexivity|exact Hx].
    + destruct (IH v Hv k Hk) as (b & B1 & B2). exists b. split; [right; exact B1|exact B2].
Qed.

(** *** Bands *)
Definition rising (e : list R) : Prop := forall i j, (i <= j)%nat -> (j < length e)%nat -> nth i e 0 <= nth j e 0.
Lemma pairs_nth e i : (S i < length e)%nat -> nth_error (pairs e) i = Some (nth i e 0, nth (S i) e 0).
Proof.
  unfold pairs. revert i. induction e as [|x e IH]; intros i H; cbn [length] in H; [lia|]. cbn [tl]. destruct e as [|y e]; [cbn in H; lia|].
  destruct i as [|i]; [reflexivity|]. change (nth_error (combine (y :: e) (tl (y :: e))) i = Some (nth i (y :: e) 0, nth (S i) (y :: e) 0)). apply IH. cbn in H |- *. lia.
Qed.
Lemma pairs_length e : length (pairs e) = (length e - 1)%nat.
Proof. unfold pairs. rewrite combine_length. destruct e as [|x e]; [reflexivity|]. cbn [tl length]. lia. Qed.
Lemma in_pairs e q : In q (pairs e) <-> exists i, (S i < length e)%nat /\ q = (nth i e 0, nth (S i) e 0).
Proof.
  split.
  - intro H. apply In_nth_error in H. destruct H as (i & Hi). assert (L : (i < length (pairs e))%nat) by (apply nth_error_Some; congruence). rewrite pairs_length in L.
    exists i. split; [lia|]. rewrite pairs_nth in Hi by lia. congruence.
  - intros (i & Hi & ->). apply (nth_error_In _ i). apply pairs_nth. exact Hi.
Qed.
Lemma fop_nth {A} (P : A -> A -> Prop) l : (forall i j x y, (i < j)%nat -> nth_error l i = Some x -> nth_error l j = Some y -> P x y) -> ForallOrdPairs P l.
Proof.
  induction l as [|x l IH]; intro H; constructor.
  - apply Forall_forall. intros y Hy. apply In_nth_error in Hy. destruct Hy as (j & Hj). apply (H O (S j)); [lia|reflexivity|exact Hj].
  - apply IH. intros i j y z Hij Hi Hj. apply (H (S i) (S j)); [lia|exact Hi|exact Hj].
Qed.
(** The bands between rising limits exclude each other. *)
Lemma rising_apart n mk (f : cell -> option R) e : (forall c lo hi, in_class n c (mk lo hi) = within (f c) lo hi) -> rising e ->
  ForallOrdPairs (apart n class_test) (map (fun q => mk (fst q) (snd q)) (pairs e)).
Proof.
  intros M Ri. apply fop_nth. intros i j x y Hij Hi Hj c A B. rewrite nth_error_map in Hi, Hj.
  destruct (nth_error (pairs e) i) as [p|] eqn:Ei; [|discriminate]. destruct (nth_error (pairs e) j) as [q|] eqn:Ej; [|discriminate]. cbn in Hi, Hj. injection Hi as <-. injection Hj as <-.
  assert (Lj : (j < length (pairs e))%nat) by (apply nth_error_Some; congruence). rewrite pairs_length in Lj. rewrite pairs_nth in Ei by lia. rewrite pairs_nth in Ej by lia. injection Ei as <-. injection Ej as <-.
  unfold class_test in A, B. rewrite M in A, B. apply within_iff in A, B. destruct A as (v & Hv & A). destruct B as (w & Hw & B). rewrite Hv in Hw. injection Hw as <-. cbn [fst snd] in *.
  pose proof (Ri (S i) j ltac:(lia) ltac:(lia)). lra.
Qed.
(** Bands that are upside down hold nothing. *)
Lemma empty_apart n mk (f : cell -> option R) e : (forall c lo hi, in_class n c (mk lo hi) = within (f c) lo hi) -> (forall i, (S i < length e)%nat -> nth (S i) e 0 <= nth i e 0) ->
  ForallOrdPairs (apart n class_test) (map (fun q => mk (fst q) (snd q)) (pairs e)).
Proof.
  intros M Ri. apply fop_nth. intros i j x y Hij Hi Hj c A B. rewrite nth_error_map in Hj.
  destruct (nth_error (pairs e) j) as [q|] eqn:Ej; [|discriminate]. cbn in Hj. injection Hj as <-.
  assert (Lj : (j < length (pairs e))%nat) by (apply nth_error_Some; congruence). rewrite pairs_length in Lj. rewrite pairs_nth in Ej by lia. injection Ej as <-.
  unfold class_test in B. rewrite M in B. apply within_iff in B. destruct B as (w & Hw & B). cbn [fst snd] in *. pose proof (Ri j ltac:(lia)). lra.
Qed.
(** A value between the first and the last limit is in a band. *)
Lemma band_exists e x : (0 < length e)%nat -> nth 0 e 0 <= x -> x < nth (length e - 1) e 0 -> exists i, (S i < length e)%nat /\ nth i e 0 <= x < nth (S i) e 0.
Proof.
  intros L A B. assert (G : forall k, (k < length e)%nat -> x < nth k e 0 -> exists i, (S i <= k)%nat /\ nth i e 0 <= x < nth (S i) e 0).
  { induction k as [|k IH]; intros Hk Hx; [lra|]. destruct (Rlt_dec x (nth k e 0)) as [H|H].
    - destruct (IH ltac:(lia) H) as (i & C & D). exists i. split; [lia|exact D].
    - exists k. split; [lia|lra]. }
  destruct (G (length e - 1)%nat ltac:(lia) B) as (i & C & D). exists i. split; [lia|exact D].
Qed.

(** *** arange *)
Lemma ip x : IZR (Int_part x) <= x < IZR (Int_part x) + 1. Proof. destruct (base_Int_part x). lra. Qed.
Lemma ip_unique x z : IZR z <= x < IZR z + 1 -> Int_part x = z.
Proof.
  intro H. pose proof (ip x) as K. assert (A : (Int_part x < z + 1)%Z) by (apply lt_IZR; rewrite plus_IZR; lra). assert (B : (z < Int_part x + 1)%Z) by (apply lt_IZR; rewrite plus_IZR; lra). lia.
Qed.
Lemma ceil_spec x : IZR (ceil x) - 1 < x <= IZR (ceil x). Proof. unfold ceil. rewrite opp_IZR. pose proof (ip (- x)). lra. Qed.
Lemma arange_length a b d : length (arange a b d) = Z.to_nat (ceil ((b - a) / d)). Proof. unfold arange. rewrite map_length, seq_length. reflexivity. Qed.
Lemma arange_nth a b d i : (i < length (arange a b d))%nat -> nth i (arange a b d) 0 = a + INR i * d.
Proof.
  intro H. rewrite arange_length in H. unfold arange. set (f := fun i => a + INR i * d). rewrite (nth_indep _ 0 (f O)) by (rewrite map_length, seq_length; exact H).
  rewrite map_nth, seq_nth by exact H. reflexivity.
Qed.
Lemma arange_rising a b d : 0 < d -> rising (arange a b d).
Proof.
  intros Hd i j Hij Hj. rewrite !arange_nth by lia. apply le_INR in Hij. pose proof (Rmult_le_compat_r d (INR i) (INR j) (Rlt_le _ _ Hd) Hij). lra.
Qed.
Lemma arange_falling a b d : d < 0 -> forall i, (S i < length (arange a b d))%nat -> nth (S i) (arange a b d) 0 <= nth i (arange a b d) 0.
Proof. intros Hd i Hi. rewrite !arange_nth by lia. rewrite S_INR. lra. Qed.
Lemma modulo_spec x d : 0 < d -> exists z, x - modulo x d = d * IZR z /\ 0 <= modulo x d < d.
Proof.
  intro Hd. exists (Int_part (x / d)). unfold modulo. split; [lra|]. pose proof (ip (x / d)) as (A & B).
  assert (E : x = d * (x / d)) by (field; lra). split.
  - assert (d * IZR (Int_part (x / d)) <= d * (x / d)) by (apply Rmult_le_compat_l; lra). lra.
  - assert (d * (x / d) < d * (IZR (Int_part (x / d)) + 1)) by (apply Rmult_lt_compat_l; lra). lra.
Qed.
(** The last limit is at or above the end minus one step. *)
Lemma arange_last a b d : 0 < d -> a < b -> (0 < length (arange a b d))%nat /\ b - d <= nth (length (arange a b d) - 1) (arange a b d) 0.
Proof.
  intros Hd Hab. pose proof (ceil_spec ((b - a) / d)) as (A & B). assert (P : 0 < (b - a) / d) by (apply Rdiv_lt_0_compat; lra).
  assert (C : (0 < ceil ((b - a) / d))%Z) by (apply lt_IZR; lra). assert (L : (0 < length (arange a b d))%nat) by (rewrite arange_length; lia). split; [exact L|].
  rewrite arange_nth by lia. rewrite arange_length, INR_IZR_INZ, Nat2Z.inj_sub, Z2Nat.id, minus_IZR by lia. change (IZR (Z.of_nat 1)) with 1.
  assert (E : b - a = (b - a) / d * d) by (field; lra). assert ((b - a) / d * d <= IZR (ceil ((b - a) / d)) * d) by (apply Rmult_le_compat_r; lra). lra.
Qed.
