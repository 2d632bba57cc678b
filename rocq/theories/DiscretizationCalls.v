(** Facts about whole calls of the discretization. *)
From Verif Require Import BaseFacts DiscretizationSpec DiscretizationFacts DiscretizationUnits.
Open Scope R_scope.

Lemma mentions_iff a t : mentions a t = true <-> In t (a_criteria a).
Proof. unfold mentions. rewrite existsb_exists. split; [intros (x & A & B); apply String.eqb_eq in B; congruence|intro H; exists t; split; [exact H|apply String.eqb_refl]]. Qed.
Lemma known_nil l : known l <> [] <-> exists x, In (Some x) l.
Proof. split; [intro H; destruct (known l) as [|x r] eqn:E; [elim H; reflexivity|exists x; apply known_in; rewrite E; left; reflexivity]|intros (x & Hx) E; apply known_in in Hx; rewrite E in Hx; destruct Hx]. Qed.
Lemma edges_possible m data : (exists e, edges m data = Ok e) <-> possible m data.
Proof.
  unfold edges, possible. destruct m as [d low high|n|].
  - assert (Mn : minimum (known data) = None <-> ~ exists x, In (Some x) data). { rewrite <- known_nil. destruct (known data); cbn; split; try discriminate; try congruence. intro H. elim H. discriminate. }
    assert (Mx : maximum (known data) = None <-> ~ exists x, In (Some x) data). { rewrite <- known_nil. destruct (known data); cbn; split; try discriminate; try congruence. intro H. elim H. discriminate. }
    unfold Reqb. destruct low as [lo|], high as [hi|], (minimum (known data)) as [mn|] eqn:E1, (maximum (known data)) as [mx|] eqn:E2;
      destruct (Req_EM_T d 0) as [D|D]; (split; [intros (e & E); first [discriminate E|clear E; split; [exact D|]]|intros (A & B)]); try (eexists; reflexivity); try contradiction;
      try (intros [H|H]; discriminate); try (exfalso; apply (proj1 Mn eq_refl); apply B; auto; fail); try (exfalso; apply (proj1 Mx eq_refl); apply B; auto; fail);
      intros _; destruct (known data) as [|x r] eqn:K; cbn in E1, E2; try discriminate; exists x; apply known_in; rewrite K; left; reflexivity.
  - split; [auto|]. intros _. destruct (known data); eexists; reflexivity.
  - split; [intros (e & [=])|intros []].
Qed.
Lemma edges_apart n mk f m data e : (forall c lo hi, in_class n c (mk lo hi) = within (f c) lo hi) -> edges m data = Ok e ->
  ForallOrdPairs (apart n class_test) (map (fun q => mk (fst q) (snd q)) (pairs e)).
Proof.
  intros M E. destruct m as [d low high|k|]; [| |discriminate].
  - cbn [edges] in E. assert (G : exists a b, e = arange a b d /\ d <> 0).
    { unfold Reqb in E. destruct low, high, (minimum (known data)), (maximum (known data)); try discriminate E; destruct (Req_EM_T d 0); try discriminate E; injection E as <-; eexists; eexists; split; try reflexivity; assumption. }
    destruct G as (a & b & -> & D). destruct (Rlt_dec 0 d) as [Hd|Hd].
    + apply (rising_apart n mk f); [exact M|]. apply arange_rising. exact Hd.
    + apply (empty_apart n mk f); [exact M|]. apply arange_falling. lra.
  - destruct (known data) as [|v0 v] eqn:K.
    + cbn [edges] in E. rewrite K in E. injection E as <-. constructor.
    + destruct (quantile_edges k data _ eq_refl) as (e' & A & _ & B & _); [rewrite K; discriminate|]. rewrite E in A. injection A as <-. apply (rising_apart n mk f); assumption.
Qed.
(** The classes of the criteria of a call. *)
Definition class_lists (a : arguments) (g : list cell) (L : list (list class)) : Prop :=
  exists e s r b, L = (if mentions a "elevation" then [map (fun q => ElevationBand (fst q) (snd q)) (pairs e)] else []) ++ (if mentions a "slope" then [map (fun q => SlopeBand (fst q) (snd q)) (pairs s)] else []) ++
    (if mentions a "aspect" then [map AspectClass [North; East; South; West]] else []) ++ (if mentions a "radiation" then [map (fun q => RadiationBand (fst q) (snd q)) (pairs r)] else []) ++
    (if mentions a "sub_catchments" then [map SubCatchment (seq 1 b)] else []) /\
    (mentions a "elevation" = true -> edges (a_elevation a) (map z_elev g) = Ok e) /\ (mentions a "slope" = true -> edges (a_slope a) (map z_slope g) = Ok s) /\
    (mentions a "radiation" = true -> edges (a_radiation a) (map z_rad g) = Ok r) /\
    (mentions a "sub_catchments" = true -> a_polygons a = Some b /\ b <> O /\ existsb (fun c => inside c && Nat.eqb (sub_id c b) 0) g = false).
Lemma combinations_lists a g l : combinations (criteria_of a) g = Ok l <-> exists L, class_lists a g L /\ l = product L.
Proof.
  unfold combinations, criteria_of, class_lists. cbn [by_elevation by_slope by_aspect by_radiation by_sub].
  assert (B : forall t mk m data (P : list (list class) -> outcome (list (list class))), bind (bands mk (if mentions a t then Some m else None) data) P = Ok l <->
    exists e, P (if mentions a t then [map (fun q => mk (fst q) (snd q)) (pairs e)] else []) = Ok l /\ (mentions a t = true -> edges m data = Ok e)).
  { intros t mk m data P. unfold bands. destruct (mentions a t).
    - destruct (edges m data) as [e| |] eqn:E; cbn [bind]; split.
      + intro H. exists e. split; [exact H|intros _; reflexivity].
      + intros (e' & H & K). specialize (K eq_refl). injection K as ->. exact H.
      + discriminate.
      + intros (e' & _ & K). specialize (K eq_refl). discriminate.
      + discriminate.
      + intros (e' & _ & K). specialize (K eq_refl). discriminate.
    - cbn [bind]. split; [intro H; exists []; split; [exact H|discriminate]|intros (e & H & _); exact H]. }
  assert (S : forall (P : list (list class) -> outcome (list (list class))), bind (sub_classes (if mentions a "sub_catchments" then Some (a_polygons a) else None) g) P = Ok l <->
    exists b, P (if mentions a "sub_catchments" then [map SubCatchment (seq 1 b)] else []) = Ok l /\ (mentions a "sub_catchments" = true -> a_polygons a = Some b /\ b <> O /\ existsb (fun c => inside c && Nat.eqb (sub_id c b) 0) g = false)).
  { intro P. unfold sub_classes. destruct (mentions a "sub_catchments").
    - destruct (a_polygons a) as [n|]; [|split; [discriminate|intros (b & _ & K); destruct (K eq_refl); discriminate]]. destruct (Nat.eqb_spec n 0).
      + split; [discriminate|]. intros (b & _ & K). destruct (K eq_refl) as ([= <-] & K1 & _). contradiction.
      + destruct (existsb _ g) eqn:E; cbn [bind].
        * split; [discriminate|]. intros (b & _ & K). destruct (K eq_refl) as ([= <-] & _ & K1). congruence.
        * split; [intro H; exists n; auto|]. intros (b & H & K). destruct (K eq_refl) as ([= <-] & _). exact H.
    - cbn [bind]. split; [intro H; exists O; split; [exact H|discriminate]|intros (b & H & _); exact H]. }
  split.
  - intro H. apply B in H. destruct H as (e & H & H1). apply B in H. destruct H as (s & H & H2). apply B in H. destruct H as (r & H & H3). apply S in H. destruct H as (b & H & H4). injection H as <-.
    eexists. split; [exists e, s, r, b; split; [reflexivity|auto]|reflexivity].
  - intros (L & (e & s & r & b & -> & H1 & H2 & H3 & H4) & ->). apply B. exists e. split; [|exact H1]. apply B. exists s. split; [|exact H2]. apply B. exists r. split; [|exact H3]. apply S. exists b. split; [reflexivity|exact H4].
Qed.
Definition npoly (a : arguments) : nat := polygons (by_sub (criteria_of a)).
Lemma lists_apart a g L : class_lists a g L -> forall x, In x L -> ForallOrdPairs (apart (npoly a) class_test) x.
Proof.
  intros (e & s & r & b & -> & H1 & H2 & H3 & H4) x Hx. set (n := npoly a).
  repeat (apply in_app_or in Hx; destruct Hx as [Hx|Hx]).
  - destruct (mentions a "elevation"); [|destruct Hx]. destruct Hx as [<-|[]]. apply (edges_apart n ElevationBand z_elev (a_elevation a) (map z_elev g)); [reflexivity|auto].
  - destruct (mentions a "slope"); [|destruct Hx]. destruct Hx as [<-|[]]. apply (edges_apart n SlopeBand z_slope (a_slope a) (map z_slope g)); [reflexivity|auto].
  - destruct (mentions a "aspect"); [|destruct Hx]. destruct Hx as [<-|[]]. cbn [map].
    assert (G : forall d d', d <> d' -> apart n class_test (AspectClass d) (AspectClass d')).
    { intros d d' N c A B. unfold class_test in A, B. apply in_class_iff in A; [|exact I]. apply in_class_iff in B; [|exact I]. destruct A as (x & X1 & X2), B as (y & Y1 & Y2). rewrite X1 in Y1. injection Y1 as <-.
      destruct d, d'; cbn [faces] in *; try (elim N; reflexivity); lra. }
    repeat (constructor; [repeat (constructor; [apply G; discriminate|]); constructor|]). constructor.
  - destruct (mentions a "radiation"); [|destruct Hx]. destruct Hx as [<-|[]]. apply (edges_apart n RadiationBand z_rad (a_radiation a) (map z_rad g)); [reflexivity|auto].
  - destruct (mentions a "sub_catchments"); [|destruct Hx]. destruct Hx as [<-|[]]. apply fop_nth. intros i j x y Hij Hi Hj c A B. rewrite nth_error_map in Hi, Hj.
    destruct (nth_error (seq 1 b) i) eqn:Ei; [|discriminate]. destruct (nth_error (seq 1 b) j) eqn:Ej; [|discriminate]. injection Hi as <-. injection Hj as <-. unfold class_test in A, B. cbn [in_class] in A, B. apply Nat.eqb_eq in A, B.
    assert (i = j); [|lia]. apply (proj1 (NoDup_nth_error (seq 1 b)) (seq_NoDup b 1)); [apply nth_error_Some; congruence|congruence].
Qed.
Lemma lists_polygons a g L : covered_by (a_polygons a) g -> class_lists a g L -> forall x k c, In x L -> In k x -> In c g -> polygon_ok (npoly a) c k.
Proof.
  intros Cv (e & s & r & b & -> & H1 & H2 & H3 & H4) x k c Hx Hk Hc.
  assert (M : forall mk l, (forall lo hi, polygon_ok (npoly a) c (mk lo hi)) -> In k (map (fun q => mk (fst q) (snd q)) (pairs l)) -> polygon_ok (npoly a) c k).
  { intros mk l Hm H. apply in_map_iff in H. destruct H as (q & <- & _). apply Hm. }
  repeat (apply in_app_or in Hx; destruct Hx as [Hx|Hx]).
  - destruct (mentions a "elevation"); [|destruct Hx]. destruct Hx as [<-|[]]. apply (M ElevationBand e); [intros; exact I|exact Hk].
  - destruct (mentions a "slope"); [|destruct Hx]. destruct Hx as [<-|[]]. apply (M SlopeBand s); [intros; exact I|exact Hk].
  - destruct (mentions a "aspect"); [|destruct Hx]. destruct Hx as [<-|[]]. cbn in Hk. intuition (subst k; exact I).
  - destruct (mentions a "radiation"); [|destruct Hx]. destruct Hx as [<-|[]]. apply (M RadiationBand r); [intros; exact I|exact Hk].
  - destruct (mentions a "sub_catchments") eqn:Em; [|destruct Hx]. destruct Hx as [<-|[]]. apply in_map_iff in Hk. destruct Hk as (j & <- & Hj). apply in_seq in Hj. cbn [polygon_ok]. split; [lia|].
    unfold npoly, criteria_of. cbn [by_sub]. rewrite Em. destruct (H4 eq_refl) as (E & _). rewrite E in *. cbn [polygons]. apply Cv. exact Hc.
Qed.
(** The result of a call. *)
Lemma call_result a g L : class_lists a g L -> discretize_by a g = Ok (map (fun c => (Z.of_nat (tag (npoly a) (made (npoly a) g (product L)) c 1 0) mod 65536)%Z) g, made (npoly a) g (product L)).
Proof.
  intro H. unfold discretize_by, discretize. rewrite (proj2 (combinations_lists a g (product L))) by eauto. cbn [bind]. fold (npoly a).
  rewrite (assign_spec (npoly a) g (product L)) with (f := fun _ => O); [|apply product_apart; apply (lists_apart a g L H)|intros; reflexivity].
  cbn [bind fst snd]. rewrite map_map. reflexivity.
Qed.
Lemma call_lists a g m units : discretize_by a g = Ok (m, units) -> exists L, class_lists a g L.
Proof.
  unfold discretize_by, discretize. destruct (combinations (criteria_of a) g) as [l| |] eqn:E; cbn [bind]; try discriminate. intros _. apply combinations_lists in E. destruct E as (L & H & _). exists L. exact H.
Qed.
Lemma sub_id_zero c n : length (z_cover c) = n -> (sub_id c n = O <-> forall j, (j < n)%nat -> nth_error (z_cover c) j <> Some true).
Proof.
  intro L. unfold sub_id. rewrite <- L, firstn_all. generalize (z_cover c) as l. clear. intro l. assert (G : forall l k, first_cover l (S k) = O <-> forall j, (j < length l)%nat -> nth_error l j <> Some true).
  { induction l0 as [|b r IH]; intro k; cbn [first_cover length]; [split; [lia|reflexivity]|]. destruct b.
    - split; [discriminate|]. intro H. elim (H O); [lia|reflexivity].
    - rewrite IH. split; [intros H [|j] Hj; [discriminate|apply H; lia]|intros H j Hj; apply (H (S j)); lia]. }
  apply G.
Qed.
Lemma accepted_lists a g : covered_by (a_polygons a) g -> ((exists L, class_lists a g L) <-> acceptable a g).
Proof.
  intro Cv. unfold acceptable, class_lists. rewrite <- !mentions_iff, <- !edges_possible. split.
  - intros (L & e & s & r & b & _ & H1 & H2 & H3 & H4). repeat split; eauto. intro M. destruct (H4 M) as (A & B & C). exists b. split; [exact A|]. split; [lia|]. intros c Hc Ic.
    destruct (Nat.eq_dec (sub_id c b) 0) as [Z|Z].
    + exfalso. enough (existsb (fun c => inside c && (sub_id c b =? 0)%nat) g = true) by congruence. apply existsb_exists. exists c. split; [exact Hc|]. apply inside_iff in Ic. rewrite Ic, Z. reflexivity.
    + rewrite A in Cv. pose proof (Cv c Hc) as Lc. destruct (sub_id c b) as [|j] eqn:E; [elim Z; reflexivity|]. apply (sub_id_spec c b (S j) Lc) in E; [|lia]. destruct E as (i & _ & E & _). exists i. split; [|exact E].
      rewrite <- Lc. apply nth_error_Some. congruence.
  - intros (H1 & H2 & H3 & H4).
    assert (Em : forall (P : Prop) t m data, (mentions a t = true -> exists e, edges m data = Ok e) -> exists e, mentions a t = true -> edges m data = Ok e).
    { intros _ t m data H. destruct (mentions a t); [destruct (H eq_refl) as (e & E); exists e; auto|exists []; discriminate]. }
    destruct (Em True _ _ _ H1) as (e & E1). destruct (Em True _ _ _ H2) as (s & E2). destruct (Em True _ _ _ H3) as (r & E3).
    assert (E4 : exists b, mentions a "sub_catchments" = true -> a_polygons a = Some b /\ b <> O /\ existsb (fun c => inside c && Nat.eqb (sub_id c b) 0) g = false).
    { destruct (mentions a "sub_catchments"); [|exists O; discriminate]. destruct (H4 eq_refl) as (n & A & B & C). exists n. intros _. split; [exact A|]. split; [lia|]. apply not_true_is_false. intro H.
      apply existsb_exists in H. destruct H as (c & Hc & K). apply andb_true_iff in K. destruct K as (Ic & Z). apply inside_iff in Ic. apply Nat.eqb_eq in Z. rewrite A in Cv. destruct (C c Hc Ic) as (j & J1 & J2). exact (proj1 (sub_id_zero c n (Cv c Hc)) Z j J1 J2). }
    destruct E4 as (b & E4). eexists. exists e, s, r, b. split; [reflexivity|]. auto.
Qed.
