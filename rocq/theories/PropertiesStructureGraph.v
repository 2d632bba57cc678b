(** The structure graph of a model variant and its summary (C95). *)
From Coq Require Import Sorted Permutation Lia.
From Verif Require Import StructureGraphSpec StructureGraphFacts.

Lemma chosen_find structures id v : chosen structures id v -> find (fun v => Z.eqb (ve_id v) id) structures = Some v.
Proof.
  intros (l & l' & -> & E & F). induction F as [|w l N F IH]; simpl; [rewrite E, Z.eqb_refl; reflexivity|]. apply Z.eqb_neq in N. rewrite N. exact IH.
Qed.
Lemma chosen_graph structures id wf v g : chosen structures id v -> from_settings structures id wf = Some g ->
  g = Graph (bd_nodes (build wf v)) (fluxes v ++ map forcing_edge (sorted_links (bd_links (build wf v)))) id (length structures).
Proof. intros C H. unfold from_settings in H. rewrite (chosen_find _ _ _ C) in H. inversion H. rewrite build_edges. reflexivity. Qed.

(** A variant of the structure: two bricks of a unit, one of the sub-basin, a splitter. *)
Definition soil : brick_exp := BrickExp "soil" "storage" "hydro_unit" false false [] [ProcExp "et" "et:hbv" ["pet"] []; ProcExp "percolation" "percolation" [] [OutExp "slow" "water" false; OutExp "outlet" "water" true]].
Definition glacier : brick_exp := BrickExp "glacier" "glacier" "hydro_unit" true false [] [ProcExp "melt" "melt:degree_day" ["temperature"] [OutExp "soil" "water" false]].
Definition slow : brick_exp := BrickExp "slow" "storage" "sub_basin" false false [] [ProcExp "outflow" "outflow:linear" [] [OutExp "outlet" "water" false]].
Definition rain : split_exp := SplitExp "snow_rain" "snow_rain:linear" "hydro_unit" ["precipitation"; "temperature"] [OutExp "soil" "water" false; OutExp "glacier" "snow" false].
Definition example : variant_exp := VariantExp 2 [soil; glacier] [slow] [rain] [].
Definition one : variant_exp := VariantExp 1 [soil] [slow] [] [].

(** The graph is that of the first variant with the number asked for; without any there is an error. *)
Theorem c95_variant : forall structures id wf,
  (from_settings structures id wf = None <-> forall v, In v structures -> ve_id v <> id) /\
  (forall v, chosen structures id v -> exists g, from_settings structures id wf = Some g /\ from_settings [v] id wf = Some (Graph (gr_nodes g) (gr_edges g) id 1) /\ gr_id g = id /\ gr_variants g = length structures).
Proof.
  intros structures id wf. split.
  - unfold from_settings. destruct (find (fun v => Z.eqb (ve_id v) id) structures) as [v|] eqn:E.
    + apply find_some in E. destruct E as (I & E). apply Z.eqb_eq in E. split; [discriminate|intro H; elim (H v I E)].
    + split; [|reflexivity]. intros _ v I. apply Z.eqb_neq. exact (find_none _ _ E v I).
  - intros v C. unfold from_settings. rewrite (chosen_find _ _ _ C). eexists. split; [reflexivity|]. cbn [gr_nodes gr_edges gr_id gr_variants]. split; [|split; reflexivity].
    rewrite (chosen_find [v] id v); [reflexivity|]. destruct C as (_ & _ & _ & E & _). exists [], []. auto.
Qed.
Print Assumptions c95_variant.
Example c95_variant_case : chosen [one; example] 2 example.
Proof. exists [one], []. split; [reflexivity|]. split; [reflexivity|]. constructor; [discriminate|constructor]. Qed.

(** The nodes: each name once; the names are the components, the forcing they use and the targets of the fluxes; each node is what its origin says. *)
Theorem c95_nodes : forall structures id wf v g, chosen structures id v -> from_settings structures id wf = Some g ->
  NoDup (map nd_name (gr_nodes g)) /\
  (forall name, In name (map nd_name (gr_nodes g)) <-> In name (component_names v) \/ (wf = true /\ exists c, uses v name c) \/ exists e, In e (fluxes v) /\ ed_target e = name) /\
  (forall n, In n (gr_nodes g) -> node_of v wf n).
Proof.
  intros structures id wf v g C H. rewrite (chosen_graph _ _ _ _ _ C H). cbn [gr_nodes]. destruct (build_sound wf v) as (D & _ & F). split; [exact D|]. split; [exact (build_names wf v)|]. rewrite Forall_forall in F. exact F.
Qed.
Print Assumptions c95_nodes.
Example c95_nodes_case : exists g, from_settings [one; example] 2 true = Some g /\ map nd_name (gr_nodes g) = ["soil"; "glacier"; "slow"; "snow_rain"; "precipitation"; "temperature"; "pet"; "atmosphere"; "outlet"].
Proof. eexists. split; reflexivity. Qed.

(** With distinct names each brick and each splitter has exactly one node, with its own data. *)
Theorem c95_components : forall structures id wf v g, chosen structures id v -> from_settings structures id wf = Some g -> NoDup (component_names v) ->
  (forall b n, In b (all_bricks v) -> (In n (gr_nodes g) /\ nd_name n = be_name b <-> n = Node (be_name b) RBrick (be_kind b) (be_level b) (be_cover b) (be_direct b) (be_forcing b))) /\
  (forall p n, In p (all_splitters v) -> (In n (gr_nodes g) /\ nd_name n = se_name p <-> n = Node (se_name p) RSplitter (se_kind p) (se_level p) false false (se_forcing p))).
Proof.
  intros structures id wf v g C H U. rewrite (chosen_graph _ _ _ _ _ C H). cbn [gr_nodes]. destruct (build_sound wf v) as (D & _ & _).
  assert (One : forall m n, In m (map brick_node (all_bricks v) ++ map split_node (all_splitters v)) -> (In n (bd_nodes (build wf v)) /\ nd_name n = nd_name m <-> n = m)).
  { intros m n I. pose proof (build_kept wf v m U I) as K. unfold has in K. split; [|intros ->; auto]. intros (J & E).
    apply in_split in J. destruct J as (l1 & l2 & E'). rewrite E', map_app in D. simpl in D. apply NoDup_remove_2 in D. rewrite E' in K. apply in_app_or in K. destruct K as [K|[K|K]]; [|congruence|]; exfalso; apply D; rewrite E; apply in_or_app; [left|right]; exact (in_map nd_name _ _ K). }
  split; [intros b n I; apply (One (brick_node b))|intros p n I; apply (One (split_node p))]; apply in_or_app; [left|right]; apply in_map; exact I.
Qed.
Print Assumptions c95_components.
Example c95_components_case : NoDup (component_names example).
Proof. repeat constructor; simpl; intuition congruence. Qed.

(** The edges: the fluxes of all components in their order, then one edge for each forcing and each component that uses it, in the order of their names; both ends are nodes. *)
Theorem c95_edges : forall structures id wf v g, chosen structures id v -> from_settings structures id wf = Some g ->
  (exists links, gr_edges g = fluxes v ++ map (fun x => Edge (fst x) (snd x) "" "forcing" (fst x) false) links /\ StronglySorted before_link links /\
    forall f c, In (f, c) links <-> wf = true /\ uses v f c) /\
  (forall e, In e (gr_edges g) -> In (ed_source e) (map nd_name (gr_nodes g)) /\ In (ed_target e) (map nd_name (gr_nodes g))).
Proof.
  intros structures id wf v g C H. rewrite (chosen_graph _ _ _ _ _ C H). cbn [gr_nodes gr_edges]. destruct (build_sound wf v) as (_ & L & _).
  assert (Used : forall f c, In (f, c) (sorted_links (bd_links (build wf v))) <-> wf = true /\ uses v f c).
  { intros f c. rewrite sorted_in. pose proof (build_links wf v (f, c)) as B. unfold lk in B. rewrite B. split; [intros (W & f' & c' & I & E); inversion E; subst; auto|intros (W & I); eauto 6]. }
  assert (Comp : forall f c, uses v f c -> In c (component_names v)).
  { intros f c [b I _|b p I _ _|p I _]; apply in_or_app; [left|left|right]; apply in_map; exact I. }
  split.
  - exists (sorted_links (bd_links (build wf v))). split; [reflexivity|]. split; [exact (sorted_sorted _ L)|exact Used].
  - intros e I. pose proof (build_names wf v) as B. unfold nm in B. rewrite !B. apply in_app_or in I. destruct I as [I|I].
    + split; [left|right; right; eauto]. rewrite <- named_names. rewrite <- named_fluxes in I. apply in_flat_map in I. destruct I as ((c & es) & J & I). rewrite (named_source v c es e J I). exact (in_map fst _ _ J).
    + apply in_map_iff in I. destruct I as ((f & c) & <- & I). apply Used in I. destruct I as (W & I). cbn. split; [right; left; eauto|left; exact (Comp f c I)].
Qed.
Print Assumptions c95_edges.
Example c95_edges_case : uses example "temperature" "glacier" /\ length (fluxes example) = 7.
Proof. split; [|reflexivity]. apply (uses_process example "temperature" glacier (ProcExp "melt" "melt:degree_day" ["temperature"] [OutExp "soil" "water" false])); simpl; auto. Qed.

Lemma listed structures id wf v g c es : chosen structures id v -> from_settings structures id wf = Some g -> NoDup (component_names v) -> (forall e, In e (fluxes v) -> ed_kind e <> "forcing") ->
  In (c, es) (named v) -> listed_fluxes g c = es.
Proof.
  intros C H U K I. rewrite (chosen_graph _ _ _ _ _ C H). unfold listed_fluxes. cbn [gr_edges]. rewrite filter_both, filter_app.
  rewrite (filter_everything _ (fluxes v)) by (intros e J; apply Bool.negb_true_iff, String.eqb_neq, K, J).
  rewrite (filter_nothing _ (map forcing_edge _)) by (intros e J; apply in_map_iff in J; destruct J as (x & <- & _); reflexivity).
  rewrite app_nil_r, <- named_fluxes. apply filter_source; [rewrite named_names; exact U|exact I|intros; eapply named_source; eassumption].
Qed.

(** The summary has, at its level, each component with its forcing and with exactly its own fluxes in their order. *)
Theorem c95_summary : forall structures id wf v g, chosen structures id v -> from_settings structures id wf = Some g -> NoDup (component_names v) -> (forall e, In e (fluxes v) -> ed_kind e <> "forcing") ->
  let '(unit_level, basin_level, _) := to_text g in
  (forall b, In b (all_bricks v) ->
    let block := Block (Node (be_name b) RBrick (be_kind b) (be_level b) (be_cover b) (be_direct b) (be_forcing b)) (be_forcing b) (fluxes_of_brick b) in
    (be_level b = "hydro_unit" -> In block unit_level) /\ (be_level b = "sub_basin" -> In block basin_level)) /\
  (forall p, In p (all_splitters v) ->
    let block := Block (Node (se_name p) RSplitter (se_kind p) (se_level p) false false (se_forcing p)) (se_forcing p) (fluxes_of_splitter p) in
    (se_level p = "hydro_unit" -> In block unit_level) /\ (se_level p = "sub_basin" -> In block basin_level)) /\
  NoDup (map (fun b => nd_name (bl_node b)) (unit_level ++ basin_level)) /\
  (forall b, In b (unit_level ++ basin_level) -> In (nd_name (bl_node b)) (component_names v)).
Proof.
  intros structures id wf v g C H U K. destruct (c95_components _ _ _ _ _ C H U) as (B & S). destruct (c95_nodes _ _ _ _ _ C H) as (D & _ & O). unfold to_text.
  assert (Put : forall n es level, In n (gr_nodes g) -> is_component n = true -> nd_level n = level -> In (nd_name n, es) (named v) -> In (Block n (nd_forcing n) es) (level_blocks g level)).
  { intros n es level I Q E J. unfold level_blocks. apply in_map_iff. exists n. split; [unfold render; rewrite (listed _ _ _ _ _ _ _ C H U K J); reflexivity|]. apply filter_In. split; [exact I|]. rewrite E, String.eqb_refl. exact Q. }
  split; [|split; [|split]].
  - intros b I. set (n := Node (be_name b) RBrick (be_kind b) (be_level b) (be_cover b) (be_direct b) (be_forcing b)). assert (J : In n (gr_nodes g)) by (apply (B b n I); reflexivity).
    assert (N : In (nd_name n, fluxes_of_brick b) (named v)) by (apply in_or_app; left; exact (in_map (fun b => (be_name b, fluxes_of_brick b)) _ _ I)).
    split; intro E; [exact (Put n _ "hydro_unit" J eq_refl E N)|exact (Put n _ "sub_basin" J eq_refl E N)].
  - intros p I. set (n := Node (se_name p) RSplitter (se_kind p) (se_level p) false false (se_forcing p)). assert (J : In n (gr_nodes g)) by (apply (S p n I); reflexivity).
    assert (N : In (nd_name n, fluxes_of_splitter p) (named v)) by (apply in_or_app; right; exact (in_map (fun p => (se_name p, fluxes_of_splitter p)) _ _ I)).
    split; intro E; [exact (Put n _ "hydro_unit" J eq_refl E N)|exact (Put n _ "sub_basin" J eq_refl E N)].
  - assert (M : forall level, map (fun b => nd_name (bl_node b)) (level_blocks g level) = map nd_name (filter (fun n => String.eqb (nd_level n) level && is_component n) (gr_nodes g))) by (intro level; unfold level_blocks; rewrite map_map; reflexivity).
    rewrite map_app, !M. clear -D. induction (gr_nodes g) as [|n l IH]; simpl; [constructor|]. inversion D as [|? ? N D']; subst. specialize (IH D').
    assert (Away : forall k, ~ In (nd_name n) (map nd_name (filter (fun n => String.eqb (nd_level n) k && is_component n) l))).
    { intros k I. apply in_map_iff in I. destruct I as (m & E & I). apply filter_In in I. apply N. rewrite <- E. apply in_map. tauto. }
    destruct (String.eqb (nd_level n) "hydro_unit") eqn:E1, (String.eqb (nd_level n) "sub_basin") eqn:E2; destruct (is_component n); simpl; try exact IH.
    + apply String.eqb_eq in E1, E2. congruence.
    + constructor; [|exact IH]. rewrite in_app_iff. intros [I|I]; exact (Away _ I).
    + apply (Permutation_NoDup (Permutation_middle _ _ _)). constructor; [|exact IH]. rewrite in_app_iff. intros [I|I]; exact (Away _ I).
  - intros b I. assert (J : exists level, (level = "hydro_unit" \/ level = "sub_basin") /\ In b (level_blocks g level)) by (apply in_app_or in I; destruct I; eauto). clear I. destruct J as (level & L & I).
    unfold level_blocks in I. apply in_map_iff in I. destruct I as (n & <- & I). apply filter_In in I. destruct I as (I & Q). apply Bool.andb_true_iff in Q. destruct Q as (E & _). apply String.eqb_eq in E. simpl.
    destruct (O n I) as [b J|p J|f c W J|e r J _ _ _]; [apply in_or_app; left; exact (in_map be_name _ _ J)|apply in_or_app; right; exact (in_map se_name _ _ J)|exfalso|exfalso]; simpl in E; destruct L; congruence.
Qed.
Print Assumptions c95_summary.
Example c95_summary_case : (forall e, In e (fluxes example) -> ed_kind e <> "forcing") /\ map be_level (all_bricks example) = ["hydro_unit"; "hydro_unit"; "sub_basin"].
Proof. split; [|reflexivity]. intros e I. simpl in I. intuition (subst; discriminate). Qed.

(** The last line: the numbers of fluxes and nodes; that of bricks if every target is a component, the outlet or the atmosphere; that of processes if none has more than one output. *)
Theorem c95_counts : forall structures id wf v g, chosen structures id v -> from_settings structures id wf = Some g -> NoDup (component_names v) -> (forall e, In e (fluxes v) -> ed_kind e <> "forcing") ->
  let '(_, _, line) := to_text g in
  ct_fluxes line = length (fluxes v) /\ ct_nodes line = length (gr_nodes g) /\
  ((forall e, In e (fluxes v) -> In (ed_target e) (component_names v ++ ["outlet"; "atmosphere"])) -> ct_bricks line = length (all_bricks v)) /\
  ((forall b p, In b (all_bricks v) -> In p (be_processes b) -> pe_name p <> "" /\ (length (pe_outputs p) <= 1)%nat) -> ct_processes line = length (flat_map be_processes (all_bricks v))).
Proof.
  intros structures id wf v g C H U K. destruct (c95_components _ _ _ _ _ C H U) as (B & S). destruct (c95_nodes _ _ _ _ _ C H) as (D & _ & O). unfold to_text, last_line, count. cbn [ct_fluxes ct_nodes ct_bricks ct_processes].
  split; [|split; [reflexivity|split]].
  - rewrite (chosen_graph _ _ _ _ _ C H). cbn [gr_edges]. rewrite filter_app. rewrite (filter_everything _ (fluxes v)) by (intros e J; apply Bool.negb_true_iff, String.eqb_neq, K, J).
    rewrite (filter_nothing _ (map forcing_edge _)) by (intros e J; apply in_map_iff in J; destruct J as (x & <- & _); reflexivity). rewrite app_nil_r. reflexivity.
  - intro T. rewrite <- (map_length brick_node). apply Permutation_length, NoDup_Permutation.
    + apply NoDup_filter. exact (NoDup_map_inv _ _ D).
    + apply (NoDup_map_inv nd_name). rewrite map_map. unfold component_names in U. clear -U. revert U. generalize (map se_name (all_splitters v)). intro l. change (fun x => nd_name (brick_node x)) with be_name. induction (map be_name (all_bricks v)) as [|a k IH]; simpl; [constructor|]. intro D. inversion D as [|? ? N D']; subst. constructor; [|exact (IH D')]. intro I. apply N. apply in_or_app. auto.
    + intro n. rewrite filter_In. split.
      * intros (I & E). destruct (O n I) as [b J|p J|f c W J|e r J R1 R2 R3]; try discriminate; [apply in_map_iff; exists b; auto|].
        specialize (T e J). apply in_app_or in T. destruct T as [T|[T|[T|[]]]]; [|rewrite (R1 (eq_sym T)) in E; discriminate|rewrite (R2 (eq_sym T)) in E; discriminate].
        unfold component_names in T. apply in_app_or in T. rewrite !in_map_iff in T. destruct T as [(b & Q & J')|(p & Q & J')].
        -- apply in_map_iff. exists b. split; [|exact J']. symmetry. apply (B b _ J'). split; [exact I|]. symmetry. exact Q.
        -- exfalso. assert (X := proj1 (S p _ J') (conj I (eq_sym Q))). inversion X. subst r. discriminate.
      * intro I. apply in_map_iff in I. destruct I as (b & <- & I). split; [apply (B b _ I); reflexivity|reflexivity].
  - intro P. rewrite (chosen_graph _ _ _ _ _ C H). cbn [gr_edges]. rewrite filter_app. rewrite (filter_nothing _ (map forcing_edge _)) by (intros e J; apply in_map_iff in J; destruct J as (x & <- & _); reflexivity).
    rewrite app_nil_r. unfold fluxes. rewrite filter_app.
    rewrite (filter_nothing _ (flat_map fluxes_of_splitter _)) by (intros e J; apply in_flat_map in J; destruct J as (p & _ & J); apply in_map_iff in J; destruct J as (o & <- & _); reflexivity).
    rewrite app_nil_r. clear -P. induction (all_bricks v) as [|b l IH]; simpl; [reflexivity|]. rewrite filter_app, !app_length. rewrite IH by (intros; apply (P b0 p); [right|]; assumption). f_equal.
    unfold fluxes_of_brick. specialize (P b). assert (P' : forall p, In p (be_processes b) -> pe_name p <> "" /\ (length (pe_outputs p) <= 1)%nat) by (intros; apply P; [left; reflexivity|assumption]). clear -P'.
    induction (be_processes b) as [|p ps IH]; simpl; [reflexivity|]. rewrite filter_app, app_length, IH by (intros; apply P'; right; assumption). destruct (P' p (or_introl eq_refl)) as (N & L). apply String.eqb_neq in N.
    unfold fluxes_of_process. destruct (pe_outputs p) as [|o [|o' os]]; simpl in *; [rewrite N; reflexivity|rewrite N; reflexivity|lia].
Qed.
Print Assumptions c95_counts.
Example c95_counts_case : forall e, In e (fluxes example) -> In (ed_target e) (component_names example ++ ["outlet"; "atmosphere"]).
Proof. intros e I. simpl in I. simpl. intuition (subst; auto 10). Qed.

(** Not so: "Processes" counts the outputs of a process that has several; here three processes count as four. *)
Theorem c95_processes_refuted : ~ forall structures id v g, chosen structures id v -> from_settings structures id true = Some g -> ct_processes (snd (to_text g)) = length (flat_map be_processes (all_bricks v)).
Proof.
  intro H. specialize (H [one] 1%Z one (Graph (bd_nodes (build true one)) (bd_edges (build true one) ++ map forcing_edge (sorted_links (bd_links (build true one)))) 1 1)).
  assert (E : 4 = 3); [|discriminate]. apply H; [|reflexivity]. exists [], []. repeat split. constructor.
Qed.
Print Assumptions c95_processes_refuted.

(** Not so: "Bricks" also counts targets that no component has. *)
Theorem c95_bricks_refuted : ~ forall structures id v g, chosen structures id v -> from_settings structures id true = Some g -> ct_bricks (snd (to_text g)) = length (all_bricks v).
Proof.
  intro H. set (v := VariantExp 1 [soil] [] [] []). specialize (H [v] 1%Z v (Graph (bd_nodes (build true v)) (bd_edges (build true v) ++ map forcing_edge (sorted_links (bd_links (build true v)))) 1 1)).
  assert (E : 2 = 1); [|discriminate]. apply H; [|reflexivity]. exists [], []. repeat split. constructor.
Qed.
Print Assumptions c95_bricks_refuted.

(** Not so: the summary's line of forcing has all forcing a component uses; that of its processes is missing. *)
Theorem c95_forcing_refuted : ~ forall structures id v g b, chosen structures id v -> from_settings structures id true = Some g -> In b (level_blocks g "hydro_unit") ->
  forall f, uses v f (nd_name (bl_node b)) -> In f (bl_forcing b).
Proof.
  intro H. specialize (H [one] 1%Z one (Graph (bd_nodes (build true one)) (bd_edges (build true one) ++ map forcing_edge (sorted_links (bd_links (build true one)))) 1 1) (Block (brick_node soil) [] (fluxes_of_brick soil))).
  apply (H ltac:(exists [], []; repeat split; constructor) eq_refl ltac:(left; reflexivity) "pet"). apply (uses_process one "pet" soil (ProcExp "et" "et:hbv" ["pet"] [])); simpl; auto.
Qed.
Print Assumptions c95_forcing_refuted.

(** Not so: a brick of a unit and one of the sub-basin with the same name have two nodes; there is only the second. *)
Theorem c95_same_name_refuted : ~ forall structures id v g b, chosen structures id v -> from_settings structures id true = Some g -> In b (all_bricks v) ->
  exists n, In n (gr_nodes g) /\ nd_name n = be_name b /\ nd_level n = be_level b.
Proof.
  intro H. set (v := VariantExp 1 [BrickExp "slow" "storage" "hydro_unit" false false [] []] [slow] [] []).
  destruct (H [v] 1%Z v (Graph (bd_nodes (build true v)) (bd_edges (build true v) ++ map forcing_edge (sorted_links (bd_links (build true v)))) 1 1) (BrickExp "slow" "storage" "hydro_unit" false false [] [])) as (n & I & E & L);
    [exists [], []; repeat split; constructor|reflexivity|left; reflexivity|]. simpl in I. destruct I as [<-|[<-|[]]]; discriminate.
Qed.
Print Assumptions c95_same_name_refuted.
