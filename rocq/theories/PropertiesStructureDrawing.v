(** The drawing of a structure graph (C96). *)
From Coq Require Import Ascii Permutation.
From Verif Require Import StructureGraphSpec StructureGraphFacts PropertiesStructureGraph StructureDrawingSpec.

Lemma names_statements l : flat_map (fun s => match s with SNode a _ => [a] | _ => [] end) (map node_statement l) = map nd_name l.
Proof. induction l; simpl; congruence. Qed.
Lemma drawn_statements l : drawn_names (map node_statement l) = map nd_name l.
Proof. induction l; simpl; congruence. Qed.
Lemma drawn_app l k : drawn_names (l ++ k) = drawn_names l ++ drawn_names k.
Proof. apply flat_map_app. Qed.
Lemma drawn_edges l : drawn_names (map edge_statement l) = [].
Proof. induction l; simpl; auto. Qed.
Lemma drawn_dot g lg : drawn_names (to_dot g lg) = map nd_name (filter (fun n => negb (in_basin n)) (gr_nodes g)) ++ map nd_name (filter in_basin (gr_nodes g)).
Proof.
  unfold to_dot. rewrite !drawn_app, drawn_statements, drawn_edges. f_equal. destruct lg; simpl; rewrite app_nil_r; (destruct (filter in_basin (gr_nodes g)) as [|n l]; [reflexivity|]; unfold drawn_names; cbn [flat_map]; rewrite names_statements, app_nil_r; reflexivity).
Qed.
Lemma node_attrs_looks n shape color : node_looks n shape color <-> nl_shape (node_attrs n) = shape /\ nl_color (node_attrs n) = color.
Proof.
  unfold node_attrs. split.
  - intros [H|H|H|H|H K|H K]; rewrite H; try rewrite K; split; reflexivity.
  - destruct (nd_role n) eqn:E; cbn [nl_shape nl_color]; intros (<- & <-); try (constructor; assumption). destruct (nd_cover n) eqn:K; [apply looks_cover|apply looks_brick]; assumption.
Qed.
Lemma edge_attrs_looks e look : edge_looks e look <-> edge_attrs e = look.
Proof.
  unfold edge_attrs. split.
  - intros [H|H K|H K|H K L]; [rewrite H; reflexivity|apply String.eqb_neq in H; rewrite H, K; reflexivity|apply String.eqb_neq in H; rewrite H, K; reflexivity|]. apply String.eqb_neq in H, K, L. rewrite H, K, L. reflexivity.
  - intros <-. destruct (String.eqb_spec (ed_kind e) "forcing") as [H|H]; [apply looks_input, H|]. destruct (String.eqb_spec (ed_flux e) "snow") as [K|K]; [apply looks_snow; assumption|].
    destruct (String.eqb_spec (ed_flux e) "ice") as [L|L]; [apply looks_ice; assumption|apply looks_flux; assumption].
Qed.
Lemma in_dot g lg s : In s (to_dot g lg) <-> (exists n, In n (gr_nodes g) /\ in_basin n = false /\ s = node_statement n) \/
  (filter in_basin (gr_nodes g) <> [] /\ s = SCluster "Sub-basin (catchment level)" (map node_statement (filter in_basin (gr_nodes g)))) \/ (exists e, In e (gr_edges g) /\ s = edge_statement e) \/ (lg = true /\ s = SLegend (legend_rows g)).
Proof.
  unfold to_dot. rewrite !in_app_iff, !in_map_iff. split.
  - intros [(n & <- & I)|[I|[(e & <- & I)|I]]].
    + apply filter_In in I. destruct I as (I & B). apply Bool.negb_true_iff in B. left. eauto.
    + right. left. destruct (filter in_basin (gr_nodes g)) as [|n l]; [destruct I|]. destruct I as [<-|[]]. split; [discriminate|reflexivity].
    + right. right. left. eauto.
    + right. right. right. destruct lg; [destruct I as [<-|[]]; auto|destruct I].
  - intros [(n & I & B & ->)|[(N & ->)|[(e & I & ->)|(-> & ->)]]].
    + left. exists n. split; [reflexivity|]. apply filter_In. rewrite B. auto.
    + right. left. destruct (filter in_basin (gr_nodes g)) as [|n l]; [congruence|]. left. reflexivity.
    + right. right. left. eauto.
    + right. right. right. left. reflexivity.
Qed.
Lemma drawn_node g lg b name look : drawn (to_dot g lg) b name look <-> exists n, In n (gr_nodes g) /\ nd_name n = name /\ in_basin n = b /\ node_attrs n = look.
Proof.
  split.
  - intros [a lk I|label k a lk I J].
    + apply in_dot in I. destruct I as [(n & I & B & E)|[(_ & E)|[(e & _ & E)|(_ & E)]]]; inversion E; subst. eauto 6.
    + apply in_dot in I. destruct I as [(n & _ & _ & E)|[(_ & E)|[(e & _ & E)|(_ & E)]]]; inversion E; subst. apply in_map_iff in J. destruct J as (n & E' & J). inversion E'; subst. apply filter_In in J. destruct J as (J & B). eauto 6.
  - intros (n & I & <- & <- & <-). destruct (in_basin n) eqn:B.
    + apply (drawn_inside _ "Sub-basin (catchment level)" (map node_statement (filter in_basin (gr_nodes g)))).
      * apply in_dot. right. left. split; [|reflexivity]. intro E. assert (J : In n (filter in_basin (gr_nodes g))) by (apply filter_In; auto). rewrite E in J. destruct J.
      * apply in_map_iff. exists n. split; [reflexivity|]. apply filter_In. auto.
    + apply drawn_outside, in_dot. left. eauto.
Qed.

(** Every node is drawn once, in the frame of the sub-basin if it belongs there, with the label, shape and colour of its role. *)
Theorem c96_nodes : forall g lg, 
  Permutation (drawn_names (to_dot g lg)) (map nd_name (gr_nodes g)) /\
  (forall inside name look, drawn (to_dot g lg) inside name look <-> exists n, In n (gr_nodes g) /\ nd_name n = name /\ (inside = true <-> nd_level n = "sub_basin") /\
    node_looks n (nl_shape look) (nl_color look) /\ nl_label look = if String.eqb (nd_kind n) "" then name else (name ++ String (ascii_of_nat 92) "n(" ++ nd_kind n ++ ")")%string).
Proof.
  intros g lg. split.
  - rewrite drawn_dot, <- map_app. apply Permutation_map. clear lg. induction (gr_nodes g) as [|n l IH]; simpl; [constructor|]. destruct (in_basin n); simpl; [|constructor; exact IH].
    apply Permutation_sym, Permutation_cons_app, Permutation_sym, IH.
  - intros b name look. rewrite drawn_node. split; intros (n & I & <- & B & L); exists n; (split; [exact I|split; [reflexivity|]]).
    + subst look. split; [|split; [apply node_attrs_looks; auto|]].
      * unfold in_basin in B. rewrite <- B. apply String.eqb_eq.
      * unfold node_attrs. destruct (nd_role n); reflexivity.
    + destruct L as (L & T). split.
      * unfold in_basin. destruct (String.eqb_spec (nd_level n) "sub_basin") as [E|E]; destruct b; try reflexivity; [symmetry; apply B; exact E|elim E; apply B; reflexivity].
      * apply node_attrs_looks in L. destruct look as [t s c]. simpl in *. destruct L as (<- & <-). subst t. unfold node_attrs. destruct (nd_role n); reflexivity.
Qed.
Print Assumptions c96_nodes.
Example c96_nodes_case : forall g, from_settings [one; example] 2 true = Some g -> drawn (to_dot g true) true "slow" (NodeLook ("slow" ++ String (ascii_of_nat 92) "n(storage)") "box" "#f5f5f5").
Proof. intros g E. inversion E. apply drawn_node. eexists. split; [right; right; left; reflexivity|]. repeat split. Qed.

(** Every edge is drawn once, in its order, with the look of its flux. *)
Theorem c96_edges : forall g lg, Forall2 (fun e a => exists look, a = (ed_source e, ed_target e, look) /\ edge_looks e look) (gr_edges g) (arrows (to_dot g lg)).
Proof.
  intros g lg. assert (A : arrows (to_dot g lg) = map (fun e => (ed_source e, ed_target e, edge_attrs e)) (gr_edges g)).
  { unfold to_dot, arrows. rewrite !flat_map_app. assert (N : forall l, flat_map (fun s => match s with SEdge a b look => [(a, b, look)] | _ => [] end) (map node_statement l) = []) by (induction l; simpl; auto). rewrite N.
    destruct (filter in_basin (gr_nodes g)); destruct lg; simpl; rewrite app_nil_r; (induction (gr_edges g); simpl; congruence). }
  rewrite A. clear A. induction (gr_edges g) as [|e l IH]; simpl; constructor; [exists (edge_attrs e)|exact IH]. split; [reflexivity|]. apply edge_attrs_looks. reflexivity.
Qed.
Print Assumptions c96_edges.

Lemma in_when {A} b (x y : A) : In y (when b x) <-> b = true /\ y = x.
Proof. destruct b; simpl; intuition congruence. Qed.
Lemma in_legend g r : In r (legend_rows g) <->
  (existsb nd_cover (gr_nodes g) = true /\ r = Row color_land_cover false false "Land cover") \/ r = Row color_brick false false "Storage / brick" \/
  (has_role g (fun r => match r with RSplitter => true | _ => false end) = true /\ r = Row color_splitter false false "Splitter") \/
  (has_role g (fun r => match r with RAtmosphere => true | _ => false end) = true /\ r = Row color_atmo false false "Atmosphere (ET)") \/
  (has_role g (fun r => match r with ROutlet => true | _ => false end) = true /\ r = Row color_outlet false false "Outlet") \/
  r = Row color_flux false true "Flux (labelled with the process)" \/
  (existsb (fun e => String.eqb (ed_kind e) "forcing") (gr_edges g) = true /\ r = Row color_forcing true true "Forcing input") \/
  (existsb (fun e => String.eqb (ed_flux e) "snow") (flux_edges g) = true /\ r = Row color_snow false true "Snow flux") \/
  (existsb (fun e => String.eqb (ed_flux e) "ice") (flux_edges g) = true /\ r = Row color_ice false true "Ice flux") \/
  (existsb ed_instant (flux_edges g) = true /\ r = Row color_flux true true "Instantaneous flux").
Proof. unfold legend_rows. rewrite !in_app_iff, !in_when. simpl In. intuition congruence. Qed.
Lemma role_true g p : has_role g p = true <-> exists n, In n (gr_nodes g) /\ p (nd_role n) = true.
Proof. apply existsb_exists. Qed.

(** The legend of a variant's graph explains what is drawn: each colour of a node, each snow, ice, instantaneous and forcing arrow has its row; and each row besides the two fixed ones is drawn. *)
Theorem c96_legend : forall structures id wf v g, chosen structures id v -> from_settings structures id wf = Some g ->
  (forall inside name look, drawn (to_dot g true) inside name look -> exists r, In r (legend_rows g) /\ lr_color r = nl_color look) /\
  (forall e, In e (gr_edges g) ->
    (ed_kind e = "forcing" -> In (Row "#e69138" true true "Forcing input") (legend_rows g)) /\
    (ed_kind e <> "forcing" -> (ed_flux e = "snow" -> In (Row "#6fa8dc" false true "Snow flux") (legend_rows g)) /\ (ed_flux e = "ice" -> In (Row "#9fc5e8" false true "Ice flux") (legend_rows g)) /\
      (ed_instant e = true -> In (Row "#000000" true true "Instantaneous flux") (legend_rows g)))) /\
  (forall r, In r (legend_rows g) -> r = Row "#f5f5f5" false false "Storage / brick" \/ r = Row "#000000" false true "Flux (labelled with the process)" \/
    (lr_line r = false /\ exists n, In n (gr_nodes g) /\ exists shape, node_looks n shape (lr_color r)) \/
    (lr_line r = true /\ exists e look, In e (gr_edges g) /\ edge_looks e look /\ (el_color look = lr_color r \/ (lr_text r = "Instantaneous flux" /\ el_dashed look = true /\ ed_kind e <> "forcing")))).
Proof.
  intros structures id wf v g C H. destruct (c95_nodes _ _ _ _ _ C H) as (_ & _ & O). destruct (c95_edges _ _ _ _ _ C H) as ((links & E & _ & U) & _). split; [|split].
  - intros b name look D. apply drawn_node in D. destruct D as (n & I & _ & _ & <-). unfold node_attrs. destruct (nd_role n) eqn:R; cbn [nl_color].
    + destruct (nd_cover n) eqn:K; eexists; (split; [apply in_legend|]); [left; split; [apply existsb_exists; eauto|reflexivity]|reflexivity|right; left; reflexivity|reflexivity].
    + eexists. split; [apply in_legend; do 2 right; left; split; [apply role_true; exists n; rewrite R; auto|reflexivity]|reflexivity].
    + eexists. split; [apply in_legend; do 6 right; left; split; [|reflexivity]|reflexivity]. destruct (O n I) as [b' J|p J|f c W J|e r J R1 R2 R3]; try discriminate.
      * apply existsb_exists. exists (Edge f c "" "forcing" f false). split; [|reflexivity]. rewrite E. apply in_or_app. right. apply in_map_iff. exists (f, c). split; [reflexivity|]. apply U. auto.
      * exfalso. cbn in R. destruct (String.eqb_spec (ed_target e) "outlet") as [Q|Q]; [rewrite (R1 Q) in R; discriminate|]. destruct (String.eqb_spec (ed_target e) "atmosphere") as [Q'|Q']; [rewrite (R2 Q') in R; discriminate|rewrite (R3 Q Q') in R; discriminate].
    + eexists. split; [apply in_legend; do 4 right; left; split; [apply role_true; exists n; rewrite R; auto|reflexivity]|reflexivity].
    + eexists. split; [apply in_legend; do 3 right; left; split; [apply role_true; exists n; rewrite R; auto|reflexivity]|reflexivity].
  - intros e I. split.
    + intro K. apply in_legend. do 6 right. left. split; [|reflexivity]. apply existsb_exists. exists e. rewrite K. auto.
    + intro K. assert (J : In e (flux_edges g)) by (apply filter_In; split; [exact I|apply Bool.negb_true_iff, String.eqb_neq, K]).
      split; [|split]; intro F; apply in_legend; [do 7 right; left|do 8 right; left|do 9 right]; (split; [|reflexivity]); apply existsb_exists; exists e; (split; [exact J|]); try (rewrite F; reflexivity). 
  - intros r I. apply in_legend in I.
    assert (Flux : forall p, existsb p (flux_edges g) = true -> exists e, In e (gr_edges g) /\ ed_kind e <> "forcing" /\ p e = true).
    { intros p J. apply existsb_exists in J. destruct J as (e & J & K). apply filter_In in J. destruct J as (J & M). apply Bool.negb_true_iff, String.eqb_neq in M. eauto. }
    destruct I as [(K & ->)|[->|[(K & ->)|[(K & ->)|[(K & ->)|[->|[(K & ->)|[(K & ->)|[(K & ->)|(K & ->)]]]]]]]]]; [|left; reflexivity| | | |right; left; reflexivity| | | |]; cbn [lr_line lr_color lr_text].
    + right. right. left. split; [reflexivity|]. apply existsb_exists in K. destruct K as (n & I & K). exists n. split; [exact I|]. exists "box". apply looks_cover; [|exact K].
      destruct (O n I); simpl in *; congruence.
    + right. right. left. split; [reflexivity|]. apply role_true in K. destruct K as (n & I & K). exists n. split; [exact I|]. exists "diamond". apply looks_splitter. destruct (nd_role n); congruence.
    + right. right. left. split; [reflexivity|]. apply role_true in K. destruct K as (n & I & K). exists n. split; [exact I|]. exists "ellipse". apply looks_atmosphere. destruct (nd_role n); congruence.
    + right. right. left. split; [reflexivity|]. apply role_true in K. destruct K as (n & I & K). exists n. split; [exact I|]. exists "doublecircle". apply looks_outlet. destruct (nd_role n); congruence.
    + right. right. right. split; [reflexivity|]. apply existsb_exists in K. destruct K as (e & I & K). apply String.eqb_eq in K. exists e, (EdgeLook "" "#e69138" true). split; [exact I|]. split; [apply looks_input, K|left; reflexivity].
    + right. right. right. split; [reflexivity|]. destruct (Flux _ K) as (e & I & N & F). apply String.eqb_eq in F. exists e. eexists. split; [exact I|]. split; [apply looks_snow; assumption|left; reflexivity].
    + right. right. right. split; [reflexivity|]. destruct (Flux _ K) as (e & I & N & F). apply String.eqb_eq in F. exists e. eexists. split; [exact I|]. split; [apply looks_ice; assumption|left; reflexivity].
    + right. right. right. split; [reflexivity|]. destruct (Flux _ K) as (e & I & N & F). exists e, (edge_attrs e). split; [exact I|]. split; [apply edge_attrs_looks; reflexivity|]. right. split; [reflexivity|]. split; [|exact N].
      unfold edge_attrs. apply String.eqb_neq in N. rewrite N. exact F.
Qed.
Print Assumptions c96_legend.
Example c96_legend_case : forall g, from_settings [one; example] 2 true = Some g -> map lr_text (legend_rows g) = ["Land cover"; "Storage / brick"; "Splitter"; "Atmosphere (ET)"; "Outlet"; "Flux (labelled with the process)"; "Forcing input"; "Snow flux"; "Instantaneous flux"].
Proof. intros g E. inversion E. reflexivity. Qed.

(** A name without quotes and backslashes is read back from the text. *)
Theorem c96_quoted : forall name, (forall c, In c (list_ascii_of_string name) -> c <> ascii_of_nat 34 /\ c <> ascii_of_nat 92) ->
  forall rest, reads_quoted (quoted name ++ rest) name rest /\ forall name' rest', reads_quoted (quoted name ++ rest) name' rest' -> name' = name /\ rest' = rest.
Proof.
  intros name H rest. unfold quoted, reads_quoted. cbn [String.append]. split.
  - eexists. split; [reflexivity|]. induction name as [|c name IH]; cbn [String.append]; [apply reads_end|]. destruct (H c (or_introl eq_refl)) as (Q & B). apply reads_char; [exact Q|intro E; elim (B E)|]. apply IH. intros d I. apply H. right. exact I.
  - intros name' rest' (s & E & R). inversion E as [E']. clear E. subst s. revert name' rest' R. induction name as [|c name IH]; intros name' rest' R; cbn [String.append] in R.
    + inversion R; subst; [auto|congruence].
    + destruct (H c (or_introl eq_refl)) as (Q & B). inversion R; subst; [elim Q; reflexivity|elim B; reflexivity|]. destruct (IH (fun d I => H d (or_intror I)) _ _ ltac:(eassumption)) as (-> & ->). auto.
Qed.
Print Assumptions c96_quoted.
Example c96_quoted_case : forall c, In c (list_ascii_of_string "snow_rain") -> c <> ascii_of_nat 34 /\ c <> ascii_of_nat 92.
Proof. intros c I. simpl in I. intuition (subst; discriminate). Qed.

(** Not so for every name: one with a quote ends too early. *)
Theorem c96_quote_refuted : ~ forall name rest, reads_quoted (quoted name ++ rest) name rest.
Proof.
  intro H. destruct (H (String quote "") "") as (s & E & R). inversion E as [E']. subst s. clear E. inversion R.
  match goal with K : _ <> quote |- _ => apply K; reflexivity end.
Qed.
Print Assumptions c96_quote_refuted.

(** Not so: each arrow has the colour of a row of the legend; ordinary fluxes are dark grey, the legend shows black. *)
Theorem c96_flux_color_refuted : ~ forall structures id v g, chosen structures id v -> from_settings structures id true = Some g ->
  forall e look, In e (gr_edges g) -> edge_looks e look -> exists r, In r (legend_rows g) /\ lr_color r = el_color look.
Proof.
  intro H. set (v := VariantExp 1 [] [slow] [] []). destruct (H [v] 1%Z v (Graph (bd_nodes (build true v)) (bd_edges (build true v) ++ map forcing_edge (sorted_links (bd_links (build true v)))) 1 1)
    ltac:(exists [], []; repeat split; constructor) eq_refl (Edge "slow" "outlet" "outflow" "outflow:linear" "water" false) (EdgeLook "outflow" "#333333" false)) as (r & I & E); [left; reflexivity|apply looks_flux; discriminate|].
  simpl in I. repeat (destruct I as [<-|I]; [discriminate E|]). destruct I.
Qed.
Print Assumptions c96_flux_color_refuted.

(** Not so: each row of a node's colour is drawn; "Storage / brick" is in every legend. *)
Theorem c96_storage_row_refuted : ~ forall structures id v g, chosen structures id v -> from_settings structures id true = Some g ->
  forall r, In r (legend_rows g) -> lr_line r = false -> exists n shape, In n (gr_nodes g) /\ node_looks n shape (lr_color r).
Proof.
  intro H. set (v := VariantExp 1 [BrickExp "glacier" "glacier" "hydro_unit" true false [] []] [] [] []). destruct (H [v] 1%Z v (Graph (bd_nodes (build true v)) (bd_edges (build true v) ++ map forcing_edge (sorted_links (bd_links (build true v)))) 1 1)
    ltac:(exists [], []; repeat split; constructor) eq_refl (Row "#f5f5f5" false false "Storage / brick") ltac:(simpl; auto) eq_refl) as (n & shape & I & L).
  simpl in I. destruct I as [<-|[]]. inversion L; discriminate.
Qed.
Print Assumptions c96_storage_row_refuted.
