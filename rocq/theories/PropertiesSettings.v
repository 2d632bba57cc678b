(** Property theorems: choice of the variants (C41), setting parameters (C42), labels of the log (C43). *)
From Coq Require Import String Ascii Lra.
From Verif Require Import Base BaseFacts Logger LoggerSpec LoggerFacts Settings SettingsSpec SettingsFacts.
Open Scope R_scope.

(** * C41 *)

(** The variant of a unit: the first one with exactly the covers that are present, if there is one; otherwise the first of the smallest ones among those
    that have all of them, if there is one; otherwise the first of the largest ones. *)
Theorem c41_variant : forall S covers, S <> [] -> exists k st, assign_variant S covers = Datatypes.S k /\ nth_error S k = Some st /\
  ((exists st', In st' S /\ exactly_for covers st') -> first_with (exactly_for covers) S k) /\
  ((forall st', In st' S -> ~ exactly_for covers st') -> (exists st', In st' S /\ enough_for covers st') -> first_with (smallest (enough_for covers) S) S k) /\
  ((forall st', In st' S -> ~ enough_for covers st') -> first_with (largest S) S k).
Proof. exact assign_well. Qed.
Print Assumptions c41_variant.

Section Witness41.
Local Open Scope string_scope.
Definition cover_brick n := mkBrick n "glacier" [] [] [].
Definition w41_bricks := [cover_brick "open"; cover_brick "glacier"; cover_brick "debris"].
Definition w41_variant l := mkStr [] w41_bricks [] l [] [].
Definition w41 : settings := [w41_variant [0; 1; 2]; w41_variant [0]; w41_variant [0; 1]]%nat.
(** A glacier only: no variant is exact, the first and the third have it, the third is smaller. *)
Example c41_superset : assign_variant w41 [("open", 0); ("glacier", 1)] = 3%nat.
Proof.
  unfold assign_variant. cbn [length w41 Nat.leb map cover_names w41_variant str_covers str_unit_bricks w41_bricks nth_error br_name cover_brick]. unfold present_covers. cbn [filter fst snd].
  replace (NearlyZero 0 PRECISION) with true by (symmetry; unfold NearlyZero; rewrite Rabs_R0; apply Rleb_true; unfold PRECISION; lra).
  replace (NearlyZero 1 PRECISION) with false by (symmetry; unfold NearlyZero; rewrite Rabs_R1; apply Rleb_false; unfold PRECISION; lra). reflexivity.
Qed.
(** A cover that no variant has: the first of the largest. *)
Example c41_fallback : assign_variant w41 [("lake", 1)] = 1%nat.
Proof.
  unfold assign_variant. cbn [length w41 Nat.leb map cover_names w41_variant str_covers str_unit_bricks w41_bricks nth_error br_name cover_brick]. unfold present_covers. cbn [filter fst snd].
  replace (NearlyZero 1 PRECISION) with false by (symmetry; unfold NearlyZero; rewrite Rabs_R1; apply Rleb_false; unfold PRECISION; lra). reflexivity.
Qed.
End Witness41.

(** * C42 *)

(** By name: every variant that has the component gets the value at the parameter of that name and nowhere else, the other variants stay as they are, and
    the result is true; without the component anywhere the result is false and nothing changes; an exception leaves only when a variant has the
    component without such a parameter: the variants before it keep the change. *)
Theorem c42_by_name : forall comp name v S, ~ has_text "," comp -> ~ has_text "type:" comp ->
  let one st st' := (has_component st comp -> (exists p, designated st comp name p) /\ only_changed (designated st comp name) name v st st') /\ (~ has_component st comp -> st' = st) in
  match set_parameter_value comp name v S with
  | (S', Some true) => (exists st, In st S /\ has_component st comp) /\ Forall2 one S S'
  | (S', Some false) => S' = S /\ forall st, In st S -> ~ has_component st comp
  | (S', None) => exists S1 st S2 S1', S = (S1 ++ st :: S2)%list /\ S' = (S1' ++ st :: S2)%list /\ (has_component st comp /\ forall p, ~ designated st comp name p) /\ Forall2 one S1 S1'
  end.
Proof.
  intros comp name v S NC NT. cbn zeta. unfold set_parameter_value. destruct (contains "," comp) eqn:E; [apply contains_spec in E; contradiction|].
  pose proof (variants_named comp name v NT S) as H. destruct (set_in_variants comp name v S) as [S' [| |]]; exact H.
Qed.
Print Assumptions c42_by_name.
(** Corollary: when every variant that has the component has the parameter, there is no exception and the result says whether the component was found. *)
Theorem c42_result : forall comp name v S, ~ has_text "," comp -> ~ has_text "type:" comp ->
  (forall st, In st S -> has_component st comp -> exists p, designated st comp name p) ->
  exists found, snd (set_parameter_value comp name v S) = Some found /\ (found = true <-> exists st, In st S /\ has_component st comp).
Proof.
  intros comp name v S NC NT H. pose proof (c42_by_name comp name v S NC NT) as K. cbn zeta in K. destruct (set_parameter_value comp name v S) as [S' [[|]|]]; cbn [snd].
  - exists true. split; [reflexivity|]. split; [intros _; apply K|reflexivity].
  - exists false. split; [reflexivity|]. split; [discriminate|]. intros (st & Hs & Hc). destruct K as (_ & K). destruct (K st Hs Hc).
  - destruct K as (S1 & st & S2 & S1' & -> & _ & (Hc & Hn) & _). destruct (H st ltac:(apply in_elt) Hc) as (p & Hp). destruct (Hn p Hp).
Qed.
Print Assumptions c42_result.

(** A list of names stands for one call per name, until one does not return true. *)
Theorem c42_list : forall text names name v S, listed text names -> (2 <= length names)%nat -> set_parameter_value text name v S = in_turn names name v S.
Proof.
  intros text names name v S L H. assert (C : contains "," text = true).
  { apply contains_spec. destruct L as [a n b Sa Sb Cn|a n b t ns Sa Sb Cn L]; [cbn in H; lia|]. exists (a ++ n ++ b)%string, t. rewrite !append_assoc. reflexivity. }
  unfold set_parameter_value. rewrite C. rewrite (listed_components _ _ L). apply list_in_turn. intros n Hn. apply (listed_clean _ _ L n Hn).
Qed.
Print Assumptions c42_list.

(** By type: when the names of the bricks of the units are distinct, the selector is not the name of a component, every matching brick of the units has the
    parameter and no brick of the sub-basin matches, then exactly the parameters of the matching bricks get the value, in every variant, and the result
    is true. *)
Theorem c42_by_type_partial : forall comp type name v S, S <> [] -> type_selector comp type -> ~ has_text "," comp ->
  (forall st, In st S -> ~ has_component st comp /\ NoDup (map br_name (str_unit_bricks st)) /\
    (forall b, In b (str_unit_bricks st) -> of_type type b -> has_parameter name b) /\ (forall b, In b (str_basin_bricks st) -> ~ of_type type b)) ->
  exists S', set_parameter_value comp name v S = (S', Some true) /\ Forall2 (fun st st' => only_changed (designated_by_type st type name) name v st st') S S'.
Proof.
  intros comp type name v S NS T NC H. unfold set_parameter_value. destruct (contains "," comp) eqn:E; [apply contains_spec in E; contradiction|].
  destruct (variants_typed comp type name v T S H) as (S' & -> & F). exists S'. split; [|exact F]. destruct S; [congruence|reflexivity].
Qed.
Print Assumptions c42_by_type_partial.

Section Witness42.
Local Open Scope string_scope.
Definition p42 : sparameter := mkPar "k" 1.
Definition glacier42 := mkBrick "glacier" "glacier" [] [] [mkProc "melt" [] [mkPar "f" 1]; mkProc "outflow" [] [p42]].
Definition soil42 := mkBrick "soil" "storage" [] [mkPar "capacity" 5; p42] [].
Definition river42 := mkBrick "river" "storage" [] [p42] [].
Definition split42 := mkSplit "rain" [] [mkPar "threshold" 0].
Definition st42 := mkStr [] [glacier42; soil42] [] [0%nat] [split42] [].
Definition st42' := mkStr [] [soil42] [] [] [split42] [].
(** A process of a brick in one variant only. *)
Example c42_found : set_parameter_value "glacier" "k" 7 [st42'; st42] =
  ([st42'; mkStr [] [mkBrick "glacier" "glacier" [] [] [mkProc "melt" [] [mkPar "f" 1]; mkProc "outflow" [] [mkPar "k" 7]]; soil42] [] [0%nat] [split42] []], Some true).
Proof. reflexivity. Qed.
Example c42_listed : listed "glacier , soil" ["glacier"; "soil"].
Proof.
  assert (C : forall s, clean_name s <-> s <> "" /\ ~ In ","%char (list_ascii_of_string s) /\ (forall r, s <> " " ++ r) /\ (forall r, s <> r ++ " ")).
  { intros s. unfold clean_name. rewrite has_comma. tauto. }
  assert (NE : forall s r, s = r ++ " " -> exists l, list_ascii_of_string s = (l ++ [" "%char])%list) by (intros s r ->; rewrite la_app; eexists; reflexivity).
  assert (L : forall (l : list ascii) x y, (l ++ [x])%list = y -> last y "0"%char = x) by (intros l x y <-; apply last_last).
  apply (listed_more "" "glacier" " " " soil" ["soil"]); [intros c []|intros c [<-|[]]; reflexivity| |apply (listed_one " " "soil" ""); [intros c [<-|[]]; reflexivity|intros c []|]];
  apply C; (split; [discriminate|]); (split; [cbn; intuition congruence|]); (split; [intros r E; discriminate|]); intros r E; destruct (NE _ _ E) as (l & El); symmetry in El; apply L in El; discriminate.
Qed.
Example c42_typed : set_parameter_value "type:land_cover" "k" 7 [st42; st42'] =
  ([mkStr [] [mkBrick "glacier" "glacier" [] [] [mkProc "melt" [] [mkPar "f" 1]; mkProc "outflow" [] [mkPar "k" 7]]; soil42] [] [0%nat] [split42] []; st42'], Some true).
Proof. reflexivity. Qed.

(** Refuted: with a type that no brick has, nothing is changed and the call reports success. *)
Theorem c42_unknown_type_refuted : ~ (forall type name v S, S <> [] -> (forall st b s, In st S -> In b (bricks_of st s) -> ~ of_type type b) ->
  (forall st, In st S -> ~ has_component st ("type:" ++ type)) -> snd (set_parameter_value ("type:" ++ type) name v S) = Some false).
Proof.
  intros H. specialize (H "moraine" "k" 7 [st42]). assert (X : snd (set_parameter_value ("type:" ++ "moraine") "k" 7 [st42]) = Some false); [|discriminate]. apply H; [discriminate| |].
  - intros st b s [<-|[]] Hb [E|(E & _)]; [|discriminate]. destruct s; cbn in Hb; [destruct Hb as [<-|[<-|[]]]|destruct Hb]; discriminate.
  - intros st [<-|[]] [(s & b & Hb & E)|(s & x & Hx & E)]; [destruct s; cbn in Hb; [destruct Hb as [<-|[<-|[]]]|destruct Hb]; discriminate|destruct s; cbn in Hx; [destruct Hx as [<-|[]]|destruct Hx]; discriminate].
Qed.
Print Assumptions c42_unknown_type_refuted.
(** Refuted: with a type of a brick of the sub-basin that has the parameter, the call raises an exception and that brick keeps its value, but those of the
    units are changed. *)
Theorem c42_type_of_sub_basin_refuted : ~ (forall type name v S, S <> [] -> (forall st b s, In st S -> In b (bricks_of st s) -> of_type type b -> has_parameter name b) ->
  (forall st, In st S -> ~ has_component st ("type:" ++ type)) -> exists r, snd (set_parameter_value ("type:" ++ type) name v S) = Some r).
Proof.
  intros H. specialize (H "storage" "k" 7 [mkStr [] [soil42] [river42] [] [] []]). destruct H as (r & E); [discriminate| | |cbv - [IZR] in E; discriminate].
  - intros st b s [<-|[]] Hb _. destruct s; cbn in Hb; destruct Hb as [<-|[]]; exists None; [exists 1%nat|exists 0%nat]; cbn; (split; [exists p42; split; reflexivity|]); [|lia].
    intros [|j] y Hj Hy; [|lia]. cbn in Hy. injection Hy as <-. discriminate.
  - intros st [<-|[]] [(s & b & Hb & E)|(s & x & Hx & E)]; [destruct s; cbn in Hb; destruct Hb as [<-|[]]; discriminate|destruct s; destruct Hx].
Qed.
Print Assumptions c42_type_of_sub_basin_refuted.
Example c42_type_of_sub_basin_partial_change : set_parameter_value "type:storage" "k" 7 [mkStr [] [soil42] [river42] [] [] []] =
  ([mkStr [] [mkBrick "soil" "storage" [] [mkPar "capacity" 5; mkPar "k" 7] []] [river42] [] [] []], None).
Proof. reflexivity. Qed.
(** Refuted: when two processes of a brick have the parameter, only the first one gets the value (and likewise the brick hides its processes). *)
Theorem c42_every_process_refuted : ~ (forall comp name v S st b i j k, ~ has_text "," comp -> ~ has_text "type:" comp -> In st S -> nth_error (str_unit_bricks st) i = Some b -> br_name b = comp ->
  (exists p, param_in b j k = Some p /\ sp_name p = name) ->
  exists S' st', set_parameter_value comp name v S = (S', Some true) /\ In st' S' /\ exists b', nth_error (str_unit_bricks st') i = Some b' /\ param_in b' j k = Some (mkPar name v)).
Proof.
  intros H. set (b := mkBrick "b" "storage" [] [] [mkProc "x" [] [p42]; mkProc "y" [] [p42]]). specialize (H "b" "k" 7 [mkStr [] [b] [] [] [] []] (mkStr [] [b] [] [] [] []) b 0%nat (Some 1%nat) 0%nat).
  destruct (H ltac:(rewrite has_comma; cbn; intuition congruence) ltac:(intros (a & t & E); destruct a as [|? [|? a]]; discriminate) ltac:(left; reflexivity) eq_refl eq_refl) as (S' & st' & E & Hi & b' & Hb & Hp).
  { exists p42. split; reflexivity. }
  cbv - [IZR] in E. injection E as <-. destruct Hi as [<-|[]]. cbn in Hb. injection Hb as <-. cbn in Hp. unfold p42 in Hp. injection Hp as Hp. lra.
Qed.
Print Assumptions c42_every_process_refuted.
(** Refuted: a list one name of which is unknown reports failure, but the names before it have been changed. *)
Theorem c42_failed_list_refuted : ~ (forall comp name v S, snd (set_parameter_value comp name v S) = Some false -> fst (set_parameter_value comp name v S) = S).
Proof.
  intros H. specialize (H "soil,lake" "k" 7 [st42']). specialize (H eq_refl). cbv - [IZR] in H. injection H as H. lra.
Qed.
Print Assumptions c42_failed_list_refuted.
End Witness42.

(** * C43 *)

(** The labels: each declared label of every variant, once, in the order of the first declarations. *)
Theorem c43_labels : forall S,
  (NoDup (hydro_unit_log_labels S) /\ (forall l, In l (hydro_unit_log_labels S) <-> exists st s, In st S /\ In (l, s) (unit_labels st)) /\
   forall a b, declared_before (hydro_unit_log_labels S) a b <-> declared_before (concat (map (fun st => map fst (unit_labels st)) S)) a b) /\
  (NoDup (sub_basin_log_labels S) /\ (forall l, In l (sub_basin_log_labels S) <-> exists st s, In st S /\ In (l, s) (basin_labels st)) /\
   forall a b, declared_before (sub_basin_log_labels S) a b <-> declared_before (concat (map (fun st => map fst (basin_labels st)) S)) a b).
Proof.
  intros S. assert (K : forall (f : structure -> list (string * source)) l, In l (union_labels (concat (map (fun st => map fst (f st)) S))) <-> exists st s, In st S /\ In (l, s) (f st)).
  { intros f l. rewrite union_in, in_concat. split.
    - intros (x & Hx & Hl). apply in_map_iff in Hx. destruct Hx as (st & <- & Hs). apply in_map_iff in Hl. destruct Hl as ((l' & s) & <- & Hd). exists st, s. auto.
    - intros (st & s & Hs & Hd). exists (map fst (f st)). split; [apply in_map_iff; exists st; auto|]. exact (in_map fst _ _ Hd). }
  split; (split; [apply union_nodup|]); (split; [apply K|]); intros a b; apply union_before.
Qed.
Print Assumptions c43_labels.
(** The columns of a unit: in a variant that does not declare a label twice, a column reads what its label declares, and nothing if the variant does not
    declare it. *)
Theorem c43_unit_columns : forall S st i l, NoDup (map fst (unit_labels st)) -> nth_error (hydro_unit_log_labels S) i = Some l ->
  exists p, nth_error (unit_pointers S st) i = Some p /\ forall s, p = Some s <-> In (l, s) (unit_labels st).
Proof.
  intros S st i l ND Hi. unfold unit_pointers. eexists. split; [apply map_nth_error; exact Hi|]. intros s. apply unit_pointer_case. exact ND.
Qed.
Print Assumptions c43_unit_columns.
(** The columns of the sub-basin: when the first variant does not declare a label twice and the others declare none of their own, each column reads what its
    label declares. *)
Theorem c43_basin_columns_partial : forall st others, NoDup (map fst (basin_labels st)) ->
  (forall st' l, In st' others -> In l (map fst (basin_labels st')) -> In l (map fst (basin_labels st))) ->
  exists sources, sub_basin_read (st :: others) = Ok sources /\ Forall2 (fun l s => In (l, s) (basin_labels st)) (sub_basin_log_labels (st :: others)) sources.
Proof.
  intros st others ND H. destruct (basin_read_well st others ND H) as (E1 & E2). exists (map snd (basin_labels st)). split; [exact E2|]. rewrite E1.
  assert (K : forall ds all : list (string * source), (forall d, In d ds -> In d all) -> Forall2 (fun l s => In (l, s) all) (map fst ds) (map snd ds)).
  { induction ds as [|[l s] ds IH]; intros all Ha; constructor; [apply Ha; left; reflexivity|apply IH; intros; apply Ha; right; assumption]. }
  apply K. auto.
Qed.
Print Assumptions c43_basin_columns_partial.

(** When the names are distinct and without colons, the labels of a variant are distinct, so that the two theorems above apply. *)
Theorem c43_distinct : forall st, (good_names st OfUnits -> NoDup (map fst (unit_labels st))) /\ (good_names st OfBasin -> NoDup (map fst (basin_labels st))).
Proof. intros st. split; [apply unit_labels_distinct|apply basin_labels_distinct]. Qed.
Print Assumptions c43_distinct.

Section Witness43.
Local Open Scope string_scope.
Definition river43 := mkBrick "river" "storage" ["water_content"] [] [mkProc "outflow" ["output"] []].
Definition unit43 := mkBrick "soil" "storage" ["water_content"] [] [mkProc "et" ["output"] []].
Definition ice43 := mkBrick "glacier" "glacier" ["water_content"] [] [].
Definition st43 := mkStr ["outlet"] [unit43] [river43] [] [] [].
Definition st43' := mkStr ["outlet"] [ice43; unit43] [river43] [] [] [].
Example c43_two_variants :
  hydro_unit_log_labels [st43; st43'] = ["soil:water_content"; "soil:et:output"; "glacier:water_content"] /\
  unit_pointers [st43; st43'] st43 = [Some (BrickItem "soil" "water_content"); Some (ProcessItem "soil" 0 "output"); None] /\
  sub_basin_log_labels [st43; st43'] = ["river:water_content"; "river:outflow:output"; "outlet"] /\
  sub_basin_read [st43; st43'] = Ok [BrickItem "river" "water_content"; ProcessItem "river" 0 "output"; BasinItem "outlet"].
Proof. repeat split. Qed.
(** Refuted: the labels that a later variant declares for the sub-basin get a column that nothing is connected to; recording it is undefined. *)
Theorem c43_later_variant_refuted : ~ (forall S, S <> [] -> (forall st, In st S -> NoDup (map fst (basin_labels st))) -> exists sources, sub_basin_read S = Ok sources).
Proof.
  intros H. destruct (H [st43; mkStr ["outlet"; "extra"] [] [] [] [] []]) as (x & E); [discriminate| |discriminate].
  intros st [<-|[<-|[]]]; cbn; repeat constructor; cbn; intuition congruence.
Qed.
Print Assumptions c43_later_variant_refuted.
(** Refuted: two processes of a brick of the sub-basin may have the same name; their label has one column, and the pointers, set by position, go past the
    end of the vector. *)
Theorem c43_twice_refuted : ~ (forall st, (forall b, In b (str_basin_bricks st) -> NoDup (br_log b) /\ forall p, In p (br_processes b) -> NoDup (pr_log p)) -> NoDup (str_log st) -> exists sources, sub_basin_read [st] = Ok sources).
Proof.
  intros H. destruct (H (mkStr ["outlet"] [] [mkBrick "river" "storage" [] [] [mkProc "outflow" ["output"] []; mkProc "outflow" ["output"] []]] [] [] [])) as (x & E); [| |discriminate].
  - intros b [<-|[]]. split; [constructor|]. intros p [<-|[<-|[]]]; repeat constructor; intros [].
  - repeat constructor. intros [].
Qed.
Print Assumptions c43_twice_refuted.
Example c43_good_names : good_names st43' OfUnits /\ good_names st43' OfBasin.
Proof.
  assert (C : forall s, ~ In ":"%char (list_ascii_of_string s) -> no_colon s) by (intros s; apply colon_free). assert (G1 : forall s, no_colon s -> good_items [s]) by (intros s H; split; [repeat constructor; intros []|intros i [<-|[]]; exact H]).
  assert (W : no_colon "water_content") by (apply C; cbn; intuition congruence). assert (O : no_colon "output") by (apply C; cbn; intuition congruence).
  split; (split; [cbn; repeat constructor; cbn; intuition congruence|]); (split; [|split; [intros x []|apply G1, C; cbn; intuition congruence]]); intros b Hb; cbn in Hb; repeat (destruct Hb as [<-|Hb]); try destruct Hb;
    (split; [apply C; cbn; intuition congruence|]); (split; [apply G1, W|]); (split; [cbn; repeat constructor; intros []|]); intros p Hp; cbn in Hp; repeat (destruct Hp as [<-|Hp]); try destruct Hp; (split; [apply C; cbn; intuition congruence|apply G1, O]).
Qed.
End Witness43.
