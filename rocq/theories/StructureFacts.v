(** The editing functions build the declared structure. *)
From Verif Require Import Base Build StructureSpec.
Open Scope list_scope.

(** ** Lists *)
Lemma upd_nth_last {X} (f : X -> X) l x : upd_nth (length l) f (l ++ [x]) = l ++ [f x].
Proof. induction l as [|y l IH]; cbn; [reflexivity|]. rewrite IH. reflexivity. Qed.
Lemma upd_nth_mid {X} (f : X -> X) l x r : upd_nth (length l) f (l ++ x :: r) = l ++ f x :: r.
Proof. induction l as [|y l IH]; cbn; [reflexivity|]. rewrite IH. reflexivity. Qed.
Lemma upd_nth_twice {X} (f g : X -> X) : forall l i, upd_nth i f (upd_nth i g l) = upd_nth i (fun x => f (g x)) l.
Proof. induction l as [|y l IH]; intros [|i]; cbn; try reflexivity. rewrite IH. reflexivity. Qed.
Lemma upd_nth_at {X} (f : X -> X) : forall l i x, nth_error l i = Some x -> nth_error (upd_nth i f l) i = Some (f x).
Proof. induction l as [|y l IH]; intros [|i] x; cbn; intros H; try discriminate; [injection H as ->; reflexivity|auto]. Qed.
Lemma upd_nth_length {X} (f : X -> X) : forall l i, length (upd_nth i f l) = length l.
Proof. induction l as [|y l IH]; intros [|i]; cbn; auto. Qed.
Lemma nth_error_last {X} (l : list X) x : nth_error (l ++ [x]) (length l) = Some x.
Proof. rewrite nth_error_app2, Nat.sub_diag by lia. reflexivity. Qed.
Lemma nth_error_mid {X} (l : list X) x r : nth_error (l ++ x :: r) (length l) = Some x.
Proof. rewrite nth_error_app2, Nat.sub_diag by lia. reflexivity. Qed.
Lemma index_where_mid {X} (t : X -> bool) : forall l x r, (forall y, In y l -> t y = false) -> t x = true -> index_where t (l ++ x :: r) = Some (length l).
Proof.
  induction l as [|y l IH]; cbn; intros x r H E; [rewrite E; reflexivity|]. rewrite (H y (or_introl eq_refl)), (IH x r); auto.
Qed.
Lemma index_where_none {X} (t : X -> bool) : forall l, (forall y, In y l -> t y = false) -> index_where t l = None.
Proof. induction l as [|y l IH]; cbn; intros H; [reflexivity|]. rewrite (H y (or_introl eq_refl)), IH; auto. Qed.

(** ** One brick under the hand *)
(** The selected brick is the [i]-th one of [st], which holds [b] instead; [k] processes are selected. *)
Record focus (st : structure) (i : nat) (b : bset) (k : option nat) (e : editor) : Prop := {
  fc_str : ed_str e = with_bricks st (upd_nth i (fun _ => b) (st_bricks st));
  fc_sel : ed_brick e = UnitSel i;
  fc_in : (i < length (st_bricks st))%nat;
  fc_proc : ed_process e = k }.
Lemma focus_brick st i b k e : focus st i b k e -> nth_error (st_bricks (ed_str e)) i = Some b.
Proof.
  intros [H1 H2 H3 H4]. rewrite H1. cbn. destruct (nth_error (st_bricks st) i) as [x|] eqn:E.
  - rewrite (upd_nth_at _ _ _ _ E). reflexivity.
  - apply nth_error_None in E. lia.
Qed.
Lemma focus_selected st i b k e : focus st i b k e -> selected_brick e = Some b.
Proof. intros H. unfold selected_brick. rewrite (fc_sel _ _ _ _ _ H). exact (focus_brick _ _ _ _ _ H). Qed.
Lemma focus_on st i b k e f : focus st i b k e -> exists e', on_brick f e = Ok e' /\ focus st i (f b) k e' /\ ed_splitter e' = ed_splitter e.
Proof.
  intros H. destruct H as [H1 H2 H3 H4]. unfold on_brick. rewrite H2. eexists. split; [reflexivity|]. split; [|reflexivity]. constructor; cbn; auto.
  rewrite H1. unfold with_bricks. cbn. rewrite upd_nth_twice. reflexivity.
Qed.
Lemma focus_push st i b k e name type target : focus st i b k e -> known_process type = true ->
  exists e', add_process name type target e = Ok e' /\ focus st i (push_process (mkPr name type (outputs_for target)) b) (Some (length (bs_processes b))) e'
    /\ ed_splitter e' = ed_splitter e.
Proof.
  intros H Hk. unfold add_process. rewrite (focus_selected _ _ _ _ _ H).
  destruct (focus_on st i b k e (push_process (mkPr name type (outputs_for target))) H) as (e'&->&H'&Hs). cbn [bind]. rewrite Hk.
  eexists. split; [reflexivity|]. split; [|exact Hs]. destruct H' as [A1 A2 A3 A4]. constructor; cbn; auto.
Qed.
Lemma on_process_last b p f :
  mkBs (bs_name b) (bs_type b) (bs_parent b) (bs_directly b) (bs_capacity b) (upd_nth (length (bs_processes b)) (on_outputs f) (bs_processes (push_process p b)))
  = push_process (on_outputs f p) b.
Proof. unfold push_process. cbn. rewrite upd_nth_last. reflexivity. Qed.
Lemma focus_outputs st i b p e f : focus st i (push_process p b) (Some (length (bs_processes b))) e ->
  exists e', on_process f e = Ok e' /\ focus st i (push_process (on_outputs f p) b) (Some (length (bs_processes b))) e' /\ ed_splitter e' = ed_splitter e.
Proof.
  intros H. unfold on_process. rewrite (fc_proc _ _ _ _ _ H).
  destruct (focus_on st i (push_process p b) _ e (fun b0 => mkBs (bs_name b0) (bs_type b0) (bs_parent b0) (bs_directly b0) (bs_capacity b0)
    (upd_nth (length (bs_processes b)) (on_outputs f) (bs_processes b0))) H) as (e'&->&H'&Hs).
  exists e'. split; [reflexivity|]. split; [|exact Hs]. cbn in H'. rewrite <- (on_process_last b p f). exact H'.
Qed.
Lemma focus_new name type e :
  focus (with_bricks (ed_str e) (st_bricks (ed_str e) ++ [new_brick name type])) (length (st_bricks (ed_str e))) (new_brick name type) None (add_unit_brick name type e).
Proof.
  constructor; cbn; auto; [rewrite upd_nth_last; destruct (ed_str e); reflexivity|rewrite app_length; cbn; lia].
Qed.
Lemma focus_end st l x b k e : st_bricks st = l ++ [x] -> focus st (length l) b k e -> ed_str e = with_bricks st (l ++ [b]).
Proof. intros E H. rewrite (fc_str _ _ _ _ _ H), E, upd_nth_last. reflexivity. Qed.

(** ** Names *)
Lemma split_plain s : (forall a, In a (list_ascii_of_string s) -> a <> ":"%char) -> split_colon s = (s, None).
Proof.
  induction s as [|a s IH]; intros H; [reflexivity|]. cbn. destruct (Ascii.eqb a ":") eqn:E.
  - apply Ascii.eqb_eq in E. exfalso. exact (H a (or_introl eq_refl) E).
  - rewrite IH; [reflexivity|]. intros x Hx. apply H. right. exact Hx.
Qed.
Lemma outputs_plain s : plain_name s -> outputs_for s = [water_to s].
Proof.
  intros [H1 H2]. unfold outputs_for. apply String.eqb_neq in H1. rewrite H1, (split_plain s H2). reflexivity.
Qed.
Lemma split_typed s k : (forall a, In a (list_ascii_of_string s) -> a <> ":"%char) -> split_colon (s ++ String ":" k)%string = (s, Some k).
Proof.
  induction s as [|a s IH]; intros H; [reflexivity|]. cbn. destruct (Ascii.eqb a ":") eqn:E.
  - apply Ascii.eqb_eq in E. exfalso. exact (H a (or_introl eq_refl) E).
  - rewrite IH; [reflexivity|]. intros x Hx. apply H. right. exact Hx.
Qed.
Lemma append_nonempty s t : s <> ""%string -> (s ++ t)%string <> ""%string.
Proof. destruct s; [congruence|discriminate]. Qed.
Lemma outputs_typed s k : plain_name s -> outputs_for (s ++ String ":" k)%string = [mkOut s (content_named k) false false].
Proof.
  intros [H1 H2]. unfold outputs_for. rewrite (proj2 (String.eqb_neq _ _) (append_nonempty s _ H1)), (split_typed s k H2). reflexivity.
Qed.
Lemma list_ascii_append s t : list_ascii_of_string (s ++ t) = list_ascii_of_string s ++ list_ascii_of_string t.
Proof. induction s as [|a s IH]; cbn; [reflexivity|]. rewrite IH. reflexivity. Qed.
Lemma plain_append s t : plain_name s -> (forall a, In a (list_ascii_of_string t) -> a <> ":"%char) -> plain_name (s ++ t).
Proof.
  intros [H1 H2] H3. split; [apply append_nonempty; exact H1|]. intros a Ha. rewrite list_ascii_append in Ha. apply in_app_or in Ha as [Ha|Ha]; auto.
Qed.
Lemma plain_pack s : plain_name s -> plain_name (pack_of s).
Proof. intros H. apply plain_append; [exact H|]. cbn. intuition (subst; discriminate). Qed.
Lemma plain_canopy s : plain_name s -> plain_name (canopy_of s).
Proof. intros H. apply plain_append; [exact H|]. cbn. intuition (subst; discriminate). Qed.
Lemma append_cancel s s' t : (s ++ t)%string = (s' ++ t)%string -> s = s'.
Proof.
  intros H. assert (E : list_ascii_of_string s = list_ascii_of_string s').
  { apply (f_equal list_ascii_of_string) in H. rewrite !list_ascii_append in H. exact (app_inv_tail _ _ _ H). }
  rewrite <- (string_of_list_ascii_of_string s), <- (string_of_list_ascii_of_string s'), E. reflexivity.
Qed.
Lemma pack_inj s s' : pack_of s = pack_of s' -> s = s'.
Proof. apply append_cancel. Qed.
Lemma canopy_inj s s' : canopy_of s = canopy_of s' -> s = s'.
Proof. apply append_cancel. Qed.
Lemma last_letter s t a d : list_ascii_of_string t = d ++ [a] -> exists l, list_ascii_of_string (s ++ t) = l ++ [a].
Proof. intros H. rewrite list_ascii_append, H, app_assoc. eauto. Qed.
Lemma pack_not_canopy s s' : pack_of s <> canopy_of s'.
Proof.
  intros H. apply (f_equal list_ascii_of_string) in H. unfold pack_of, canopy_of in H. rewrite !list_ascii_append in H.
  apply (f_equal (@rev ascii)) in H. rewrite !rev_app_distr in H. cbn in H. discriminate.
Qed.

Ltac str := unfold with_bricks, with_basin, with_covers, with_components, with_splitters;
  cbn [ed_str ed_brick ed_process ed_splitter st_bricks st_basin st_covers st_components st_splitters].

(** ** Loops *)
Lemma each_closed {X} (f : X -> editor -> outcome editor) (S : list X -> list X -> structure) l :
  (forall l1 x l2, l = l1 ++ x :: l2 -> forall e, ed_str e = S l1 (x :: l2) -> exists e', f x e = Ok e' /\ ed_str e' = S (l1 ++ [x]) l2) ->
  forall e, ed_str e = S [] l -> exists e', each f l e = Ok e' /\ ed_str e' = S l [].
Proof.
  intros Hf. assert (K : forall l2 l1 e, l = l1 ++ l2 -> ed_str e = S l1 l2 -> exists e', each f l2 e = Ok e' /\ ed_str e' = S l []).
  { induction l2 as [|x l2 IH]; intros l1 e E He.
    - exists e. split; [reflexivity|]. rewrite E, app_nil_r. exact He.
    - destruct (Hf l1 x l2 E e He) as (e'&H1&H2). cbn [each]. rewrite H1. cbn [bind]. apply (IH (l1 ++ [x])); [rewrite <- app_assoc; exact E|exact H2]. }
  intros e He. exact (K l [] e eq_refl He).
Qed.

Lemma bind_ok {X Y} (o : outcome X) (x : X) (f : X -> outcome Y) : o = Ok x -> bind o f = f x.
Proof. intros ->. reflexivity. Qed.

Section Base.
Variable o : options.
Variable covers : list (string * string).
Hypothesis Hn : good_names covers.
Hypothesis Ho : good_options o.
Local Notation n := (length covers).

Lemma over_closed (f : string -> string -> editor -> outcome editor) (S : list (string * string) -> list (string * string) -> structure) :
  (forall l1 l2, covers = l1 ++ l2 -> exists r, st_bricks (S l1 l2) = map cover_brick covers ++ r) ->
  st_covers (S [] covers) = seq 0 n ->
  (forall l1 c l2, covers = l1 ++ c :: l2 -> forall e, ed_str e = S l1 (c :: l2) ->
    exists e', f (fst c) (brick_type_of (snd c)) e = Ok e' /\ ed_str e' = S (l1 ++ [c]) l2) ->
  forall e, ed_str e = S [] covers -> exists e', over_covers f e = Ok e' /\ ed_str e' = S covers [].
Proof.
  intros Hb Hc Hf e He. unfold over_covers. rewrite He, Hc. set (g := fun (i : nat) (e0 : editor) => _).
  assert (K : forall l2 l1 e, covers = l1 ++ l2 -> ed_str e = S l1 l2 -> exists e', each g (seq (length l1) (length l2)) e = Ok e' /\ ed_str e' = S covers []).
  { induction l2 as [|c l2 IH]; intros l1 e0 E H0.
    - exists e0. split; [reflexivity|]. rewrite E, app_nil_r. exact H0.
    - destruct (Hf l1 c l2 E e0 H0) as (e'&H1&H2). cbn [length seq each].
      assert (G : g (length l1) e0 = Ok e').
      { unfold g. destruct (Hb l1 (c :: l2) E) as [r Hr]. rewrite H0, Hr.
        replace (nth_error (map cover_brick covers ++ r) (length l1)) with (Some (cover_brick c)); [exact H1|].
        symmetry. rewrite E, map_app, <- app_assoc. cbn [map app]. rewrite <- (map_length cover_brick l1). apply nth_error_mid. }
      rewrite G. cbn [bind]. replace (Datatypes.S (length l1)) with (length (l1 ++ [c])) by (rewrite app_length; cbn; lia).
      apply IH; [rewrite <- app_assoc; exact E|exact H2]. }
  exact (K covers [] e eq_refl He).
Qed.

(** ** Splitters *)
Definition rain_at : nat := if op_snow o then 2 else 1.
Lemma rain_index r s : index_where (fun s => String.eqb (sp_name s) "rain_splitter") (splitters o r s) = Some rain_at.
Proof. unfold splitters, rain_at. destruct (op_snow o); reflexivity. Qed.
Lemma rain_nth r s : nth_error (splitters o r s) rain_at = Some (mkSs "rain_splitter" "multi_fluxes" r).
Proof. unfold splitters, rain_at. destruct (op_snow o); reflexivity. Qed.
Lemma rain_upd r s f r' : f (mkSs "rain_splitter" "multi_fluxes" r) = mkSs "rain_splitter" "multi_fluxes" r' ->
  upd_nth rain_at f (splitters o r s) = splitters o r' s.
Proof. intros H. unfold splitters, rain_at. destruct (op_snow o); cbn; rewrite H; reflexivity. Qed.
Lemma snow_index r s : op_snow o = true -> index_where (fun s => String.eqb (sp_name s) "snow_splitter") (splitters o r s) = Some 1%nat.
Proof. unfold splitters. intros ->. reflexivity. Qed.
Lemma snow_upd r s f s' : op_snow o = true -> f (mkSs "snow_splitter" "multi_fluxes" s) = mkSs "snow_splitter" "multi_fluxes" s' ->
  upd_nth 1 f (splitters o r s) = splitters o r s'.
Proof. intros Hs H. unfold splitters. rewrite Hs. cbn. rewrite H. reflexivity. Qed.

Lemma stage_precipitation : exists e, gen_precipitation (op_snow o) (splitter_type o) new_editor = Ok e /\ ed_str e = mkStr [] [] [] [] (splitters o [] []).
Proof. unfold gen_precipitation, splitters. destruct (op_snow o); eexists; split; reflexivity. Qed.

(** ** Land covers *)
Definition S1 (l1 l2 : list (string * string)) : structure :=
  mkStr (map cover_brick l1) [] (seq 0 (length l1)) [] (splitters o (map (fun c => water_to (fst c)) l1) []).
Lemma stage_covers e : ed_str e = S1 [] covers -> exists e', each (fun c => add_land_cover (fst c) (brick_type_of (snd c))) covers e = Ok e' /\ ed_str e' = S1 covers [].
Proof.
  apply (each_closed _ S1). intros l1 c l2 E e0 H0. unfold add_land_cover, add_unit_brick. rewrite H0.
  unfold select_splitter_if_found. cbn [ed_str st_bricks with_bricks with_covers st_covers st_basin st_components st_splitters S1].
  rewrite rain_index. unfold add_splitter_output, on_splitter. cbn [ed_splitter ed_str with_splitters st_bricks st_basin st_covers st_components st_splitters].
  eexists. split; [reflexivity|]. cbn [ed_str]. unfold S1. str.
  rewrite (rain_upd _ _ _ (map (fun c => water_to (fst c)) (l1 ++ [c]))) by (cbn; rewrite map_app; reflexivity).
  rewrite !map_app, !app_length, map_length. cbn [map length].
  replace (length l1 + 1 - 1)%nat with (length l1) by lia. rewrite Nat.add_1_r, seq_S. reflexivity.
Qed.

(** ** Names *)
Lemma plain_of c : In c covers -> plain_name (fst c).
Proof. exact (gn_plain _ Hn c). Qed.
Lemma split_distinct l1 c l2 d : covers = l1 ++ c :: l2 -> In d l1 \/ In d l2 -> fst d <> fst c.
Proof.
  intros E Hd H. pose proof (gn_distinct _ Hn) as N. rewrite E, map_app in N. cbn [map] in N. apply NoDup_remove_2 in N. apply N.
  rewrite <- H, <- map_app. apply in_map. apply in_or_app. exact Hd.
Qed.
Lemma split_in l1 c l2 : covers = l1 ++ c :: l2 -> In c covers.
Proof. intros ->. apply in_or_app. right. left. reflexivity. Qed.
Lemma split_in' l1 c l2 d : covers = l1 ++ c :: l2 -> In d l1 \/ In d l2 -> In d covers.
Proof. intros -> [H|H]; apply in_or_app; [left; exact H|right; right; exact H]. Qed.

(** ** A new component *)
Lemma component_focus name type e : let st := ed_str (add_component name type e) in
  focus st (length (st_bricks (ed_str e))) (new_brick name type) None (add_component name type e).
Proof.
  cbn. constructor; cbn; auto; [|rewrite app_length; cbn; lia]. rewrite upd_nth_last. reflexivity.
Qed.
Lemma component_str name type e st : ed_str e = st ->
  ed_str (add_component name type e) = mkStr (st_bricks st ++ [new_brick name type]) (st_basin st) (st_covers st) (st_components st ++ [length (st_bricks st)]) (st_splitters st).
Proof. intros <-. unfold add_component. cbn. rewrite app_length. cbn. replace (length (st_bricks (ed_str e)) + 1 - 1)%nat with (length (st_bricks (ed_str e))) by lia. reflexivity. Qed.

(** ** Canopies *)
Definition after_canopy (c : string * string) : string := if has_canopy o c then canopy_of (fst c) else fst c.
Definition S2 (l1 l2 : list (string * string)) : structure :=
  mkStr (map cover_brick covers ++ map (canopy_brick o) (filter (has_canopy o) l1)) [] (seq 0 n) (seq n (length (filter (has_canopy o) l1)))
    (splitters o (map (fun c => water_to (after_canopy c)) l1 ++ map (fun c => water_to (fst c)) l2) []).
Lemma known_canopy : known_process "outflow:threshold" = true /\ known_process "et:open_water" = true.
Proof. split; reflexivity. Qed.
Lemma retarget_mid from to l1 x l2 : (forall y, In y l1 -> o_target y <> from) -> o_target x = from ->
  retarget from to (l1 ++ x :: l2) = Some (l1 ++ mkOut to (o_type x) (o_now x) (o_static x) :: l2).
Proof.
  intros H E. unfold retarget. rewrite index_where_mid; [|intros y Hy; apply String.eqb_neq; auto|apply String.eqb_eq; exact E].
  rewrite upd_nth_mid. reflexivity.
Qed.
Lemma retarget_none from to l : (forall y, In y l -> o_target y <> from) -> retarget from to l = None.
Proof. intros H. unfold retarget. rewrite index_where_none; [reflexivity|]. intros y Hy. apply String.eqb_neq; auto. Qed.
(** The rain splitter is selected and the target of one of its outputs is changed. *)
Lemma rain_change strict from to e r s r' : st_splitters (ed_str e) = splitters o r s ->
  (retarget from to r = Some r' \/ (retarget from to r = None /\ strict = false /\ r' = r)) ->
  exists e', bind (select_splitter "rain_splitter" e) (change_target strict from to) = Ok e' /\
    ed_str e' = mkStr (st_bricks (ed_str e)) (st_basin (ed_str e)) (st_covers (ed_str e)) (st_components (ed_str e)) (splitters o r' s).
Proof.
  intros H Hr. unfold select_splitter, select_splitter_if_found. rewrite H, rain_index. cbn [bind].
  unfold change_target, selected_splitter. str. rewrite H, rain_nth. cbn [sp_outputs].
  destruct Hr as [->|(->&->&->)].
  - unfold on_splitter. str. eexists. split; [reflexivity|]. str. rewrite H. rewrite (rain_upd _ _ _ r') by reflexivity. reflexivity.
  - eexists. split; [reflexivity|]. str. rewrite <- H. destruct (ed_str e); reflexivity.
Qed.
Lemma canopy_step target l1 c l2 e : covers = l1 ++ c :: l2 -> has_canopy o c = true -> target = (if rain_on_packs o then pack_of (fst c) else fst c) ->
  ed_str e = S2 l1 (c :: l2) -> exists e', gen_canopy (fst c) target e = Ok e' /\ ed_str e' = S2 (l1 ++ [c]) l2.
Proof.
  intros E Hc Et He. unfold gen_canopy. change (fst c ++ "_canopy")%string with (canopy_of (fst c)).
  pose proof (component_str (canopy_of (fst c)) "interception_storage" e _ He) as Es.
  pose proof (component_focus (canopy_of (fst c)) "interception_storage" e) as F. cbv zeta in F. rewrite Es, He in F.
  set (e1 := add_component _ _ e) in *. clearbody e1. unfold S2 in F, Es. cbn [st_bricks st_basin st_covers st_components st_splitters] in F, Es.
  match type of F with focus ?s ?i _ _ _ => set (st := s) in *; set (ix := i) in * end.
  destruct (focus_on st ix _ _ _ (fun b => mkBs (bs_name b) (bs_type b) (fst c) (bs_directly b) (bs_capacity b) (bs_processes b)) F) as (e2&R2&F2&_).
  unfold set_parent. rewrite R2. cbn [bind].
  destruct (focus_push st ix _ _ _ "throughfall" "outflow:threshold" target F2 (proj1 known_canopy)) as (e3&R3&F3&_). rewrite R3. cbn [bind].
  destruct (focus_push st ix _ _ _ "interception_et" "et:open_water" "" F3 (proj2 known_canopy)) as (e4&R4&F4&_). rewrite R4. cbn [bind].
  pose proof (fc_str _ _ _ _ _ F4) as E4. unfold push_process, new_brick, st, ix in E4. cbn [with_bricks st_bricks st_basin st_covers st_components st_splitters bs_name bs_type bs_parent bs_directly bs_capacity bs_processes] in E4.
  assert (Et' : outputs_for target = [water_to target]).
  { apply outputs_plain. pose proof (plain_of c (split_in _ _ _ E)) as P. rewrite Et. destruct (rain_on_packs o); [exact (plain_pack _ P)|exact P]. }
  rewrite upd_nth_last, Et' in E4. unfold with_bricks in E4. cbn [st_basin st_covers st_components st_splitters] in E4.
  assert (Hs : st_splitters (ed_str e4) = splitters o (map (fun c => water_to (after_canopy c)) l1 ++ map (fun c => water_to (fst c)) (c :: l2)) []) by (rewrite E4; reflexivity).
  destruct (rain_change true (fst c) (canopy_of (fst c)) e4 _ _ (map (fun c => water_to (after_canopy c)) (l1 ++ [c]) ++ map (fun c => water_to (fst c)) l2) Hs) as (e5&R5&E5).
  { left. cbn [map]. rewrite retarget_mid.
    - rewrite map_app, <- app_assoc. unfold after_canopy at 3. cbn [map app]. rewrite Hc. reflexivity.
    - intros y Hy. apply in_map_iff in Hy as (d&<-&Hd). cbn [water_to o_target]. unfold after_canopy.
      assert (Hd' : In d l1 \/ In d l2) by auto. destruct (has_canopy o d).
      + intros K. symmetry in K. revert K. apply (gn_apart _ Hn c d); [exact (split_in _ _ _ E)|exact (split_in' _ _ _ _ E Hd')].
      + exact (split_distinct _ _ _ _ E Hd').
    - reflexivity. }
  exists e5. split; [exact R5|]. rewrite E5, E4. cbn [st_bricks st_basin st_covers st_components]. unfold S2.
  rewrite filter_app. cbn [filter]. rewrite Hc, !map_app, !app_length, !map_length. cbn [map length]. rewrite Nat.add_1_r, (seq_S _ n), <- !app_assoc. unfold canopy_brick. rewrite <- Et. reflexivity.
Qed.
Lemma stage_canopies e : ed_str e = S1 covers [] ->
  exists e', (if op_interception o
              then each (fun c e => if String.eqb (snd c) "forest"
                                    then gen_canopy (fst c) (if rain_on_packs o then fst c ++ "_snowpack" else fst c)%string e else Ok e) covers e
              else Ok e) = Ok e' /\ ed_str e' = S2 covers [].
Proof.
  intros He. assert (He2 : ed_str e = S2 [] covers). { rewrite He. unfold S1, S2. cbn. rewrite app_nil_r. reflexivity. }
  destruct (op_interception o) eqn:Ei.
  - apply (each_closed _ S2); [|exact He2]. intros l1 c l2 E e0 H0. destruct (String.eqb (snd c) "forest") eqn:Ef.
    + apply (canopy_step _ l1 c l2); auto. unfold has_canopy. rewrite Ei, Ef. reflexivity.
    + exists e0. split; [reflexivity|]. rewrite H0. unfold S2. assert (Hc : has_canopy o c = false) by (unfold has_canopy; rewrite Ei, Ef; reflexivity).
      rewrite filter_app. cbn [filter]. rewrite Hc, app_nil_r, map_app, <- app_assoc. cbn [map app]. unfold after_canopy at 3. rewrite Hc. reflexivity.
  - exists e. split; [reflexivity|]. rewrite He2. unfold S2. cbn [filter map length seq app].
    assert (Hc : forall c, has_canopy o c = false) by (intros c; unfold has_canopy; rewrite Ei; reflexivity).
    assert (Hf : forall l, filter (has_canopy o) l = []) by (induction l as [|c l IH]; cbn; [reflexivity|rewrite Hc; exact IH]).
    rewrite Hf, !app_nil_r. cbn [map length seq]. f_equal. f_equal. apply map_ext. intros c. unfold after_canopy. rewrite Hc. reflexivity.
Qed.

(** ** Snowpacks *)
Lemma in_list_In x l : in_list x l = true <-> In x l.
Proof.
  unfold in_list. rewrite existsb_exists. split; [intros (y&H1&H2); apply String.eqb_eq in H2; subst; exact H1|intros H; exists x; split; [exact H|apply String.eqb_refl]].
Qed.
Lemma known_resolved t l : in_list (resolve_alias t) l = true -> incl l known_types -> known_process t = true.
Proof. intros H K. unfold known_process. apply in_list_In, K, in_list_In, H. Qed.
Lemma known_water t : in_list t water_types = true -> known_process t = true.
Proof. intros H. apply in_list_In in H. cbn in H. repeat destruct H as [<-|H]; try reflexivity. destruct H. Qed.
Lemma known_melt : known_process (op_melt o) = true.
Proof. pose proof (go_melt _ Ho) as H. apply in_list_In in H. cbn in H. repeat destruct H as [H|H]; try (rewrite <- H; reflexivity). destruct H. Qed.

Section Packs.
Hypothesis Hsnow : op_snow o = true.
Definition S3 (l1 l2 : list (string * string)) : structure :=
  mkStr (map cover_brick covers ++ canopies o covers ++ map (fun c => pack_brick c (melt_processes o c)) l1) [] (seq 0 n)
    (seq n (length (canopies o covers) + length l1))
    (splitters o (map (fun c => water_to (rain_receiver o c)) l1 ++ map (fun c => water_to (after_canopy c)) l2)
       (map (fun c => mkOut (pack_of (fst c)) Snow false false) l1)).
Definition S3' (l1 l2 : list (string * string)) (c : string * string) : structure :=
  mkStr (map cover_brick covers ++ canopies o covers ++ map (fun c => pack_brick c (melt_processes o c)) l1 ++ [new_brick (pack_of (fst c)) "snowpack"]) [] (seq 0 n)
    (seq n (length (canopies o covers) + length (l1 ++ [c])))
    (splitters o (map (fun c => water_to (rain_receiver o c)) l1 ++ map (fun c => water_to (after_canopy c)) (c :: l2))
       (map (fun c => mkOut (pack_of (fst c)) Snow false false) (l1 ++ [c]))).
Definition at3 (l1 : list (string * string)) : nat := (n + length (canopies o covers) + length l1)%nat.
Lemma pack_start l1 c l2 e : ed_str e = S3 l1 (c :: l2) ->
  exists e', (bind (bind (bind (select_splitter "snow_splitter" e) (add_splitter_output (pack_of (fst c)) Snow))
      (fun e => set_parent (fst c) (add_component (pack_of (fst c)) "snowpack" e))) (fun e => Ok e)) = Ok e' /\
    focus (S3' l1 l2 c) (at3 l1) (pack_brick c []) None e'.
Proof.
  intros He. unfold select_splitter, select_splitter_if_found. rewrite He. cbn [st_splitters S3]. rewrite snow_index by exact Hsnow. cbn [bind].
  unfold add_splitter_output, on_splitter. str. cbn [bind]. cbn [st_splitters st_bricks st_basin st_covers st_components S3].
  rewrite (snow_upd _ _ _ (map (fun c => mkOut (pack_of (fst c)) Snow false false) (l1 ++ [c])) Hsnow) by (cbn; rewrite map_app; reflexivity).
  match goal with |- context [add_component _ _ ?x] => set (e1 := x) end.
  pose proof (component_str (pack_of (fst c)) "snowpack" e1 _ eq_refl) as Es.
  pose proof (component_focus (pack_of (fst c)) "snowpack" e1) as F. cbv zeta in F. rewrite Es in F. subst e1.
  cbn [ed_str st_bricks st_basin st_covers st_components st_splitters] in F, Es.
  assert (K : mkStr ((map cover_brick covers ++ canopies o covers ++ map (fun c => pack_brick c (melt_processes o c)) l1) ++ [new_brick (pack_of (fst c)) "snowpack"]) []
     (seq 0 n) (seq n (length (canopies o covers) + length l1) ++ [length (map cover_brick covers ++ canopies o covers ++ map (fun c => pack_brick c (melt_processes o c)) l1)])
     (splitters o (map (fun c => water_to (rain_receiver o c)) l1 ++ map (fun c => water_to (after_canopy c)) (c :: l2))
       (map (fun c => mkOut (pack_of (fst c)) Snow false false) (l1 ++ [c]))) = S3' l1 l2 c).
  { unfold S3'. rewrite <- !app_assoc, !app_length, !map_length. cbn [length]. rewrite Nat.add_1_r, Nat.add_succ_r, seq_S. reflexivity. }
  rewrite K in F. rewrite !app_length, !map_length in F. replace (n + (length (canopies o covers) + length l1))%nat with (at3 l1) in F by (unfold at3; lia).
  destruct (focus_on _ _ _ _ _ (fun b => mkBs (bs_name b) (bs_type b) (fst c) (bs_directly b) (bs_capacity b) (bs_processes b)) F) as (e2&R2&F2&_).
  unfold set_parent. rewrite R2. cbn [bind]. exists e2. split; [reflexivity|exact F2].
Qed.
Lemma pack_done l1 c l2 b k e : focus (S3' l1 l2 c) (at3 l1) b k e ->
  ed_str e = mkStr (map cover_brick covers ++ canopies o covers ++ map (fun c => pack_brick c (melt_processes o c)) l1 ++ [b]) [] (seq 0 n)
    (seq n (length (canopies o covers) + length (l1 ++ [c])))
    (splitters o (map (fun c => water_to (rain_receiver o c)) l1 ++ map (fun c => water_to (after_canopy c)) (c :: l2))
       (map (fun c => mkOut (pack_of (fst c)) Snow false false) (l1 ++ [c]))).
Proof.
  intros F. rewrite (fc_str _ _ _ _ _ F). unfold with_bricks, S3'. cbn [st_bricks st_basin st_covers st_components st_splitters].
  replace (at3 l1) with (length (map cover_brick covers ++ canopies o covers ++ map (fun c => pack_brick c (melt_processes o c)) l1))
    by (unfold at3; rewrite !app_length, !map_length; lia).
  rewrite !(app_assoc (map cover_brick covers)), !(app_assoc (map cover_brick covers ++ canopies o covers)), upd_nth_last. reflexivity.
Qed.
Lemma S3_shift l1 c l2 : covers = l1 ++ c :: l2 -> ed_str (mkEd (S3 l1 (c :: l2)) NoBrick None None) = S3 l1 (c :: l2).
Proof. reflexivity. Qed.
(** The rain goes to the receiver of the cover. *)
Lemma receivers_apart l1 c l2 : covers = l1 ++ c :: l2 -> forall d, In d l1 \/ In d l2 -> rain_receiver o d <> fst c /\ after_canopy d <> fst c.
Proof.
  intros E d Hd. unfold rain_receiver, after_canopy. destruct (gn_apart _ Hn c d (split_in _ _ _ E) (split_in' _ _ _ _ E Hd)) as [H1 H2].
  pose proof (split_distinct _ _ _ _ E Hd) as H3. destruct (has_canopy o d); [auto|]. destruct (rain_on_packs o); auto.
Qed.
Lemma snowpacks_closed : op_retention o = None -> forall e, ed_str e = S3 [] covers ->
  exists e', gen_snowpacks (op_melt o) e = Ok e' /\ ed_str e' = S3 covers [].
Proof.
  intros Hr. unfold gen_snowpacks. apply over_closed; [intros l1 l2 _; eexists; reflexivity|reflexivity|].
  intros l1 c l2 E e He. change (fst c ++ "_snowpack")%string with (pack_of (fst c)).
  destruct (pack_start l1 c l2 e He) as (e1&R1&F1).
  match type of R1 with bind ?x _ = _ => destruct x as [e1'| |] eqn:R1'; try discriminate R1 end. injection R1 as ->. cbn [bind].
  destruct (focus_push _ _ _ _ _ "melt" (op_melt o) (fst c) F1 known_melt) as (e2&R2&F2&_). exists e2. split; [exact R2|].
  rewrite (pack_done _ _ _ _ _ _ F2). unfold S3. rewrite (outputs_plain _ (plain_of c (split_in _ _ _ E))).
  unfold push_process, pack_brick, melt_processes. cbn [bs_name bs_type bs_parent bs_directly bs_capacity bs_processes app]. rewrite Hr, !map_app, <- !app_assoc. cbn [map app].
  assert (Hc : rain_receiver o c = after_canopy c). { unfold rain_receiver, after_canopy, rain_on_packs. rewrite Hr, andb_false_r. reflexivity. }
  rewrite Hc. reflexivity.
Qed.
Lemma snowpacks_retention_closed out rain : op_retention o = Some (out, rain) -> forall e, ed_str e = S3 [] covers ->
  exists e', gen_snowpacks_retention (op_melt o) out rain e = Ok e' /\ ed_str e' = S3 covers [].
Proof.
  intros Hr. unfold gen_snowpacks_retention. apply over_closed; [intros l1 l2 _; eexists; reflexivity|reflexivity|].
  intros l1 c l2 E e He. change (fst c ++ "_snowpack")%string with (pack_of (fst c)).
  destruct (pack_start l1 c l2 e He) as (e1&R1&F1).
  match type of R1 with bind ?x _ = _ => destruct x as [e1'| |] eqn:R1'; try discriminate R1 end. injection R1 as ->. cbn [bind].
  destruct (focus_push _ _ _ _ _ "melt" (op_melt o) "" F1 known_melt) as (e2&R2&F2&_). rewrite R2. cbn [bind].
  destruct (focus_outputs _ _ _ _ _ (fun l => l ++ [mkOut (pack_of (fst c)) Water true false]) F2) as (e3&R3&F3&_).
  assert (R3' : output_to_same e2 = Ok e3). { unfold output_to_same. rewrite (focus_selected _ _ _ _ _ F2). exact R3. }
  rewrite R3'. cbn [bind].
  destruct (focus_push _ _ _ _ _ "meltwater" out "" F3 (known_water out (go_retention _ Ho out rain Hr))) as (e4&R4&F4&_). rewrite R4. cbn [bind].
  destruct (focus_outputs _ _ _ _ _ (fun l => l ++ [mkOut (fst c) Water false false]) F4) as (e5&R5&F5&_).
  unfold add_output. rewrite R5. cbn [bind]. pose proof (pack_done _ _ _ _ _ _ F5) as E5.
  assert (Eb : push_process (on_outputs (fun l => l ++ [mkOut (fst c) Water false false]) (mkPr "meltwater" out (outputs_for "")))
     (push_process (on_outputs (fun l => l ++ [mkOut (pack_of (fst c)) Water true false]) (mkPr "melt" (op_melt o) (outputs_for ""))) (pack_brick c []))
     = pack_brick c (melt_processes o c)).
  { unfold melt_processes. rewrite Hr. reflexivity. }
  rewrite Eb in E5. assert (Hp : rain_on_packs o = rain). { unfold rain_on_packs. rewrite Hr, Hsnow. reflexivity. }
  destruct rain.
  - assert (Hs : st_splitters (ed_str e5) = splitters o (map (fun c => water_to (rain_receiver o c)) l1 ++ map (fun c => water_to (after_canopy c)) (c :: l2))
       (map (fun c => mkOut (pack_of (fst c)) Snow false false) (l1 ++ [c]))) by (rewrite E5; reflexivity).
    destruct (rain_change false (fst c) (pack_of (fst c)) e5 _ _ (map (fun c => water_to (rain_receiver o c)) (l1 ++ [c]) ++ map (fun c => water_to (after_canopy c)) l2) Hs) as (e6&R6&E6).
    { rewrite map_app, <- app_assoc. cbn [map app]. destruct (has_canopy o c) eqn:Hc.
      - right. split; [|split; [reflexivity|]].
        + apply retarget_none. intros y Hy. apply in_app_or in Hy as [Hy|[<-|Hy]].
          * apply in_map_iff in Hy as (d&<-&Hd). apply (receivers_apart l1 c l2 E d). auto.
          * cbn [water_to o_target]. unfold after_canopy. rewrite Hc. intros K. symmetry in K. revert K. apply (gn_apart _ Hn c c); exact (split_in _ _ _ E).
          * apply in_map_iff in Hy as (d&<-&Hd). apply (receivers_apart l1 c l2 E d). auto.
        + do 2 f_equal. unfold rain_receiver, after_canopy. rewrite Hc. reflexivity.
      - left. rewrite retarget_mid.
        + do 3 f_equal. unfold rain_receiver. rewrite Hc, Hp. reflexivity.
        + intros y Hy. apply in_map_iff in Hy as (d&<-&Hd). apply (receivers_apart l1 c l2 E d). auto.
        + cbn. unfold after_canopy. rewrite Hc. reflexivity. }
    exists e6. split; [exact R6|]. rewrite E6, E5. cbn [st_bricks st_basin st_covers st_components]. unfold S3. rewrite !map_app, <- !app_assoc. reflexivity.
  - exists e5. split; [reflexivity|]. rewrite E5. unfold S3. rewrite !map_app, <- !app_assoc. cbn [map app].
    assert (Hc : rain_receiver o c = after_canopy c). { unfold rain_receiver, after_canopy. rewrite Hp. reflexivity. }
    rewrite Hc. reflexivity.
Qed.

(** ** Processes added to the snowpacks *)
Definition more (l : list process) (b : bset) : bset :=
  mkBs (bs_name b) (bs_type b) (bs_parent b) (bs_directly b) (bs_capacity b) (bs_processes b ++ l).
Definition S4 (q add : string * string -> list process) (l1 l2 : list (string * string)) : structure :=
  mkStr (map cover_brick covers ++ canopies o covers ++ map (fun c => pack_brick c (q c ++ add c)) l1 ++ map (fun c => pack_brick c (q c)) l2) [] (seq 0 n)
    (seq n (length (canopies o covers) + n))
    (splitters o (map (fun c => water_to (rain_receiver o c)) covers) (map (fun c => mkOut (pack_of (fst c)) Snow false false) covers)).
Lemma packs_closed q add f g :
  (forall c e, f (fst c) (brick_type_of (snd c)) e = bind (select_unit_brick (pack_of (fst c)) e) (g c)) ->
  (forall c st i b e, In c covers -> bs_name b = pack_of (fst c) -> focus st i b None e -> exists e' k, g c e = Ok e' /\ focus st i (more (add c) b) k e') ->
  forall e, ed_str e = S4 q add [] covers -> exists e', over_covers f e = Ok e' /\ ed_str e' = S4 (fun c => q c ++ add c) (fun _ => []) [] covers.
Proof.
  intros Hf Hg e He. destruct (over_closed f (S4 q add)) with (e := e) as (e'&R&E'); auto.
  - intros l1 l2 _. eexists. reflexivity.
  - intros l1 c l2 E e0 H0. rewrite Hf. unfold select_unit_brick. rewrite H0. cbn [S4 st_bricks].
    set (A := map cover_brick covers ++ canopies o covers ++ map (fun c => pack_brick c (q c ++ add c)) l1).
    set (B := map (fun c => pack_brick c (q c)) l2).
    assert (EA : map cover_brick covers ++ canopies o covers ++ map (fun c => pack_brick c (q c ++ add c)) l1 ++ map (fun c => pack_brick c (q c)) (c :: l2)
      = A ++ pack_brick c (q c) :: B) by (unfold A, B; rewrite <- !app_assoc; reflexivity).
    rewrite EA, index_where_mid; [|intros y Hy; apply String.eqb_neq|apply String.eqb_refl].
    + cbn [bind]. set (e1 := mkEd _ _ _ _).
      assert (F : focus (S4 q add l1 (c :: l2)) (length A) (pack_brick c (q c)) None e1).
      { constructor; [|reflexivity| |reflexivity]; unfold e1, with_bricks, S4; cbn [ed_str st_bricks st_basin st_covers st_components st_splitters].
        - rewrite EA, upd_nth_mid. reflexivity.
        - rewrite EA, app_length. cbn [length]. lia. }
      destruct (Hg c _ _ (pack_brick c (q c)) _ (split_in _ _ _ E) eq_refl F) as (e2&k&R2&F2). exists e2. split; [exact R2|].
      rewrite (fc_str _ _ _ _ _ F2). unfold with_bricks. cbn [S4 st_bricks st_basin st_covers st_components st_splitters]. rewrite EA, upd_nth_mid.
      unfold S4. f_equal. unfold A, B. rewrite map_app, <- !app_assoc. reflexivity.
    + unfold A in Hy. apply in_app_or in Hy as [Hy|Hy]; [|apply in_app_or in Hy as [Hy|Hy]]; apply in_map_iff in Hy as (d&<-&Hd); cbn.
      * apply (gn_apart _ Hn d c Hd (split_in _ _ _ E)).
      * intros K. symmetry in K. exact (pack_not_canopy _ _ K).
      * intros K. apply pack_inj in K. exact (split_distinct _ _ _ _ E (or_introl Hd) K).
  - exists e'. split; [exact R|]. rewrite E'. unfold S4. cbn [map app]. rewrite app_nil_r. reflexivity.
Qed.
Lemma S4_start q add e : ed_str e = S4 q (fun _ => []) [] covers -> ed_str e = S4 q add [] covers.
Proof. intros ->. reflexivity. Qed.
Lemma more_nil b : more [] b = b.
Proof. unfold more. rewrite app_nil_r. destruct b; reflexivity. Qed.
Lemma more_one p b : push_process p b = more [p] b.
Proof. reflexivity. Qed.
Lemma given_closed x q (add : string * string -> list process) f :
  (x = None -> forall c, add c = []) ->
  (forall t, x = Some t -> forall e, ed_str e = S4 q add [] covers -> exists e', f t e = Ok e' /\ ed_str e' = S4 (fun c => q c ++ add c) (fun _ => []) [] covers) ->
  forall e, ed_str e = S4 q (fun _ => []) [] covers -> exists e', given x f e = Ok e' /\ ed_str e' = S4 (fun c => q c ++ add c) (fun _ => []) [] covers.
Proof.
  intros H1 H2 e He. destruct x as [t|]; cbn [given].
  - exact (H2 t eq_refl e He).
  - exists e. split; [reflexivity|]. rewrite He. unfold S4. cbn [map app]. do 3 f_equal. apply map_ext. intros c. rewrite (H1 eq_refl c), app_nil_r. reflexivity.
Qed.
Lemma refreeze_closed q e : ed_str e = S4 q (fun _ => []) [] covers ->
  exists e', given (op_refreeze o) add_refreezing e = Ok e' /\ ed_str e' = S4 (fun c => q c ++ refreeze_processes o c) (fun _ => []) [] covers.
Proof.
  apply given_closed; [intros H c; unfold refreeze_processes; rewrite H; reflexivity|]. intros t Ht. unfold add_refreezing.
  apply (packs_closed q _ _ (fun c e => bind (add_process "refreeze" t (fst c ++ "_snowpack" ++ ":snow")%string e) outputs_now)).
  - intros c e0. unfold pack_of. destruct (select_unit_brick _ e0); reflexivity.
  - intros c st i b e0 Hc Hb F.
    assert (Hk : known_process t = true) by (apply (known_resolved t _ (go_refreeze_type _ Ho t Ht)); intros y [<-|[]]; apply in_list_In; reflexivity).
    destruct (focus_push _ _ _ _ _ "refreeze" t (fst c ++ "_snowpack" ++ ":snow")%string F Hk) as (e1&R1&F1&_). rewrite R1. cbn [bind].
    destruct (focus_outputs _ _ _ _ _ (map (fun o => mkOut (o_target o) (o_type o) true (o_static o))) F1) as (e2&R2&F2&_). exists e2. eexists. split; [exact R2|].
    assert (Eo : outputs_for (fst c ++ "_snowpack" ++ ":snow")%string = [mkOut (pack_of (fst c)) Snow false false]).
    { replace (fst c ++ "_snowpack" ++ ":snow")%string with (pack_of (fst c) ++ String ":" "snow")%string.
      - rewrite outputs_typed by (apply plain_pack, plain_of, Hc). reflexivity.
      - unfold pack_of. generalize (fst c) as s. induction s as [|a s IH]; cbn; [reflexivity|rewrite IH; reflexivity]. }
    rewrite Eo in F2. unfold refreeze_processes. rewrite Ht. exact F2.
Qed.
Lemma ice_closed q e : ed_str e = S4 q (fun _ => []) [] covers ->
  exists e', given (op_ice o) add_snow_ice e = Ok e' /\ ed_str e' = S4 (fun c => q c ++ ice_processes o c) (fun _ => []) [] covers.
Proof.
  apply given_closed; [intros H c; unfold ice_processes; rewrite H; destruct (String.eqb _ _); reflexivity|]. intros t Ht. unfold add_snow_ice.
  apply (packs_closed q _ _ (fun c e => if String.eqb (brick_type_of (snd c)) "glacier" then add_process "snow_ice_transfo" t (fst c ++ ":ice")%string e else Ok e)).
  - intros c e0. unfold pack_of. reflexivity.
  - intros c st i b e0 Hc Hb F. unfold ice_processes. rewrite Ht. destruct (String.eqb (brick_type_of (snd c)) "glacier").
    + assert (Hk : known_process t = true) by (apply (known_resolved t _ (go_ice _ Ho t Ht)); intros y [<-|[<-|[]]]; apply in_list_In; reflexivity).
      destruct (focus_push _ _ _ _ _ "snow_ice_transfo" t (fst c ++ ":ice")%string F Hk) as (e1&R1&F1&_). exists e1. eexists. split; [exact R1|].
      change (fst c ++ ":ice")%string with (fst c ++ String ":" "ice")%string in F1. rewrite outputs_typed in F1 by (apply plain_of, Hc). exact F1.
    + exists e0. eexists. split; [reflexivity|]. rewrite more_nil. exact F.
Qed.
Lemma move_closed q e : ed_str e = S4 q (fun _ => []) [] covers ->
  exists e', given (op_move o) (fun t => add_redistribution t false) e = Ok e' /\ ed_str e' = S4 (fun c => q c ++ move_processes o) (fun _ => []) [] covers.
Proof.
  apply (given_closed _ q (fun _ => move_processes o)); [intros H c; unfold move_processes; rewrite H; reflexivity|]. intros t Ht. unfold add_redistribution.
  apply (packs_closed q _ _ (fun c e => bind (add_process "snow_redistribution" t "lateral:snow" e) outputs_now)).
  - intros c e0. cbn [andb]. unfold pack_of. destruct (select_unit_brick _ e0); reflexivity.
  - intros c st i b e0 Hc Hb F.
    assert (Hk : known_process t = true) by (apply (known_resolved t _ (go_move _ Ho t Ht)); intros y [<-|[<-|[<-|[]]]]; apply in_list_In; reflexivity).
    destruct (focus_push _ _ _ _ _ "snow_redistribution" t "lateral:snow" F Hk) as (e1&R1&F1&_). rewrite R1. cbn [bind].
    destruct (focus_outputs _ _ _ _ _ (map (fun o => mkOut (o_target o) (o_type o) true (o_static o))) F1) as (e2&R2&F2&_). exists e2. eexists. split; [exact R2|].
    unfold move_processes. rewrite Ht. exact F2.
Qed.
Lemma loss_closed q e : ed_str e = S4 q (fun _ => []) [] covers ->
  exists e', given (op_sublimation o) add_sublimation e = Ok e' /\ ed_str e' = S4 (fun c => q c ++ loss_processes o) (fun _ => []) [] covers.
Proof.
  apply (given_closed _ q (fun _ => loss_processes o)); [intros H c; unfold loss_processes; rewrite H; reflexivity|]. intros t Ht. unfold add_sublimation.
  apply (packs_closed q _ _ (fun c e => add_process "sublimation" t "" e)).
  - intros c e0. unfold pack_of. destruct (select_unit_brick _ e0); reflexivity.
  - intros c st i b e0 Hc Hb F.
    assert (Hk : known_process t = true) by (apply (known_resolved t _ (go_sublimation _ Ho t Ht)); intros y [<-|[<-|[]]]; apply in_list_In; reflexivity).
    destruct (focus_push _ _ _ _ _ "sublimation" t "" F Hk) as (e1&R1&F1&_). exists e1. eexists. split; [exact R1|]. unfold loss_processes. rewrite Ht. exact F1.
Qed.
End Packs.

(** ** The whole *)
Theorem base_built : exists e, base_structure covers o new_editor = Ok e /\ ed_str e = base o covers.
Proof.
  unfold base_structure. destruct stage_precipitation as (e0&R0&E0). rewrite R0. cbn [bind].
  destruct (stage_covers e0 E0) as (e1&R1&E1). rewrite R1. cbn [bind].
  destruct (stage_canopies e1 E1) as (e2&R2&E2). rewrite R2. cbn [bind].
  destruct (op_snow o) eqn:Hs.
  - assert (E3 : ed_str e2 = S3 [] covers).
    { rewrite E2. unfold S2, S3, canopies. cbn [map length app]. rewrite map_length, Nat.add_0_r, !app_nil_r. reflexivity. }
    assert (K : exists e, match op_retention o with
        | Some (out, rain) => bind (gen_snowpacks_retention (op_melt o) out rain e2) (given (op_refreeze o) add_refreezing)
        | None => match op_refreeze o with Some _ => Throw | None => gen_snowpacks (op_melt o) e2 end end = Ok e
      /\ ed_str e = S4 (fun c => melt_processes o c ++ refreeze_processes o c) (fun _ => []) [] covers).
    { assert (T : forall e, ed_str e = S3 covers [] -> ed_str e = S4 (melt_processes o) (fun _ => []) [] covers).
      { intros e ->. unfold S3, S4. cbn [map app]. rewrite app_nil_r. reflexivity. }
      destruct (op_retention o) as [[out rain]|] eqn:Hr.
      - destruct (snowpacks_retention_closed Hs out rain Hr e2 E3) as (e3&R3&E4). rewrite R3. cbn [bind]. exact (refreeze_closed (melt_processes o) e3 (T e3 E4)).
      - destruct (op_refreeze o) as [t|] eqn:Hf; [exfalso; apply (go_refreeze _ Ho); congruence|].
        destruct (snowpacks_closed Hs Hr e2 E3) as (e3&R3&E4). exists e3. split; [exact R3|]. rewrite (T e3 E4). unfold S4. cbn [map app]. do 3 f_equal.
        apply map_ext. intros c. unfold refreeze_processes. rewrite Hf. cbn [when]. rewrite app_nil_r. reflexivity. }
    destruct K as (e3&R3&E4). rewrite R3. cbn [bind].
    destruct (ice_closed _ e3 E4) as (e4&R4&E5). rewrite R4. cbn [bind].
    destruct (move_closed _ e4 E5) as (e5&R5&E6). rewrite R5. cbn [bind].
    destruct (loss_closed _ e5 E6) as (e6&R6&E7). exists e6. split; [exact R6|]. rewrite E7. unfold S4, base, packs. rewrite Hs, map_length. cbn [map app]. f_equal. do 2 f_equal.
    apply map_ext. intros c. unfold pack_processes. rewrite <- !app_assoc. reflexivity.
  - exists e2. split; [reflexivity|]. rewrite E2. unfold S2, base, packs, canopies. rewrite Hs, !app_nil_r, map_length. cbn [length]. rewrite Nat.add_0_r. f_equal. f_equal.
    apply map_ext. intros c. unfold after_canopy, rain_receiver, rain_on_packs. rewrite Hs. reflexivity.
Qed.
End Base.
