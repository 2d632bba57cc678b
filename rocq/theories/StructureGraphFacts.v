(** Facts for C95. *)
From Coq Require Import Sorted Permutation Ascii NArith Lia.
From Verif Require Import StructureGraphSpec.

(** Strings in order. *)
Lemma compare_refl s : String.compare s s = Eq.
Proof. induction s as [|x s IH]; simpl; [reflexivity|]. unfold Ascii.compare. rewrite N.compare_refl. exact IH. Qed.
Lemma compare_trans a : forall b c, String.compare a b = Lt -> String.compare b c = Lt -> String.compare a c = Lt.
Proof.
  induction a as [|x a IH]; intros [|y b] [|z c]; cbn; try congruence; try reflexivity.
  unfold Ascii.compare. destruct (N.compare_spec (N_of_ascii x) (N_of_ascii y)) as [E|E|E]; destruct (N.compare_spec (N_of_ascii y) (N_of_ascii z)) as [F|F|F]; intros H K; try discriminate;
  destruct (N.compare_spec (N_of_ascii x) (N_of_ascii z)) as [G|G|G]; try reflexivity; try (exfalso; lia). apply (IH b c H K).
Qed.
Lemma before_trans x y z : before_link x y -> before_link y z -> before_link x z.
Proof.
  destruct x as (a, b), y as (c, d), z as (e, f). unfold before_link. simpl. intros [H|(-> & H)] [K|(-> & K)]; auto.
  - left. exact (compare_trans _ _ _ H K).
  - right. split; [reflexivity|exact (compare_trans _ _ _ H K)].
Qed.
Lemma before_irrefl x : ~ before_link x x.
Proof. unfold before_link. rewrite !compare_refl. intros [H|(_ & H)]; discriminate. Qed.
Lemma pair_leb_true x y : x <> y -> pair_leb x y = true -> before_link x y.
Proof.
  destruct x as (a, b), y as (c, d). unfold pair_leb, before_link. simpl. intros N H. destruct (String.compare a c) eqn:E; [|auto|discriminate]. apply String.compare_eq_iff in E. subst c.
  destruct (String.compare b d) eqn:F; [|auto|discriminate]. apply String.compare_eq_iff in F. subst d. congruence.
Qed.
Lemma compare_gt a b : String.compare a b = Gt -> String.compare b a = Lt.
Proof. intro H. rewrite String.compare_antisym, H. reflexivity. Qed.
Lemma pair_leb_false x y : pair_leb x y = false -> before_link y x.
Proof.
  destruct x as (a, b), y as (c, d). unfold pair_leb, before_link. simpl. destruct (String.compare a c) eqn:E; [|discriminate|intro; left; exact (compare_gt _ _ E)]. apply String.compare_eq_iff in E. subst c.
  destruct (String.compare b d) eqn:F; try discriminate. intro. right. split; [reflexivity|exact (compare_gt _ _ F)].
Qed.
Lemma insert_in x l y : In y (insert_link x l) <-> y = x \/ In y l.
Proof. induction l as [|z l IH]; simpl; [split; intros [H|H]; auto|]. destruct (pair_leb x z); simpl; [|rewrite IH]; split; intros [H|H]; auto; destruct H; auto. Qed.
Lemma sorted_in l y : In y (sorted_links l) <-> In y l.
Proof. induction l as [|x l IH]; simpl; [reflexivity|]. rewrite insert_in, IH. split; intros [H|H]; auto. Qed.
Lemma insert_sorted x l : ~ In x l -> StronglySorted before_link l -> StronglySorted before_link (insert_link x l).
Proof.
  induction l as [|y l IH]; simpl; intros N S; [repeat constructor|]. apply StronglySorted_inv in S. destruct S as (S & F). destruct (pair_leb x y) eqn:E.
  - apply pair_leb_true in E; [|intro Q; subst; apply N; left; reflexivity]. constructor; [constructor; assumption|]. constructor; [exact E|]. rewrite Forall_forall in *. intros z I. exact (before_trans _ _ _ E (F z I)).
  - apply pair_leb_false in E. constructor; [apply IH; auto|]. rewrite Forall_forall in *. intros z I. apply insert_in in I. destruct I as [->|I]; [exact E|exact (F z I)].
Qed.
Lemma sorted_sorted l : NoDup l -> StronglySorted before_link (sorted_links l).
Proof. induction 1 as [|x l N D IH]; simpl; [constructor|]. apply insert_sorted; [rewrite sorted_in; exact N|exact IH]. Qed.
Lemma pair_eqb_spec x y : pair_eqb x y = true <-> x = y.
Proof. destruct x, y. unfold pair_eqb. simpl. rewrite Bool.andb_true_iff, !String.eqb_eq. split; [intros (-> & ->); reflexivity|intro H; inversion H; auto]. Qed.
Lemma add_link_in x l y : In y (add_link x l) <-> In y l \/ y = x.
Proof.
  unfold add_link. destruct (existsb (pair_eqb x) l) eqn:E; [|rewrite in_app_iff; simpl; intuition congruence]. apply existsb_exists in E. destruct E as (z & I & E). apply pair_eqb_spec in E. subst z. intuition congruence.
Qed.
Lemma NoDup_snoc {A} (l : list A) x : NoDup l -> ~ In x l -> NoDup (l ++ [x]).
Proof. intros D N. induction D as [|y l M D IH]; simpl; [repeat constructor; auto|]. constructor; [|apply IH; intro I; apply N; right; exact I]. rewrite in_app_iff. intros [I|[->|[]]]; [exact (M I)|]. apply N. left. reflexivity. Qed.
Lemma add_link_nodup x l : NoDup l -> NoDup (add_link x l).
Proof.
  intro D. unfold add_link. destruct (existsb (pair_eqb x) l) eqn:E; [exact D|]. apply NoDup_snoc; [exact D|]. intro I. assert (existsb (pair_eqb x) l = true); [|congruence]. apply existsb_exists. exists x. split; [exact I|apply pair_eqb_spec; reflexivity].
Qed.

(** Nodes by name. *)
Lemma known_in a l : known a l = true <-> In a (map nd_name l).
Proof. unfold known. rewrite existsb_exists, in_map_iff. split; intros (n & H & K); exists n; [apply String.eqb_eq in K|split; [|apply String.eqb_eq]]; auto. Qed.
Lemma known_not a l : known a l = false <-> ~ In a (map nd_name l).
Proof. rewrite <- known_in. destruct (known a l); split; congruence. Qed.
Lemma set_names n l : map nd_name (set_node n l) = if known (nd_name n) l then map nd_name l else map nd_name l ++ [nd_name n].
Proof.
  unfold set_node. destruct (known (nd_name n) l); [|rewrite map_app; reflexivity]. rewrite map_map. apply map_ext. intro m. destruct (String.eqb (nd_name m) (nd_name n)) eqn:E; [|reflexivity]. apply String.eqb_eq in E. symmetry. exact E.
Qed.
Lemma default_names n l : map nd_name (default_node n l) = if known (nd_name n) l then map nd_name l else map nd_name l ++ [nd_name n].
Proof. unfold default_node. destruct (known (nd_name n) l); [|rewrite map_app]; reflexivity. Qed.
Lemma names_in a b l : In a (if known b l then map nd_name l else map nd_name l ++ [b]) <-> In a (map nd_name l) \/ a = b.
Proof. destruct (known b l) eqn:E; [|rewrite in_app_iff; simpl; intuition congruence]. apply known_in in E. intuition congruence. Qed.
Lemma names_nodup b l : NoDup (map nd_name l) -> NoDup (if known b l then map nd_name l else map nd_name l ++ [b]).
Proof. intro D. destruct (known b l) eqn:E; [exact D|]. apply NoDup_snoc; [exact D|apply known_not, E]. Qed.

(** Folds: a quantity to which every step adds what is its own. *)
Lemma fold_adds {S X Y} (f : S -> X -> S) (has : S -> Y -> Prop) (own : X -> Y -> Prop) l : (forall s x y, In x l -> has (f s x) y <-> has s y \/ own x y) ->
  forall s y, has (fold_left f l s) y <-> has s y \/ exists x, In x l /\ own x y.
Proof.
  induction l as [|x l IH]; intros H s y; simpl; [split; [auto|intros [K|(x & [] & _)]; exact K]|]. rewrite IH by (intros; apply H; right; assumption). rewrite H by (left; reflexivity). split.
  - intros [[K|K]|(z & I & K)]; eauto.
  - intros [K|(z & [->|I] & K)]; eauto.
Qed.
Lemma fold_keeps {S X} (f : S -> X -> S) (P : S -> Prop) l : (forall s x, In x l -> P s -> P (f s x)) -> forall s, P s -> P (fold_left f l s).
Proof. induction l as [|x l IH]; intros H s K; simpl; [exact K|]. apply IH; [intros; apply H; [right|]; assumption|]. apply H; [left; reflexivity|exact K]. Qed.
Lemma fold_appends {S X Y} (f : S -> X -> S) (q : S -> list Y) (own : X -> list Y) l : (forall s x, q (f s x) = q s ++ own x) -> forall s, q (fold_left f l s) = q s ++ flat_map own l.
Proof. intro H. induction l as [|x l IH]; intro s; simpl; [rewrite app_nil_r; reflexivity|]. rewrite IH, H, app_assoc. reflexivity. Qed.

(** What each step adds to names, links and edges. *)
Definition nm (s : building) (a : string) : Prop := In a (map nd_name (bd_nodes s)).
Definition lk (s : building) (y : string * string) : Prop := In y (bd_links s).
Section Steps.
Variable wf : bool.
Lemma forcing_nm c fs s a : nm (add_forcing wf c fs s) a <-> nm s a \/ (wf = true /\ In a fs).
Proof.
  unfold add_forcing. destruct wf; [|intuition congruence]. rewrite (fold_adds _ nm (fun f a => a = f)).
  - split; intros [H|H]; auto; [destruct H as (x & I & ->)|destruct H as (_ & I)]; eauto.
  - intros s' f y _. unfold nm. cbn [bd_nodes]. rewrite default_names. apply names_in.
Qed.
Lemma forcing_lk c fs s y : lk (add_forcing wf c fs s) y <-> lk s y \/ (wf = true /\ exists f, In f fs /\ y = (f, c)).
Proof.
  unfold add_forcing. destruct wf; [|intuition congruence]. rewrite (fold_adds _ lk (fun f y => y = (f, c))).
  - intuition.
  - intros s' f z _. unfold lk. cbn [bd_links]. apply add_link_in.
Qed.
Lemma forcing_edges c fs s : bd_edges (add_forcing wf c fs s) = bd_edges s.
Proof. unfold add_forcing. destruct wf; [|reflexivity]. apply (fold_keeps _ (fun s' => bd_edges s' = bd_edges s)); [intros s' x _ H; exact H|reflexivity]. Qed.
Lemma component_nm n s a : nm (add_component wf n s) a <-> nm s a \/ a = nd_name n \/ (wf = true /\ In a (nd_forcing n)).
Proof. unfold add_component. rewrite forcing_nm. unfold nm. cbn [bd_nodes]. rewrite set_names, names_in. tauto. Qed.
Lemma component_lk n s y : lk (add_component wf n s) y <-> lk s y \/ (wf = true /\ exists f, In f (nd_forcing n) /\ y = (f, nd_name n)).
Proof. unfold add_component. rewrite forcing_lk. reflexivity. Qed.
Lemma component_edges n s : bd_edges (add_component wf n s) = bd_edges s.
Proof. unfold add_component. rewrite forcing_edges. reflexivity. Qed.
Lemma output_nm x p k s o a : nm (add_output x p k s o) a <-> nm s a \/ a = oe_target o.
Proof. unfold nm. cbn [add_output add_edge ensure_sink bd_nodes]. rewrite default_names. apply names_in. Qed.
Lemma outputs_nm x p k os s a : nm (fold_left (add_output x p k) os s) a <-> nm s a \/ exists o, In o os /\ a = oe_target o.
Proof. apply (fold_adds _ nm (fun o a => a = oe_target o)). intros. apply output_nm. Qed.
Lemma outputs_links x p k os s : bd_links (fold_left (add_output x p k) os s) = bd_links s.
Proof. apply (fold_keeps _ (fun s' => bd_links s' = bd_links s)); [intros s' y _ H; exact H|reflexivity]. Qed.
Lemma outputs_edges x p k os s : bd_edges (fold_left (add_output x p k) os s) = bd_edges s ++ map (fun o => Edge x (oe_target o) p k (oe_flux o) (oe_instant o)) os.
Proof.
  rewrite (fold_appends _ bd_edges (fun o => [Edge x (oe_target o) p k (oe_flux o) (oe_instant o)])) by reflexivity. reflexivity.
Qed.
Lemma process_nm b p s a : nm (add_process wf b s p) a <-> nm s a \/ (wf = true /\ In a (pe_forcing p)) \/ exists e, In e (fluxes_of_process b p) /\ a = ed_target e.
Proof.
  unfold add_process, fluxes_of_process. destruct (pe_outputs p) as [|o os].
  - unfold nm. cbn [add_edge ensure_sink bd_nodes]. rewrite default_names, names_in. fold (nm (add_forcing wf (be_name b) (pe_forcing p) s) a). rewrite forcing_nm. unfold nm. split.
    + intros [[H|H]|H]; auto. right. right. exists (Edge (be_name b) "atmosphere" (pe_name p) (pe_kind p) "water" false). split; [left; reflexivity|exact H].
    + intros [H|[H|(e & [<-|[]] & H)]]; auto.
  - rewrite outputs_nm, forcing_nm. rewrite or_assoc. split; (intros [H|[H|H]]; [auto|auto|right; right]).
    + destruct H as (x & I & ->). eexists. split; [apply in_map; exact I|reflexivity].
    + destruct H as (e & I & ->). apply in_map_iff in I. destruct I as (x & <- & I). exists x. auto.
Qed.
Lemma process_lk b p s y : lk (add_process wf b s p) y <-> lk s y \/ (wf = true /\ exists f, In f (pe_forcing p) /\ y = (f, be_name b)).
Proof. rewrite <- forcing_lk. unfold add_process. destruct (pe_outputs p); [reflexivity|]. unfold lk. rewrite outputs_links. reflexivity. Qed.
Lemma process_edges b p s : bd_edges (add_process wf b s p) = bd_edges s ++ fluxes_of_process b p.
Proof.
  unfold add_process, fluxes_of_process. destruct (pe_outputs p) as [|o os]; [cbn [add_edge ensure_sink bd_edges]; rewrite forcing_edges; reflexivity|]. rewrite outputs_edges, forcing_edges. reflexivity.
Qed.
Lemma brick_nm b s a : nm (add_brick_edges wf s b) a <-> nm s a \/ exists p, In p (be_processes b) /\ ((wf = true /\ In a (pe_forcing p)) \/ exists e, In e (fluxes_of_process b p) /\ a = ed_target e).
Proof. apply (fold_adds _ nm (fun p a => (wf = true /\ In a (pe_forcing p)) \/ exists e, In e (fluxes_of_process b p) /\ a = ed_target e)). intros. apply process_nm. Qed.
Lemma brick_lk b s y : lk (add_brick_edges wf s b) y <-> lk s y \/ exists p, In p (be_processes b) /\ wf = true /\ exists f, In f (pe_forcing p) /\ y = (f, be_name b).
Proof. apply (fold_adds _ lk (fun p y => wf = true /\ exists f, In f (pe_forcing p) /\ y = (f, be_name b))). intros. apply process_lk. Qed.
Lemma brick_edges b s : bd_edges (add_brick_edges wf s b) = bd_edges s ++ fluxes_of_brick b.
Proof. apply (fold_appends _ bd_edges (fluxes_of_process b)). intros. apply process_edges. Qed.
Lemma split_nm p s a : nm (add_split_edges wf s p) a <-> nm s a \/ (wf = true /\ In a (se_forcing p)) \/ exists e, In e (fluxes_of_splitter p) /\ a = ed_target e.
Proof.
  unfold add_split_edges. rewrite outputs_nm, forcing_nm, or_assoc. unfold fluxes_of_splitter. split; (intros [H|[H|H]]; [auto|auto|right; right]).
  - destruct H as (x & I & ->). eexists. split; [apply in_map; exact I|reflexivity].
  - destruct H as (e & I & ->). apply in_map_iff in I. destruct I as (x & <- & I). exists x. auto.
Qed.
Lemma split_lk p s y : lk (add_split_edges wf s p) y <-> lk s y \/ (wf = true /\ exists f, In f (se_forcing p) /\ y = (f, se_name p)).
Proof. unfold add_split_edges, lk. rewrite outputs_links. apply forcing_lk. Qed.
Lemma split_edges p s : bd_edges (add_split_edges wf s p) = bd_edges s ++ fluxes_of_splitter p.
Proof. unfold add_split_edges. rewrite outputs_edges, forcing_edges. reflexivity. Qed.

Lemma build_edges v : bd_edges (build wf v) = fluxes v.
Proof.
  unfold build. rewrite (fold_appends _ bd_edges fluxes_of_splitter) by (intros; apply split_edges). rewrite (fold_appends _ bd_edges fluxes_of_brick) by (intros; apply brick_edges).
  assert (E : forall (l : list split_exp) s, bd_edges (fold_left (fun s p => add_component wf (split_node p) s) l s) = bd_edges s) by (induction l; intro s; simpl; [reflexivity|rewrite IHl; apply component_edges]).
  assert (F : forall (l : list brick_exp) s, bd_edges (fold_left (fun s p => add_component wf (brick_node p) s) l s) = bd_edges s) by (induction l; intro s; simpl; [reflexivity|rewrite IHl; apply component_edges]).
  rewrite E, F. reflexivity.
Qed.
Lemma build_links v y : lk (build wf v) y <-> wf = true /\ exists f c, uses v f c /\ y = (f, c).
Proof.
  unfold build.
  rewrite (fold_adds _ lk (fun p y => wf = true /\ exists f, In f (se_forcing p) /\ y = (f, se_name p))) by (intros; apply split_lk).
  rewrite (fold_adds _ lk (fun b y => exists p, In p (be_processes b) /\ wf = true /\ exists f, In f (pe_forcing p) /\ y = (f, be_name b))) by (intros; apply brick_lk).
  rewrite (fold_adds _ lk (fun p y => wf = true /\ exists f, In f (se_forcing p) /\ y = (f, se_name p))) by (intros; apply component_lk).
  rewrite (fold_adds _ lk (fun b y => wf = true /\ exists f, In f (be_forcing b) /\ y = (f, be_name b))) by (intros; apply component_lk).
  unfold lk at 1. cbn [bd_links In]. split.
  - intros [[[[[]|(b & I & W & f & K & ->)]|(p & I & W & f & K & ->)]|(b & I & p & J & W & f & K & ->)]|(p & I & W & f & K & ->)]; (split; [exact W|]; eexists _, _; split; [|reflexivity]).
    + exact (uses_brick v f b I K).
    + exact (uses_splitter v f p I K).
    + exact (uses_process v f b p I J K).
    + exact (uses_splitter v f p I K).
  - intros (W & f & c & U & ->). destruct U as [b I K|b p I J K|p I K]; [left; left; left|left; right|right]; eauto 10.
Qed.
Lemma build_names v a : nm (build wf v) a <-> In a (component_names v) \/ (wf = true /\ exists c, uses v a c) \/ exists e, In e (fluxes v) /\ ed_target e = a.
Proof.
  unfold build.
  rewrite (fold_adds _ nm (fun p a => (wf = true /\ In a (se_forcing p)) \/ exists e, In e (fluxes_of_splitter p) /\ a = ed_target e)) by (intros; apply split_nm).
  rewrite (fold_adds _ nm (fun b a => exists p, In p (be_processes b) /\ ((wf = true /\ In a (pe_forcing p)) \/ exists e, In e (fluxes_of_process b p) /\ a = ed_target e))) by (intros; apply brick_nm).
  rewrite (fold_adds _ nm (fun p a => a = se_name p \/ (wf = true /\ In a (se_forcing p)))) by (intros; apply component_nm).
  rewrite (fold_adds _ nm (fun b a => a = be_name b \/ (wf = true /\ In a (be_forcing b)))) by (intros; apply component_nm).
  unfold nm at 1. cbn [bd_nodes map In]. unfold component_names, fluxes. rewrite in_app_iff, !in_map_iff. split.
  - intros [[[[[]|(b & I & [->|(W & K)])]|(p & I & [->|(W & K)])]|(b & I & p & J & [(W & K)|(e & K & ->)])]|(p & I & [(W & K)|(e & K & ->)])].
    + left. left. eauto.
    + right. left. split; [exact W|]. exists (be_name b). exact (uses_brick v a b I K).
    + left. right. eauto.
    + right. left. split; [exact W|]. exists (se_name p). exact (uses_splitter v a p I K).
    + right. left. split; [exact W|]. exists (be_name b). exact (uses_process v a b p I J K).
    + right. right. exists e. split; [|reflexivity]. apply in_or_app. left. apply in_flat_map. exists b. split; [exact I|]. apply in_flat_map. exists p. auto.
    + right. left. split; [exact W|]. exists (se_name p). exact (uses_splitter v a p I K).
    + right. right. exists e. split; [|reflexivity]. apply in_or_app. right. apply in_flat_map. exists p. auto.
  - intros [[(b & <- & I)|(p & <- & I)]|[(W & c & U)|(e & K & <-)]].
    + left. left. left. right. exists b. auto.
    + left. left. right. exists p. auto.
    + destruct U as [b I K|b p I J K|p I K]; [left; left; left; right; exists b|left; right; exists b|right; exists p]; split; eauto.
    + apply in_app_or in K. rewrite !in_flat_map in K. destruct K as [(b & I & K)|(p & I & K)].
      * apply in_flat_map in K. destruct K as (p & J & K). left. right. exists b. split; [exact I|]. exists p. eauto.
      * right. exists p. eauto.
Qed.

(** What every step keeps. *)
Definition sound (v : variant_exp) (s : building) : Prop := NoDup (map nd_name (bd_nodes s)) /\ NoDup (bd_links s) /\ Forall (node_of v wf) (bd_nodes s).
Lemma default_sound (Q : node -> Prop) n l : NoDup (map nd_name l) -> Forall Q l -> Q n -> NoDup (map nd_name (default_node n l)) /\ Forall Q (default_node n l).
Proof. intros D F H. rewrite default_names. split; [apply names_nodup, D|]. unfold default_node. destruct (known (nd_name n) l); [exact F|]. apply Forall_app. auto. Qed.
Lemma set_sound (Q : node -> Prop) n l : NoDup (map nd_name l) -> Forall Q l -> Q n -> NoDup (map nd_name (set_node n l)) /\ Forall Q (set_node n l).
Proof.
  intros D F H. rewrite set_names. split; [apply names_nodup, D|]. unfold set_node. destruct (known (nd_name n) l); [|apply Forall_app; auto]. rewrite Forall_forall in *. intros m I. apply in_map_iff in I. destruct I as (x & <- & I). destruct (String.eqb (nd_name x) (nd_name n)); auto.
Qed.
Lemma sink_node v e : In e (fluxes v) -> node_of v wf (plain (ed_target e) (sink_role (ed_target e))).
Proof.
  intro I. unfold plain, sink_role. apply node_target; [exact I|..]; destruct (String.eqb_spec (ed_target e) "outlet") as [E|E]; try congruence; destruct (String.eqb_spec (ed_target e) "atmosphere") as [F|F]; congruence.
Qed.
Lemma forcing_sound v c fs s : (forall f, In f fs -> uses v f c) -> sound v s -> sound v (add_forcing wf c fs s).
Proof.
  intros U. unfold add_forcing. destruct wf eqn:W; [|auto]. apply fold_keeps. intros s' f I (D & L & F). unfold sound in *. cbn [bd_nodes bd_links].
  assert (Q : node_of v wf (plain f RForcing)) by (apply (node_forcing v wf f c W); auto).
  destruct (default_sound (node_of v wf) (plain f RForcing) (bd_nodes s') D F Q) as (D' & F'). repeat split; auto. apply add_link_nodup, L.
Qed.
Lemma component_sound v n s : node_of v wf n -> (forall f, In f (nd_forcing n) -> uses v f (nd_name n)) -> sound v s -> sound v (add_component wf n s).
Proof. intros Q U (D & L & F). apply forcing_sound; [exact U|]. destruct (set_sound _ n (bd_nodes s) D F Q). repeat split; auto. Qed.
Lemma outputs_sound v x p k os s : (forall o, In o os -> In (Edge x (oe_target o) p k (oe_flux o) (oe_instant o)) (fluxes v)) -> sound v s -> sound v (fold_left (add_output x p k) os s).
Proof.
  intro U. apply fold_keeps. intros s' o I (D & L & F). unfold sound. cbn [add_output add_edge ensure_sink bd_nodes bd_links]. destruct (default_sound _ (plain (oe_target o) (sink_role (oe_target o))) (bd_nodes s') D F); [exact (sink_node v _ (U o I))|]. repeat split; auto.
Qed.
Lemma process_sound v b p s : In b (all_bricks v) -> In p (be_processes b) -> sound v s -> sound v (add_process wf b s p).
Proof.
  intros I J K. assert (H : forall e, In e (fluxes_of_process b p) -> In e (fluxes v)) by (intros e M; apply in_or_app; left; apply in_flat_map; exists b; split; [exact I|]; apply in_flat_map; exists p; auto).
  unfold add_process. unfold fluxes_of_process in H. assert (S : sound v (add_forcing wf (be_name b) (pe_forcing p) s)) by (apply forcing_sound; [intros f M; exact (uses_process v f b p I J M)|exact K]).
  destruct (pe_outputs p) as [|o os].
  - destruct S as (D & L & F). unfold sound. cbn [add_edge ensure_sink bd_nodes bd_links]. destruct (default_sound _ (plain "atmosphere" (sink_role "atmosphere")) _ D F); [exact (sink_node v _ (H _ (or_introl eq_refl)))|]. repeat split; auto.
  - apply outputs_sound; [|exact S]. intros q M. apply H. apply (in_map (fun o => Edge (be_name b) (oe_target o) (pe_name p) (pe_kind p) (oe_flux o) (oe_instant o))). exact M.
Qed.
Lemma build_sound v : sound v (build wf v).
Proof.
  unfold build. cbv zeta. refine (fold_keeps _ (sound v) _ _ _ (fold_keeps _ (sound v) _ _ _ (fold_keeps _ (sound v) _ _ _ (fold_keeps _ (sound v) _ _ _ _)))).
  - intros s p I K. unfold add_split_edges. apply outputs_sound.
    + intros o M. apply in_or_app. right. apply in_flat_map. exists p. split; [exact I|]. apply (in_map (fun o => Edge (se_name p) (oe_target o) "" (se_kind p) (oe_flux o) (oe_instant o))). exact M.
    + apply forcing_sound; [|exact K]. intros f M. exact (uses_splitter v f p I M).
  - intros s b I K. refine (fold_keeps _ (sound v) _ _ _ K). intros s' p J. apply process_sound; assumption.
  - intros s p I K. apply component_sound; [exact (node_splitter v wf p I)| |exact K]. intros f M. exact (uses_splitter v f p I M).
  - intros s b I K. apply component_sound; [exact (node_brick v wf b I)| |exact K]. intros f M. exact (uses_brick v f b I M).
  - repeat split; constructor.
Qed.
End Steps.

(** The node of a component stays. *)
Lemma default_kept m n l : In m l -> In m (default_node n l).
Proof. intro I. unfold default_node. destruct (known (nd_name n) l); [exact I|]. apply in_or_app. auto. Qed.
Lemma set_kept m n l : In m l -> nd_name n <> nd_name m -> In m (set_node n l).
Proof.
  intros I N. unfold set_node. destruct (known (nd_name n) l); [|apply in_or_app; auto]. apply in_map_iff. exists m. split; [|exact I]. destruct (String.eqb (nd_name m) (nd_name n)) eqn:E; [|reflexivity]. apply String.eqb_eq in E. congruence.
Qed.
Lemma set_in n l : In n (set_node n l).
Proof.
  unfold set_node. destruct (known (nd_name n) l) eqn:E; [|apply in_or_app; right; left; reflexivity]. apply known_in in E. apply in_map_iff in E. destruct E as (m & E & I). apply in_map_iff. exists m. rewrite E, String.eqb_refl. auto.
Qed.
Definition has (m : node) (s : building) : Prop := In m (bd_nodes s).
Lemma forcing_kept wf m c fs s : has m s -> has m (add_forcing wf c fs s).
Proof. unfold add_forcing. destruct wf; [|auto]. intro H. refine (fold_keeps _ (has m) _ _ _ H). intros s' f _ K. apply default_kept. exact K. Qed.
Lemma outputs_kept m x p k os s : has m s -> has m (fold_left (add_output x p k) os s).
Proof. intro H. refine (fold_keeps _ (has m) _ _ _ H). intros s' f _ K. apply (default_kept _ _ _ K). Qed.
Lemma process_kept wf m b p s : has m s -> has m (add_process wf b s p).
Proof. intro H. unfold add_process. destruct (pe_outputs p); [apply (default_kept m _ _ (forcing_kept wf m _ _ s H))|apply outputs_kept, forcing_kept, H]. Qed.
Lemma components_kept wf m l : forall s, NoDup (map nd_name l) -> In m l -> has m (fold_left (fun s n => add_component wf n s) l s).
Proof.
  intros s D I. apply in_split in I. destruct I as (l1 & l2 & ->). rewrite fold_left_app. simpl. rewrite map_app in D. simpl in D. apply NoDup_remove_2 in D.
  apply (fold_keeps _ (has m)).
  - intros s' n J K. unfold add_component. apply forcing_kept. apply set_kept; [exact K|]. intro E. apply D. rewrite <- E. apply in_or_app. right. apply in_map. exact J.
  - unfold add_component. apply forcing_kept. apply set_in.
Qed.
Lemma fold_map {S X Y} (f : S -> Y -> S) (g : X -> Y) l : forall s, fold_left (fun s x => f s (g x)) l s = fold_left f (map g l) s.
Proof. induction l as [|x l IH]; intro s; simpl; [reflexivity|apply IH]. Qed.
Lemma build_kept wf v m : NoDup (component_names v) -> In m (map brick_node (all_bricks v) ++ map split_node (all_splitters v)) -> has m (build wf v).
Proof.
  intros D I. unfold build. cbv zeta. refine (fold_keeps _ (has m) _ _ _ (fold_keeps _ (has m) _ _ _ _)).
  - intros s p _ K. apply outputs_kept, forcing_kept, K.
  - intros s b _ K. refine (fold_keeps _ (has m) _ _ _ K). intros s' p _ H. apply process_kept, H.
  - rewrite (fold_map (fun s n => add_component wf n s) brick_node), (fold_map (fun s n => add_component wf n s) split_node), <- fold_left_app. apply components_kept; [|exact I].
    rewrite map_app, !map_map. exact D.
Qed.

(** Fluxes by their source. *)
Lemma filter_nothing {A} (p : A -> bool) l : (forall x, In x l -> p x = false) -> filter p l = [].
Proof. induction l as [|x l IH]; intro H; simpl; [reflexivity|]. rewrite (H x) by (left; reflexivity). apply IH. intros; apply H; right; assumption. Qed.
Lemma filter_everything {A} (p : A -> bool) l : (forall x, In x l -> p x = true) -> filter p l = l.
Proof. induction l as [|x l IH]; intro H; simpl; [reflexivity|]. rewrite (H x) by (left; reflexivity). f_equal. apply IH. intros; apply H; right; assumption. Qed.
Lemma brick_source b e : In e (fluxes_of_brick b) -> ed_source e = be_name b.
Proof.
  intro I. apply in_flat_map in I. destruct I as (p & _ & I). unfold fluxes_of_process in I. destruct (pe_outputs p) as [|o os]; [destruct I as [<-|[]]; reflexivity|]. apply in_map_iff in I. destruct I as (x & <- & _). reflexivity.
Qed.
Lemma splitter_source p e : In e (fluxes_of_splitter p) -> ed_source e = se_name p.
Proof. intro I. apply in_map_iff in I. destruct I as (x & <- & _). reflexivity. Qed.
(** The fluxes of all components, each with its name. *)
Definition named (v : variant_exp) : list (string * list edge) := map (fun b => (be_name b, fluxes_of_brick b)) (all_bricks v) ++ map (fun p => (se_name p, fluxes_of_splitter p)) (all_splitters v).
Lemma flat_map_map {A B C} (f : B -> list C) (g : A -> B) l : flat_map f (map g l) = flat_map (fun x => f (g x)) l.
Proof. induction l; simpl; congruence. Qed.
Lemma named_fluxes v : flat_map snd (named v) = fluxes v.
Proof. unfold named, fluxes. rewrite flat_map_app, !flat_map_map. reflexivity. Qed.
Lemma named_names v : map fst (named v) = component_names v.
Proof. unfold named, component_names. rewrite map_app, !map_map. reflexivity. Qed.
Lemma named_source v c es e : In (c, es) (named v) -> In e es -> ed_source e = c.
Proof. unfold named. rewrite in_app_iff, !in_map_iff. intros [(b & E & _)|(p & E & _)] I; inversion E; subst; [exact (brick_source _ _ I)|exact (splitter_source _ _ I)]. Qed.
Lemma filter_source (l : list (string * list edge)) c es : NoDup (map fst l) -> In (c, es) l -> (forall c es e, In (c, es) l -> In e es -> ed_source e = c) ->
  filter (fun e => String.eqb (ed_source e) c) (flat_map snd l) = es.
Proof.
  intros D I H. apply in_split in I. destruct I as (l1 & l2 & ->). rewrite map_app in D. simpl in D. apply NoDup_remove_2 in D. rewrite flat_map_app, filter_app. simpl. rewrite filter_app.
  rewrite (filter_everything _ es); [|intros e I; apply String.eqb_eq; apply (H c es e); [apply in_or_app; right; left; reflexivity|exact I]].
  assert (N : forall k, (forall z, In z k -> In z l1 \/ In z l2) -> filter (fun e => String.eqb (ed_source e) c) (flat_map snd k) = []).
  { intros k K. apply filter_nothing. intros e I. apply in_flat_map in I. destruct I as ((c', es') & J & I). simpl in I. apply String.eqb_neq. intro E. apply D. apply K in J.
    rewrite <- E, (H c' es' e); [|apply in_or_app; simpl; tauto|exact I]. apply in_or_app. destruct J as [J|J]; [left|right]; exact (in_map fst _ _ J). }
  rewrite (N l1), (N l2) by tauto. simpl. apply app_nil_r.
Qed.
Lemma filter_both {A} (p q : A -> bool) l : filter (fun x => p x && q x) l = filter q (filter p l).
Proof. induction l as [|x l IH]; simpl; [reflexivity|]. destruct (p x); simpl; [destruct (q x); congruence|exact IH]. Qed.
