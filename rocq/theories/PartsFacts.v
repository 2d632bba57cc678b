(** The entries of the structure dictionary are added as declared. *)
From Verif Require Import Base Build StructureSpec StructureFacts.
Open Scope list_scope.

(** ** The processes of an entry *)
Section Entry.
(** [P b k e]: the selected brick of [e] is [b] and its selected process has index [k]. *)
Variable P : bset -> option nat -> editor -> Prop.
Hypothesis P_push : forall b k e name type target, P b k e -> known_process type = true ->
  exists e', add_process name type target e = Ok e' /\ P (push_process (mkPr name type (outputs_for target)) b) (Some (length (bs_processes b))) e'.
Hypothesis P_outputs : forall b p e f, P (push_process p b) (Some (length (bs_processes b))) e ->
  exists e', on_process f e = Ok e' /\ P (push_process (on_outputs f p) b) (Some (length (bs_processes b))) e'.
Hypothesis P_on : forall b k e f, P b k e -> exists e', on_brick f e = Ok e' /\ P (f b) k e'.

Lemma outputs_each b : forall l p e, P (push_process p b) (Some (length (bs_processes b))) e ->
  exists e', each (fun t => add_output t Water) l e = Ok e' /\ P (push_process (on_outputs (fun x => x ++ map water_to l) p) b) (Some (length (bs_processes b))) e'.
Proof.
  induction l as [|t l IH]; intros p e H.
  - exists e. split; [reflexivity|]. replace (on_outputs (fun x => x ++ map water_to []) p) with p; [exact H|]. unfold on_outputs. cbn. rewrite app_nil_r. destruct p; reflexivity.
  - destruct (P_outputs b p e (fun l => l ++ [mkOut t Water false false]) H) as (e1&R1&H1). cbn [each]. unfold add_output at 1. rewrite R1. cbn [bind].
    destruct (IH _ _ H1) as (e2&R2&H2). exists e2. split; [exact R2|].
    replace (on_outputs (fun x => x ++ map water_to (t :: l)) p) with (on_outputs (fun x => x ++ map water_to l) (on_outputs (fun l => l ++ [mkOut t Water false false]) p)); [exact H2|].
    unfold on_outputs. cbn. rewrite <- app_assoc. reflexivity.
Qed.
Lemma if_outputs (c : bool) b p e f g : (forall e, g e = on_process f e) -> P (push_process p b) (Some (length (bs_processes b))) e ->
  exists e', (if c then g e else Ok e) = Ok e' /\ P (push_process (if c then on_outputs f p else p) b) (Some (length (bs_processes b))) e'.
Proof. intros Hg H. destruct c; [rewrite Hg; exact (P_outputs b p e f H)|exists e; auto]. Qed.
Lemma process_declared b k e p : P b k e -> known_process (pp_type p) = true -> (forall t, In t (pp_targets p) -> plain_name t) ->
  exists e' k', declare_process p e = Ok e' /\ P (push_process (declared_process p) b) k' e'.
Proof.
  intros H Hk Ht. unfold declare_process. destruct (P_push b k e (pp_name p) (pp_type p) (hd ""%string (pp_targets p)) H Hk) as (e1&R1&H1). rewrite R1. cbn [bind].
  fold (static_kind p).
  destruct (if_outputs (static_kind p) b _ e1 _ outputs_static (fun e => eq_refl) H1) as (e2&R2&H2). rewrite R2. cbn [bind].
  destruct (if_outputs (pp_now p) b _ e2 _ outputs_now (fun e => eq_refl) H2) as (e3&R3&H3). rewrite R3. cbn [bind].
  destruct (outputs_each b (tl (pp_targets p)) _ e3 H3) as (e4&R4&H4). exists e4. eexists. split; [exact R4|].
  match type of H4 with P (push_process ?q b) _ _ => replace (declared_process p) with q; [exact H4|] end.
  unfold declared_process. destruct (pp_targets p) as [|t r] eqn:Et; cbn [hd tl].
  - destruct (static_kind p), (pp_now p); reflexivity.
  - rewrite (outputs_plain t) by (apply Ht; left; reflexivity). destruct (static_kind p), (pp_now p); reflexivity.
Qed.
Lemma more_more b : forall l p, more l (push_process p b) = more (p :: l) b.
Proof. intros l p. unfold more, push_process. cbn. rewrite <- app_assoc. reflexivity. Qed.
Lemma processes_declared : forall l b k e, P b k e -> (forall q, In q l -> known_process (pp_type q) = true /\ forall t, In t (pp_targets q) -> plain_name t) ->
  exists e' k', each declare_process l e = Ok e' /\ P (more (map declared_process l) b) k' e'.
Proof.
  induction l as [|q l IH]; intros b k e H Hq.
  - exists e, k. split; [reflexivity|]. cbn [map]. rewrite more_nil. exact H.
  - destruct (Hq q (or_introl eq_refl)) as [Q1 Q2]. destruct (process_declared b k e q H Q1 Q2) as (e1&k1&R1&H1). cbn [each]. rewrite R1. cbn [bind].
    destruct (IH _ k1 e1 H1) as (e2&k2&R2&H2); [intros q' Hq'; apply Hq; right; exact Hq'|]. exists e2, k2. split; [exact R2|]. rewrite more_more in H2. exact H2.
Qed.
Lemma entry_declared p b k e : P b k e -> (forall q, In q (pt_processes p) -> known_process (pp_type q) = true /\ forall t, In t (pp_targets q) -> plain_name t) ->
  exists e' k', bind (bind (if pt_directly p then set_directly e else Ok e) (fun e => match pt_capacity p with Some x => add_capacity x e | None => Ok e end))
    (each declare_process (pt_processes p)) = Ok e' /\ P (add_declared p b) k' e'.
Proof.
  intros H Hq.
  assert (K1 : exists e1, (if pt_directly p then set_directly e else Ok e) = Ok e1 /\
     P (mkBs (bs_name b) (bs_type b) (bs_parent b) (bs_directly b || pt_directly p) (bs_capacity b) (bs_processes b)) k e1).
  { destruct (pt_directly p).
    - rewrite orb_true_r. exact (P_on b k e _ H).
    - rewrite orb_false_r. exists e. split; [reflexivity|]. destruct b; exact H. }
  destruct K1 as (e1&R1&H1). rewrite R1. cbn [bind]. set (b1 := mkBs _ _ _ _ _ _) in *.
  assert (K2 : exists e2, (match pt_capacity p with Some x => add_capacity x e1 | None => Ok e1 end) = Ok e2 /\
     P (mkBs (bs_name b) (bs_type b) (bs_parent b) (bs_directly b || pt_directly p) (match bs_capacity b with Some x => Some x | None => pt_capacity p end) (bs_processes b)) k e2).
  { destruct (pt_capacity p) as [x|].
    - destruct (P_on b1 k e1 _ H1 : exists e', add_capacity x e1 = Ok e' /\ _) as (e2&R2&H2). exists e2. split; [exact R2|]. unfold b1 in H2. cbn in H2. destruct (bs_capacity b); exact H2.
    - exists e1. split; [reflexivity|]. unfold b1 in H1. destruct (bs_capacity b); exact H1. }
  destruct K2 as (e2&R2&H2). rewrite R2. cbn [bind].
  destruct (processes_declared (pt_processes p) _ k e2 H2 Hq) as (e3&k3&R3&H3). exists e3, k3. split; [exact R3|exact H3].
Qed.
End Entry.

(** ** A brick of the sub-basin under the hand *)
Record basin_focus (st : structure) (i : nat) (b : bset) (k : option nat) (e : editor) : Prop := {
  bc_str : ed_str e = with_basin st (upd_nth i (fun _ => b) (st_basin st));
  bc_sel : ed_brick e = BasinSel i;
  bc_in : (i < length (st_basin st))%nat;
  bc_proc : ed_process e = k }.
Lemma basin_brick_at st i b k e : basin_focus st i b k e -> selected_brick e = Some b.
Proof.
  intros [H1 H2 H3 H4]. unfold selected_brick. rewrite H2, H1. cbn. destruct (nth_error (st_basin st) i) as [x|] eqn:E.
  - rewrite (upd_nth_at _ _ _ _ E). reflexivity.
  - apply nth_error_None in E. lia.
Qed.
Lemma basin_on st i b k e f : basin_focus st i b k e -> exists e', on_brick f e = Ok e' /\ basin_focus st i (f b) k e'.
Proof.
  intros [H1 H2 H3 H4]. unfold on_brick. rewrite H2. eexists. split; [reflexivity|]. constructor; cbn; auto.
  rewrite H1. unfold with_basin. cbn. rewrite upd_nth_twice. reflexivity.
Qed.
Lemma basin_push st i b k e name type target : basin_focus st i b k e -> known_process type = true ->
  exists e', add_process name type target e = Ok e' /\ basin_focus st i (push_process (mkPr name type (outputs_for target)) b) (Some (length (bs_processes b))) e'.
Proof.
  intros H Hk. unfold add_process. rewrite (basin_brick_at _ _ _ _ _ H).
  destruct (basin_on st i b k e (push_process (mkPr name type (outputs_for target))) H) as (e'&->&H'). cbn [bind]. rewrite Hk.
  eexists. split; [reflexivity|]. destruct H' as [A1 A2 A3 A4]. constructor; cbn; auto.
Qed.
Lemma basin_outputs st i b p e f : basin_focus st i (push_process p b) (Some (length (bs_processes b))) e ->
  exists e', on_process f e = Ok e' /\ basin_focus st i (push_process (on_outputs f p) b) (Some (length (bs_processes b))) e'.
Proof.
  intros H. unfold on_process. rewrite (bc_proc _ _ _ _ _ H).
  destruct (basin_on st i (push_process p b) _ e (fun b0 => mkBs (bs_name b0) (bs_type b0) (bs_parent b0) (bs_directly b0) (bs_capacity b0)
    (upd_nth (length (bs_processes b)) (on_outputs f) (bs_processes b0))) H) as (e'&->&H').
  exists e'. split; [reflexivity|]. cbn in H'. rewrite <- (on_process_last b p f). exact H'.
Qed.

(** ** All entries *)
Lemma index_by_name (f : bset -> bset) (name : string) : forall l, NoDup (map bs_name l) -> In name (map bs_name l) ->
  exists i b, index_where (fun b => String.eqb (bs_name b) name) l = Some i /\ nth_error l i = Some b /\
    upd_nth i f l = map (fun b => if String.eqb (bs_name b) name then f b else b) l.
Proof.
  induction l as [|b l IH]; cbn [map]; intros N H; [destruct H|]. inversion N as [|? ? N1 N2]; subst. cbn [index_where]. destruct (String.eqb (bs_name b) name) eqn:E.
  - exists 0%nat, b. split; [reflexivity|]. split; [reflexivity|]. cbn [upd_nth]. f_equal. apply String.eqb_eq in E. clear IH H.
    assert (K : forall d, In d l -> String.eqb (bs_name d) name = false). { intros d Hd. apply String.eqb_neq. intros K. apply N1. rewrite E, <- K. apply in_map, Hd. }
    clear N N1 N2. induction l as [|d l IH]; cbn; [reflexivity|]. rewrite (K d (or_introl eq_refl)), <- IH; auto. intros x Hx. apply K. right. exact Hx.
  - destruct H as [H|H]; [apply String.eqb_neq in E; contradiction|]. destruct (IH N2 H) as (i&d&H1&H2&H3). exists (S i), d. rewrite H1. split; [reflexivity|]. split; [exact H2|].
    cbn [upd_nth]. rewrite H3. reflexivity.
Qed.
Lemma upd_nth_const {X} (f : X -> X) : forall l i x, nth_error l i = Some x -> upd_nth i (fun _ => f x) l = upd_nth i f l.
Proof. induction l as [|y l IH]; intros [|i] x H; try discriminate; cbn in *; [injection H as ->; reflexivity|]. rewrite (IH i x H). reflexivity. Qed.
Lemma upd_nth_same {X} : forall (l : list X) i x, nth_error l i = Some x -> upd_nth i (fun _ => x) l = l.
Proof. induction l as [|y l IH]; intros [|i] x H; try discriminate; cbn in *; [injection H as ->; reflexivity|]. rewrite (IH i x H). reflexivity. Qed.
Lemma with_bricks_same st : with_bricks st (st_bricks st) = st.
Proof. destruct st; reflexivity. Qed.

Lemma part_declared p parts st e : good_parts (p :: parts) st -> ed_str e = st -> exists e', declare_part p e = Ok e' /\ ed_str e' = add_part p st.
Proof.
  intros Hg He. assert (Hq : forall q, In q (pt_processes p) -> known_process (pp_type q) = true /\ forall t, In t (pp_targets q) -> plain_name t).
  { intros q Hq. split; [exact (gp_types _ _ Hg p q (or_introl eq_refl) Hq)|]. intros t Ht. exact (gp_targets _ _ Hg p q t (or_introl eq_refl) Hq Ht). }
  unfold declare_part, add_part. destruct (pt_kind p) eqn:Ek.
  - destruct (index_by_name (add_declared p) (pt_key p) (st_bricks st) (gp_names _ _ Hg) (gp_cover _ _ Hg p (or_introl eq_refl) Ek)) as (i&b&H1&H2&H3).
    unfold select_unit_brick. rewrite He, H1. cbn [bind].
    assert (F : focus st i b None (mkEd st (UnitSel i) None (ed_splitter e))).
    { constructor; cbn; auto; [rewrite (upd_nth_same _ _ _ H2), with_bricks_same; reflexivity|]. apply nth_error_Some. rewrite H2. discriminate. }
    destruct (entry_declared (focus st i)) with (p := p) (b := b) (k := @None nat) (e := mkEd st (UnitSel i) None (ed_splitter e)) as (e'&k'&R&F'); auto.
    + intros b0 k0 e0 nm ty tg H0 Hk. destruct (focus_push st i b0 k0 e0 nm ty tg H0 Hk) as (e1&A1&A2&_). eauto.
    + intros b0 p0 e0 f H0. destruct (focus_outputs st i b0 p0 e0 f H0) as (e1&A1&A2&_). eauto.
    + intros b0 k0 e0 f H0. destruct (focus_on st i b0 k0 e0 f H0) as (e1&A1&A2&_). eauto.
    + exists e'. split; [exact R|]. rewrite (fc_str _ _ _ _ _ F'), (upd_nth_const (add_declared p) _ _ _ H2), H3. reflexivity.
  - cbn [bind]. pose proof (focus_new (pt_key p) (pt_type p) e) as F. rewrite He in F.
    destruct (entry_declared (focus (with_bricks st (st_bricks st ++ [new_brick (pt_key p) (pt_type p)])) (length (st_bricks st)))) with (p := p) (b := new_brick (pt_key p) (pt_type p)) (k := @None nat)
      (e := add_unit_brick (pt_key p) (pt_type p) e) as (e'&k'&R&F'); auto.
    + intros b0 k0 e0 nm ty tg H0 Hk. destruct (focus_push _ _ b0 k0 e0 nm ty tg H0 Hk) as (e1&A1&A2&_). eauto.
    + intros b0 p0 e0 f H0. destruct (focus_outputs _ _ b0 p0 e0 f H0) as (e1&A1&A2&_). eauto.
    + intros b0 k0 e0 f H0. destruct (focus_on _ _ b0 k0 e0 f H0) as (e1&A1&A2&_). eauto.
    + exists e'. split; [exact R|]. rewrite (focus_end (with_bricks st (st_bricks st ++ [new_brick (pt_key p) (pt_type p)])) (st_bricks st) _ _ _ _ eq_refl F'). reflexivity.
  - cbn [bind].
    assert (F : basin_focus (with_basin st (st_basin st ++ [new_brick (pt_key p) (pt_type p)])) (length (st_basin st)) (new_brick (pt_key p) (pt_type p)) None (add_basin_brick (pt_key p) (pt_type p) e)).
    { constructor; cbn; rewrite ?He; auto; [rewrite upd_nth_last; reflexivity|rewrite app_length; cbn; lia]. }
    destruct (entry_declared (basin_focus (with_basin st (st_basin st ++ [new_brick (pt_key p) (pt_type p)])) (length (st_basin st)))) with (p := p) (b := new_brick (pt_key p) (pt_type p)) (k := @None nat)
      (e := add_basin_brick (pt_key p) (pt_type p) e) as (e'&k'&R&F'); auto.
    + intros. eapply basin_push; eauto.
    + intros. eapply basin_outputs; eauto.
    + intros. eapply basin_on; eauto.
    + exists e'. split; [exact R|]. rewrite (bc_str _ _ _ _ _ F'). unfold with_basin. cbn. rewrite upd_nth_last. reflexivity.
Qed.
Lemma part_names p st : map bs_name (st_bricks (add_part p st)) = map bs_name (st_bricks st) ++ (match pt_kind p with UnitPart => [pt_key p] | _ => [] end).
Proof.
  unfold add_part. destruct (pt_kind p); cbn [with_bricks with_basin st_bricks].
  - rewrite app_nil_r, map_map. apply map_ext. intros b. destruct (String.eqb (bs_name b) (pt_key p)); reflexivity.
  - rewrite map_app. reflexivity.
  - rewrite app_nil_r. reflexivity.
Qed.
Lemma good_parts_tail p parts st : good_parts (p :: parts) st -> good_parts parts (add_part p st).
Proof.
  intros [H1 H2 H3 H4 H5 H6]. cbn [map] in H3. inversion H3 as [|? ? N1 N2]; subst. constructor.
  - intros q Hq Hk. rewrite part_names. apply in_or_app. left. apply H1; [right; exact Hq|exact Hk].
  - intros q Hq Hk. rewrite part_names. intros K. apply in_app_or in K as [K|K]; [exact (H2 q (or_intror Hq) Hk K)|].
    destruct (pt_kind p); [destruct K| |destruct K]. destruct K as [K|[]]. apply N1. rewrite K. apply in_map, Hq.
  - exact N2.
  - rewrite part_names. destruct (pt_kind p) eqn:E; rewrite ?app_nil_r; auto.
    rewrite <- rev_involutive, rev_app_distr. apply NoDup_rev. cbn. constructor; [|apply NoDup_rev; exact H4]. rewrite <- in_rev. exact (H2 p (or_introl eq_refl) E).
  - intros q x Hq. apply H5. right. exact Hq.
  - intros q x t Hq. apply H6. right. exact Hq.
Qed.
Lemma parts_declared : forall parts st e, good_parts parts st -> ed_str e = st -> exists e', each declare_part parts e = Ok e' /\ ed_str e' = add_parts parts st.
Proof.
  induction parts as [|p parts IH]; intros st e Hg He.
  - exists e. auto.
  - destruct (part_declared p parts st e Hg He) as (e1&R1&E1). cbn [each]. rewrite R1. cbn [bind]. exact (IH (add_part p st) e1 (good_parts_tail p parts st Hg) E1).
Qed.
Theorem model_built o covers parts : good_names covers -> good_options o -> good_parts parts (base o covers) ->
  declare_model covers o parts = Ok (add_parts parts (base o covers)).
Proof.
  intros Hn Ho Hp. unfold declare_model. destruct (base_built o covers Hn Ho) as (e&R&E). rewrite R. cbn [bind].
  destruct (parts_declared parts _ e Hp E) as (e'&R'&E'). rewrite R'. cbn [bind]. rewrite E'. reflexivity.
Qed.
