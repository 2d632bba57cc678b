(** A catchment built from renamed processes. *)
From Verif Require Import Base BaseFacts Container Direct Network Topology Catchment Build AliasSpec.
From Coq Require Import FunctionalExtensionality.
Open Scope list_scope.

Lemma same_resolve t t' : same_process t t' -> resolve_alias t = resolve_alias t' /\ String.eqb t "overflow" = String.eqb t' "overflow".
Proof. intros H; induction H as [t| | | |t t' _ [A B]]; split; try reflexivity; symmetry; assumption. Qed.

Section Map.
Context {X Y : Type}.
Lemma index_where_map (g : X -> Y) (t : Y -> bool) (t' : X -> bool) l : (forall x, t (g x) = t' x) -> index_where t (map g l) = index_where t' l.
Proof. intros H. induction l as [|x l IH]; cbn; [reflexivity|]. rewrite H, IH. reflexivity. Qed.
Lemma filter_map (g : X -> Y) (t : Y -> bool) (t' : X -> bool) l : (forall x, t (g x) = t' x) -> filter t (map g l) = map g (filter t' l).
Proof. intros H. induction l as [|x l IH]; cbn; [reflexivity|]. rewrite H, IH. destruct (t' x); reflexivity. Qed.
Lemma find_map (g : X -> Y) (t : Y -> bool) (t' : X -> bool) l : (forall x, t (g x) = t' x) -> find t (map g l) = option_map g (find t' l).
Proof. intros H. induction l as [|x l IH]; cbn; [reflexivity|]. rewrite H, IH. destruct (t' x); reflexivity. Qed.
Lemma forallb_map (g : X -> Y) (t : Y -> bool) l : forallb t (map g l) = forallb (fun x => t (g x)) l.
Proof. induction l as [|x l IH]; cbn; [reflexivity|]. rewrite IH. reflexivity. Qed.
Lemma forallb_eq (t t' : X -> bool) l : (forall x, t x = t' x) -> forallb t l = forallb t' l.
Proof. intros H. induction l as [|x l IH]; cbn; [reflexivity|]. rewrite IH, H. reflexivity. Qed.
End Map.

Section Rename.
Variable rn : process -> string.
Hypothesis Hrn : forall p, same_process (pr_type p) (rn p).
Let rp := rename_process rn.
Let rb := rename_brick rn.
Let rs := rename_structure rn.
Variable M : domain.
Let M' := rename rn M.

Lemma r_type p : resolve_alias (pr_type (rp p)) = resolve_alias (pr_type p).
Proof. symmetry. apply (same_resolve _ _ (Hrn p)). Qed.
Lemma r_overflow p : String.eqb (pr_type (rp p)) "overflow" = String.eqb (pr_type p) "overflow".
Proof. symmetry. apply (same_resolve _ _ (Hrn p)). Qed.
Lemma r_air p : to_atmosphere (pr_type (rp p)) = to_atmosphere (pr_type p).
Proof. unfold to_atmosphere. rewrite r_type. reflexivity. Qed.
Lemma r_container b p : process_container (rb b) (pr_type (rp p)) = process_container b (pr_type p).
Proof. unfold process_container. rewrite r_type. reflexivity. Qed.

Lemma r_pick st l : pick (rs st) l = map rb (pick st l).
Proof.
  unfold pick. induction l as [|i l IH]; [reflexivity|]. cbn [map concat]. rewrite map_app, <- IH. f_equal.
  cbn [rs rename_structure st_bricks]. rewrite nth_error_map. fold rb. destruct (nth_error (st_bricks st) i); reflexivity.
Qed.
Lemma r_created st : created (rs st) = map rb (created st).
Proof.
  unfold created. rewrite !r_pick, !map_app. f_equal. f_equal. unfold others. cbn [rs rename_structure st_bricks]. rewrite map_length. reflexivity.
Qed.
Lemma r_unit u : unit_at M' u = rename_unit rn (unit_at M u).
Proof. unfold unit_at. replace dummy_unit with (rename_unit rn dummy_unit) at 1 by reflexivity. unfold M', rename. cbn [dm_units]. apply map_nth. Qed.
Lemma r_str u : un_str (unit_at M' u) = rs (un_str (unit_at M u)).
Proof. rewrite r_unit. reflexivity. Qed.
Lemma r_area : total_area M' = total_area M.
Proof. unfold total_area. unfold M', rename. cbn [dm_units]. rewrite Rsum_map. reflexivity. Qed.
Lemma r_ids : unit_ids M' = unit_ids M.
Proof. unfold unit_ids, M', rename. cbn [dm_units]. rewrite map_length. reflexivity. Qed.
Let pairb (x : nat * bset) := (fst x, rb (snd x)).
Let opairb (x : option nat * bset) := (fst x, rb (snd x)).
Lemma r_items keep u : (forall b, keep (rb b) = keep b) -> unit_items M' keep u = map pairb (unit_items M keep u).
Proof. intros H. unfold unit_items. rewrite r_str, r_created, (filter_map rb keep keep) by exact H. rewrite !map_map. reflexivity. Qed.
Lemma r_concat keep : (forall b, keep (rb b) = keep b) ->
  concat (map (unit_items M' keep) (unit_ids M')) = map pairb (concat (map (unit_items M keep) (unit_ids M))).
Proof. intros H. rewrite r_ids, concat_map, map_map. f_equal. apply map_ext. intros u. apply r_items, H. Qed.
Lemma r_direct : direct_items M' = map pairb (direct_items M).
Proof. apply r_concat. reflexivity. Qed.
Lemma r_solved : solved_items M' = map opairb (solved_items M).
Proof.
  unfold solved_items. rewrite r_concat by reflexivity. rewrite map_app, !map_map. f_equal. unfold M', rename. cbn [dm_basin]. rewrite map_map. reflexivity.
Qed.
Lemma r_direct_index u name : direct_index M' u name = direct_index M u name.
Proof. unfold direct_index. rewrite r_direct. apply index_where_map. reflexivity. Qed.
Lemma r_solved_index o name : solved_index M' o name = solved_index M o name.
Proof. unfold solved_index. rewrite r_solved. apply index_where_map. reflexivity. Qed.
Lemma r_has u name : has_brick (un_str (unit_at M' u)) name = option_map rb (has_brick (un_str (unit_at M u)) name).
Proof. unfold has_brick. rewrite r_str, r_created. apply find_map. reflexivity. Qed.
Lemma r_basin name : basin_brick M' name = option_map rb (basin_brick M name).
Proof. unfold basin_brick. unfold M', rename. cbn [dm_basin]. apply find_map. reflexivity. Qed.

Lemma r_lateral u b o : lateral_outs M' u (rb b) o = lateral_outs M u b o.
Proof.
  unfold lateral_outs. replace (un_receivers (unit_at M' u)) with (un_receivers (unit_at M u)) by (rewrite r_unit; reflexivity).
  f_equal. apply map_ext. intros v. rewrite r_str, r_created, (filter_map rb (is_kind KPack) (is_kind KPack)) by reflexivity. rewrite map_map. f_equal.
  apply map_ext. intros d. rewrite r_direct_index. rewrite !r_unit. reflexivity.
Qed.
Lemma r_unit_outs u b o : unit_outs M' u (rb b) o = unit_outs M u b o.
Proof.
  unfold unit_outs. rewrite r_lateral, r_has, r_solved_index, r_area. rewrite !r_direct_index, !r_solved_index.
  replace (un_area (unit_at M' u)) with (un_area (unit_at M u)) by (rewrite r_unit; reflexivity).
  replace (fraction_of (unit_at M' u) (rb b)) with (fraction_of (unit_at M u) b) by (rewrite r_unit; reflexivity).
  destruct (has_brick (un_str (unit_at M u)) (o_target o)) as [d|]; cbn [option_map]; [|reflexivity].
  replace (fraction_of (unit_at M' u) (rb d)) with (fraction_of (unit_at M u) d) by (rewrite r_unit; reflexivity). reflexivity.
Qed.
Lemma r_basin_outs o : basin_outs M' o = basin_outs M o.
Proof. unfold basin_outs. rewrite r_solved_index. reflexivity. Qed.
Lemma r_process_outs outs p : process_outs outs (rp p) = process_outs outs p.
Proof. unfold process_outs. rewrite r_air. reflexivity. Qed.
Lemma r_unit_outs_fun u b : unit_outs M' u (rb b) = unit_outs M u b.
Proof. extensionality o. apply r_unit_outs. Qed.
Lemma r_basin_outs_fun : basin_outs M' = basin_outs M.
Proof. extensionality o. apply r_basin_outs. Qed.

Lemma r_unit_ok u b o : unit_output_ok M' u (rb b) o = unit_output_ok M u b o.
Proof.
  unfold unit_output_ok. rewrite r_has, r_basin. replace (un_receivers (unit_at M' u)) with (un_receivers (unit_at M u)) by (rewrite r_unit; reflexivity).
  destruct (has_brick _ _); destruct (basin_brick _ _); reflexivity.
Qed.
Lemma r_basin_ok o : basin_output_ok M' o = basin_output_ok M o.
Proof. unfold basin_output_ok. rewrite r_basin. destruct (basin_brick _ _); reflexivity. Qed.
Lemma r_brick_ok ok ok' b : (forall o, ok' o = ok o) -> brick_ok ok' (rb b) = brick_ok ok b.
Proof.
  intros H. unfold brick_ok. cbn [rb rename_brick bs_processes]. rewrite forallb_map. apply forallb_eq. intros p. unfold process_ok.
  fold rp rb. rewrite r_container, r_air. cbn [rp rename_process pr_outputs]. rewrite (forallb_eq ok' ok _ H). reflexivity.
Qed.
Lemma r_buildable : buildable M' = buildable M.
Proof.
  unfold buildable. f_equal.
  - rewrite r_ids. apply forallb_eq. intros u. rewrite r_str, r_created, forallb_map. apply forallb_eq. intros b. apply r_brick_ok. apply r_unit_ok.
  - unfold M', rename at 2. cbn [dm_basin]. rewrite forallb_map. apply forallb_eq. intros b. apply r_brick_ok. apply r_basin_ok.
Qed.
Lemma r_known : all_known M' = all_known M.
Proof.
  unfold all_known. rewrite !forallb_app. f_equal.
  - unfold M', rename. cbn [dm_basin]. rewrite forallb_map. reflexivity.
  - rewrite r_ids. induction (unit_ids M) as [|u l IH]; [reflexivity|]. cbn [map concat]. rewrite !forallb_app, IH. f_equal.
    rewrite r_str, r_created, forallb_map. reflexivity.
Qed.

Lemma r_processes outs b : built_processes outs (rb b) = built_processes outs b.
Proof.
  unfold built_processes. cbn [rb rename_brick bs_processes]. rewrite map_map. apply map_ext. intros p. fold rp rb. rewrite r_container, r_process_outs. reflexivity.
Qed.
Lemma r_overflow_index outs l first : overflow_index outs (map rp l) first = overflow_index outs l first.
Proof.
  revert first. induction l as [|p l IH]; intros first; [reflexivity|]. cbn [map overflow_index]. rewrite r_process_outs, IH, r_overflow. reflexivity.
Qed.
Lemma r_node x : build_node M' (pairb x) = build_node M x.
Proof.
  destruct x as [u b]. unfold build_node, pairb. cbn [fst snd]. rewrite r_unit_outs_fun, r_processes.
  replace (without_area (unit_at M' u) (rb b)) with (without_area (unit_at M u) b) by (rewrite r_unit; reflexivity).
  cbn [rb rename_brick bs_capacity bs_processes]. f_equal. f_equal. extensionality c. destruct c as [|c]; [|reflexivity]. fold rp. apply r_overflow_index.
Qed.
Lemma r_conns i x : build_conns M' i (opairb x) = build_conns M i x.
Proof.
  unfold build_conns, opairb. cbn [fst snd]. cbn [rb rename_brick bs_processes]. rewrite map_map. f_equal. apply map_ext. intros p. fold rp rb.
  rewrite r_overflow, r_process_outs. f_equal. f_equal. unfold item_outs. cbn [fst snd]. destruct (fst x); [apply r_unit_outs_fun|apply r_basin_outs_fun].
Qed.
Lemma r_negative b : may_be_negative (rb b) = may_be_negative b.
Proof.
  unfold may_be_negative. cbn [rb rename_brick bs_processes]. induction (bs_processes b) as [|p l IH]; [reflexivity|]. cbn [map existsb]. fold rp. rewrite r_type. f_equal. exact IH.
Qed.
Lemma r_index {Y} (f g : nat -> option nat * bset -> Y) : (forall i x, f i (opairb x) = g i x) -> forall l i, with_index f i (map opairb l) = with_index g i l.
Proof. intros H l. induction l as [|x l IH]; intros i; [reflexivity|]. cbn [map with_index]. rewrite H, IH. reflexivity. Qed.
Lemma r_build : build M' = build M.
Proof.
  unfold build. rewrite r_known, r_buildable. destruct (negb (all_known M)); [reflexivity|]. destruct (buildable M); [|reflexivity]. f_equal. f_equal.
  - rewrite r_direct, map_map. apply map_ext. apply r_node.
  - unfold build_net. f_equal.
    + rewrite r_solved, map_map. apply map_ext. intros x. cbn [opairb snd]. rewrite r_negative. reflexivity.
    + f_equal. rewrite r_solved. apply r_index. apply r_conns.
Qed.
End Rename.
