(** When the direct path takes no more than the container holds. *)
From Verif Require Import Base BaseFacts Container ContainerFacts Direct NetworkSpec DirectSpec DirectFacts.

Section Lim.
Variables (dt content stat : R) (cap : option R) (ov : option nat) (o : list nat) (r r' : nat -> R).
Hypothesis Hdt : 0 < dt.
Hypothesis Hno : NoDup o.
Hypothesis Hov : forall k, ov = Some k -> In k o.
Hypothesis Hcap : forall c, cap = Some c -> 0 <= c.
Hypothesis Hok : apply_constraints dt content stat cap ov false o [] r = Ok r'.
Let L := content + stat.
Let rc := clamp_rates (clamp_rates r o) [].
Let out := Rsum rc o.

Lemma rc_nonneg k : In k o -> 0 <= rc k.
Proof. intros H. apply (clamped_nonneg r o []). auto. Qed.
Lemma rc_le k : rc k <= Rmax 0 (r k).
Proof.
  unfold rc, clamp_rates at 1. simpl. unfold clamp_rates. destruct (mem k o).
  - destruct (Rltb_spec (r k) 0); unfold Rmax; destruct (Rle_dec 0 (r k)); lra.
  - unfold Rmax; destruct (Rle_dec 0 (r k)); lra.
Qed.
Lemma out_nonneg : 0 <= out.
Proof. apply Rsum_nonneg. apply rc_nonneg. Qed.

(** Possible results: unchanged, limited, or an overflow. *)
Lemma lim_cases :
  (r' = rc /\ (out = 0 \/ out * dt <= L)) \/
  (0 < out /\ r' = limit_outgoing dt content stat 0 out o rc /\ L < out * dt) \/
  (exists c k, cap = Some c /\ ov = Some k /\ c < L - out * dt /\ r' = upd rc k ((L - out * dt - c) / dt)).
Proof.
  pose proof out_nonneg as Ho. pose proof Hok as H. unfold apply_constraints in H.
  destruct (outgoing_too_high r o); [discriminate|]. cbv zeta in H. fold rc in H. fold out in H.
  change (Rsum rc []) with 0 in H. cbn [negb andb] in H.
  assert (E0 : content + stat + (0 - out) * dt = L - out * dt) by (unfold L; ring). rewrite E0 in H.
  set (Q := if Rltb (0 - out) 0 && Rltb (L - out * dt) 0 then _ else rc) in H.
  assert (HQ : (Q = rc /\ (out = 0 \/ out * dt <= L)) \/
               (0 < out /\ L < out * dt /\ Q = limit_outgoing dt content stat 0 out o rc)).
  { unfold Q. destruct (Rltb_spec (0 - out) 0); cbn [andb].
    - destruct (Rltb_spec (L - out * dt) 0).
      + right. split; [lra|]. split; [lra|reflexivity].
      + left. split; [reflexivity|]. right; lra.
    - left. split; [reflexivity|]. left; lra. }
  assert (HX : (exists c k, cap = Some c /\ ov = Some k /\ c < L - out * dt /\ r' = upd rc k ((L - out * dt - c) / dt)) \/ r' = Q).
  { destruct cap as [c|] eqn:Ec.
    - destruct (Rltb_spec c (L - out * dt)) as [Hlt|Hge].
      + pose proof (Hcap c eq_refl) as Hc0.
        assert (EQ : Q = rc). { destruct HQ as [(E&_)|(_&Hl&_)]; [exact E|lra]. }
        destruct ov as [k|] eqn:Ek.
        * injection H as <-. left. exists c, k. rewrite EQ. auto.
        * destruct (Rltb_spec c (content + stat)); [discriminate|]. injection H as <-. right.
          reflexivity.
      + injection H as <-. auto.
    - injection H as <-. auto. }
  destruct HX as [HX|HX]; [right; right; exact HX|].
  destruct HQ as [(E&Hl)|(Hp&Hl&E)].
  - left. split; [congruence|exact Hl].
  - right; left. split; [exact Hp|]. split; [congruence|lra].
Qed.

(** Value of a limited rate. *)
Lemma limited_value k : In k o -> 0 < out -> L < out * dt ->
  let v := limit_outgoing dt content stat 0 out o rc k in
  v <= EPSILON_D \/ v = 0 \/ v = rc k * (L / dt / out).
Proof.
  intros Hk Hp Hl. cbv zeta. unfold limit_outgoing. rewrite (proj2 (mem_in k o) Hk).
  pose proof (rc_nonneg k Hk) as Hr.
  unfold NearlyZero. destruct (Rleb_spec (Rabs (rc k)) EPSILON_D) as [He|He].
  - left. rewrite Rabs_right in He by lra. exact He.
  - right. unfold NearlyEqual. match goal with |- context[Rleb ?a PRECISION] => destruct (Rleb_spec a PRECISION) end.
    + left; reflexivity.
    + right. fold L. rewrite Rabs_right.
      2:{ apply Rle_ge. apply Rmult_le_pos; [exact Hr|]. left; apply Rinv_0_lt_compat; exact Hp. }
      field. split; lra.
Qed.

Lemma moved_tiny r0 : r0 <= EPSILON_D -> moved dt r0 = 0.
Proof.
  intros H. unfold moved. pose proof EPSILON_D_lt. destruct (Rltb_spec PRECISION r0); [lra|reflexivity].
Qed.

(** What is withdrawn never exceeds what the limiter sees. *)
Lemma lim_moved : Rsum (fun k => moved dt (r' k)) o <= Rmax 0 L.
Proof.
  assert (HM : forall k, In k o -> moved dt (rc k) <= rc k * dt) by (intros; apply moved_le; [exact Hdt|apply rc_nonneg; assumption]).
  assert (HS : Rsum (fun k => moved dt (rc k)) o <= out * dt).
  { unfold out. rewrite <- Rsum_scal_r. apply Rsum_le. exact HM. }
  destruct lim_cases as [(E&Hl)|[(Hp&E&Hl)|(c&k&Ec&Ek&Hlt&E)]]; rewrite E.
  - apply Rle_trans with (out * dt); [exact HS|]. destruct Hl as [->|Hl].
    + rewrite Rmult_0_l. apply Rmax_l.
    + apply Rle_trans with L; [exact Hl|apply Rmax_r].
  - destruct (Rle_dec 0 L) as [HL|HL].
    + apply Rle_trans with (Rsum (fun k => rc k * (L / out)) o).
      * apply Rsum_le. intros k Hk. pose proof (rc_nonneg k Hk) as Hr.
        assert (Hq : 0 <= rc k * (L / out)). { apply Rmult_le_pos; [exact Hr|]. apply Rmult_le_pos; [exact HL|]. left; apply Rinv_0_lt_compat; exact Hp. }
        destruct (limited_value k Hk Hp Hl) as [Hv|[Hv|Hv]].
        -- rewrite moved_tiny by exact Hv. exact Hq.
        -- rewrite Hv, moved_tiny; [exact Hq|]. pose proof EPSILON_D_pos; lra.
        -- rewrite Hv. eapply Rle_trans; [apply moved_le; [exact Hdt|]|].
           ++ apply Rmult_le_pos; [exact Hr|]. apply Rmult_le_pos; [|left; apply Rinv_0_lt_compat; exact Hp].
              apply Rmult_le_pos; [exact HL|left; apply Rinv_0_lt_compat; exact Hdt].
           ++ right. field. split; lra.
      * rewrite Rsum_scal_r. fold out. apply Rle_trans with L; [right; field; lra|apply Rmax_r].
    + rewrite Rsum_zero; [apply Rmax_l|]. intros k Hk. pose proof (rc_nonneg k Hk) as Hr.
      destruct (limited_value k Hk Hp Hl) as [Hv|[Hv|Hv]].
      * apply moved_tiny; exact Hv.
      * rewrite Hv. apply moved_tiny. pose proof EPSILON_D_pos; lra.
      * rewrite Hv. apply moved_tiny. pose proof EPSILON_D_pos.
        assert (L / dt / out <= 0).
        { apply Ropp_le_cancel. rewrite Ropp_0. replace (- (L / dt / out)) with ((- L) / dt / out) by (field; lra).
          repeat apply Rmult_le_pos; try (left; apply Rinv_0_lt_compat; lra). lra. }
        nra.
  - pose proof (Hcap c Ec) as Hc.
    assert (Hin : In k o) by (apply Hov; exact Ek).
    assert (Hx : 0 <= (L - out * dt - c) / dt).
    { apply Rmult_le_pos; [lra|left; apply Rinv_0_lt_compat; exact Hdt]. }
    assert (Hsum : Rsum (fun j => moved dt (upd rc k ((L - out * dt - c) / dt) j)) o <= Rsum (upd rc k ((L - out * dt - c) / dt)) o * dt).
    { rewrite <- Rsum_scal_r. apply Rsum_le. intros j Hj. apply moved_le; [exact Hdt|].
      unfold upd. destruct (Nat.eqb j k); [exact Hx|apply rc_nonneg; exact Hj]. }
    rewrite (Rsum_upd rc k _ o Hno Hin) in Hsum. fold out in Hsum.
    apply Rle_trans with L; [|apply Rmax_r].
    eapply Rle_trans; [exact Hsum|]. pose proof (rc_nonneg k Hin).
    assert (E2 : (out - rc k + (L - out * dt - c) / dt) * dt = L - c - rc k * dt) by (field; lra).
    rewrite E2. assert (0 <= rc k * dt) by (apply Rmult_le_pos; lra). lra.
Qed.

(** Without capacity no rate is raised. *)
Lemma lim_le k : cap = None -> In k o -> r' k <= Rmax 0 (r k).
Proof.
  intros Ec Hk. destruct lim_cases as [(E&Hl)|[(Hp&E&Hl)|(c&k'&Ec'&_)]]; [| |congruence].
  - rewrite E. apply rc_le.
  - rewrite E. pose proof (rc_nonneg k Hk) as Hr. pose proof (rc_le k) as Hle.
    unfold limit_outgoing. rewrite (proj2 (mem_in k o) Hk).
    destruct (NearlyZero (rc k) EPSILON_D); [exact Hle|].
    destruct (NearlyEqual _ _ PRECISION); [lra|].
    fold L. rewrite Rabs_right.
    2:{ apply Rle_ge. apply Rmult_le_pos; [exact Hr|left; apply Rinv_0_lt_compat; exact Hp]. }
    assert (0 <= rc k / out) by (apply Rmult_le_pos; [exact Hr|left; apply Rinv_0_lt_compat; exact Hp]).
    assert ((L + (0 - out) * dt) / dt <= 0).
    { apply Ropp_le_cancel. rewrite Ropp_0. replace (- ((L + (0 - out) * dt) / dt)) with ((out * dt - L) / dt) by (field; lra).
      apply Rmult_le_pos; [lra|left; apply Rinv_0_lt_compat; exact Hdt]. }
    nra.
Qed.
End Lim.

Lemma sub_dyn_stat x w : c_stat (sub_dyn x w) = c_stat w.
Proof. unfold sub_dyn; destruct (c_infinite w); reflexivity. Qed.
Lemma add_stat_stat x w : c_infinite w = false -> c_stat (add_stat x w) = c_stat w + x.
Proof. unfold add_stat; intros ->; reflexivity. Qed.

Lemma apply_dconn_stat B dt c s k j : c_infinite (ds_cont s j) = false ->
  c_stat (ds_cont (apply_dconn B dt c s k) j) =
  c_stat (ds_cont s j) + (if into B k j then ds_amount (apply_dconn B dt c s k) k else 0).
Proof.
  intros Hinf.
  assert (Ea : ds_amount (apply_dconn B dt c s k) k =
    dweighted (dconn_at B k) (if GreaterThan (if Rltb (ds_rate s k) 0 then 0 else ds_rate s k) 0 PRECISION
       then (if Rltb (ds_rate s k) 0 then 0 else ds_rate s k) * dt else 0)).
  { unfold apply_dconn; cbn [ds_amount]. unfold upd. rewrite Nat.eqb_refl. reflexivity. }
  rewrite Ea. unfold apply_dconn; cbn [ds_cont]. set (a := dweighted _ _). set (mv := GreaterThan _ 0 PRECISION).
  unfold into. set (c1 := match d_tgt (dconn_at B k) with Inside c' => _ | _ => _ end).
  assert (H1 : c_stat (c1 j) = c_stat (ds_cont s j) +
     (if match d_tgt (dconn_at B k) with Inside c' => Nat.eqb c' j | _ => false end then a else 0)).
  { unfold c1; destruct (d_tgt (dconn_at B k)) as [c'| |]; try lra.
    unfold updc. rewrite (Nat.eqb_sym c' j). destruct (Nat.eqb_spec j c'); [|lra].
    subst c'. apply add_stat_stat; assumption. }
  destruct mv; [|exact H1].
  unfold updc. destruct (Nat.eqb_spec j c); [|exact H1]. subst c. rewrite sub_dyn_stat. exact H1.
Qed.

Lemma apply_outs_stat B dt c : forall l s j, NoDup l -> c_infinite (ds_cont s j) = false ->
  let s' := fold_left (apply_dconn B dt c) l s in
  c_stat (ds_cont s' j) = c_stat (ds_cont s j) + Rsum (fun k => if into B k j then ds_amount s' k else 0) l.
Proof.
  induction l as [|k l IH]; intros s j Hnd Hinf; simpl; [lra|].
  inversion Hnd as [|? ? Hk Hnd']; subst.
  assert (Hinf' : c_infinite (ds_cont (apply_dconn B dt c s k) j) = false).
  { destruct (apply_dconn_kind B dt c s k j) as (E&_). congruence. }
  specialize (IH _ j Hnd' Hinf'). cbn zeta in IH. rewrite IH, apply_dconn_stat by exact Hinf.
  destruct (apply_outs B dt c l (apply_dconn B dt c s k) Hnd') as (_&I2&_). cbn zeta in I2.
  rewrite (proj2 (I2 k Hk)). lra.
Qed.

Lemma Rsum_over_piece (f : nat -> R) (l m : list nat) : NoDup l -> NoDup m -> (forall k, In k m -> In k l) ->
  (forall k, In k l -> ~ In k m -> f k = 0) -> Rsum f l = Rsum f m.
Proof.
  intros Hl Hm Hsub H0.
  rewrite (Rsum_filter_split f (fun k => mem k m) l).
  rewrite (Rsum_zero f (filter (fun k => negb (mem k m)) l)).
  - rewrite Rplus_0_r. apply Rsum_perm. apply Permutation.NoDup_Permutation.
    + apply NoDup_filter; exact Hl.
    + exact Hm.
    + intros k. rewrite filter_In, mem_in. split; [tauto|auto].
  - intros k Hk. apply filter_In in Hk. destruct Hk as (Hk & Hn). apply negb_true_iff, mem_not_in in Hn. auto.
Qed.

Section Safe.
Variables (B : dbrick) (dt : R) (inp : dinputs) (f : dlaw) (c : nat).
Hypothesis HB : dvalid B.
Hypothesis Hdt : 0 < dt.
Hypothesis Hc : In c (db_conts B).

(** Excess of what the limiter counts over what the container really holds. *)
Definition overcount (s : dstate) : R := dinputs_static B inp s c - c_stat (ds_cont s c).
Definition fine (s : dstate) : Prop :=
  c_infinite (ds_cont s c) = false /\ c_allowneg (ds_cont s c) = false.

Definition stale (s : dstate) (l : list dproc) : R :=
  Rsum (fun k => if into B k c then ds_amount s k else 0) (concat (map p_conns l)).

Lemma requested_bound s p : (asks_within B dt f c) -> fine s -> In p (db_procs B) -> p_cont p = c ->
  Rsum (fun k => Rmax 0 (requested B f s p k)) (p_conns p) * dt <= Rmax 0 (level (ds_cont s c)).
Proof.
  intros (_&Ha) (Hi&_) Hp Hpc.
  assert (E : forall k, In k (p_conns p) -> requested B f s p k =
     if LessThanOrEqual (level (ds_cont s c)) 0 PRECISION then 0 else f (ds_cont s) k).
  { intros k Hk. unfold requested. rewrite (proj2 (mem_in k _) Hk), Hpc. unfold content_with_changes. rewrite Hi. reflexivity. }
  rewrite (Rsum_ext_in _ (fun k => Rmax 0 (if LessThanOrEqual (level (ds_cont s c)) 0 PRECISION then 0 else f (ds_cont s) k))).
  2:{ intros k Hk. rewrite E by exact Hk. reflexivity. }
  destruct (LessThanOrEqual (level (ds_cont s c)) 0 PRECISION).
  - rewrite Rsum_zero; [rewrite Rmult_0_l; apply Rmax_l|]. intros. apply Rmax_left; lra.
  - apply Ha; assumption.
Qed.

Lemma process_safe s p s' : In p (db_procs B) -> fine s -> 0 <= level (ds_cont s c) ->
  (p_cont p = c -> overcount s <= 0 \/ (asks_within B dt f c)) ->
  dprocess B dt inp f s p = Ok s' ->
  (forall k, In k (concat (map p_conns (db_procs B))) -> 0 <= d_frac (dconn_at B k)) ->
  0 <= level (ds_cont s' c) /\ fine s' /\
  (forall k, ~ In k (p_conns p) -> ds_amount s' k = ds_amount s k) /\
  overcount s' = overcount s - Rsum (fun k => if into B k c then ds_amount s k else 0) (p_conns p).
Proof.
  intros Hp (Hi&Ha) Hl Hcond H Hfrac. unfold dprocess in H. apply bind_ok in H. destruct H as (r & Hr & H). injection H as H.
  assert (Hnd : NoDup (p_conns p)) by (apply (concat_NoDup_piece p_conns _ p (dv_nodup B HB) Hp)).
  assert (Hall : forall k, In k (p_conns p) -> In k (concat (map p_conns (db_procs B)))).
  { intros k Hk. apply in_concat. exists (p_conns p). split; [apply in_map; exact Hp|exact Hk]. }
  destruct (apply_outs B dt (p_cont p) (p_conns p) (mkDS (ds_cont s) r (ds_amount s)) Hnd) as (Q1&Q2&Q3&Q4).
  cbn zeta in *. cbn [ds_cont ds_rate ds_amount] in *. rewrite H in *.
  pose proof (apply_outs_stat B dt (p_cont p) (p_conns p) (mkDS (ds_cont s) r (ds_amount s)) c Hnd Hi) as Hst.
  cbn zeta in Hst. cbn [ds_cont] in Hst. rewrite H in Hst.
  assert (Hamt : forall k, In k (p_conns p) -> 0 <= ds_amount s' k).
  { intros k Hk. rewrite (proj2 (Q1 k Hk)). pose proof (moved_nonneg dt (r k) Hdt).
    pose proof (Hfrac k (Hall k Hk)). unfold dweighted. assert (0 <= moved dt (r k) * d_frac (dconn_at B k)) by (apply Rmult_le_pos; assumption).
    destruct (d_tgt (dconn_at B k)); [destruct (Reqb _ _)|destruct (Rltb _ _)|destruct (Reqb _ _)]; assumption. }
  split; [|split; [|split]].
  - rewrite (Q4 c Hi).
    assert (Hin : 0 <= Rsum (fun k => if into B k c then ds_amount s' k else 0) (p_conns p)).
    { apply Rsum_nonneg. intros k Hk. destruct (into B k c); [apply Hamt; exact Hk|lra]. }
    destruct (Nat.eqb_spec c (p_cont p)) as [E|E]; [|lra].
    symmetry in E. specialize (Hcond E). rewrite E in *.
    unfold dconstrain in Hr. rewrite Hi, Ha in Hr.
    set (rates := blocked_rates B inp c (requested B f s p)) in Hr.
    assert (Hno : NoDup (douts B c)) by (apply douts_NoDup; apply dv_nodup; exact HB).
    assert (Hsub : forall k, In k (p_conns p) -> In k (douts B c)).
    { intros k Hk. apply douts_in. exists p; auto. }
    assert (Hmv : Rsum (fun k => moved dt (r k)) (p_conns p) <= Rmax 0 (level (ds_cont s c))).
    { destruct Hcond as [Hoc|Hw].
      - apply Rle_trans with (Rsum (fun k => moved dt (r k)) (douts B c)).
        + set (g := fun k => if mem k (p_conns p) then moved dt (r k) else 0).
          assert (Eg : Rsum g (douts B c) = Rsum g (p_conns p)).
          { apply Rsum_over_piece; [exact Hno|exact Hnd|exact Hsub|].
            intros k Hk Hn; apply mem_not_in in Hn; unfold g; rewrite Hn; reflexivity. }
          assert (Eg2 : Rsum (fun k => moved dt (r k)) (p_conns p) = Rsum g (p_conns p)).
          { apply Rsum_ext_in. intros k Hk. unfold g. rewrite (proj2 (mem_in k _) Hk). reflexivity. }
          rewrite Eg2, <- Eg. apply Rsum_le. intros k Hk. unfold g.
          destruct (mem k (p_conns p)); [lra|apply moved_nonneg; exact Hdt].
        + eapply Rle_trans; [apply (lim_moved dt _ _ _ _ _ _ _ Hdt Hno (dv_ov B HB c) (fun x => dv_cap B HB c x) Hr)|].
          apply Rmax_lub; [apply Rmax_l|]. eapply Rle_trans; [|apply Rmax_r].
          unfold overcount in Hoc. unfold level. lra.
      - pose proof Hw as (Hcap & _). rewrite Hcap in Hr.
        eapply Rle_trans; [|apply (requested_bound s p Hw (conj Hi Ha) Hp E)].
        rewrite <- Rsum_scal_r. apply Rsum_le. intros k Hk.
        assert (Hrk : r k <= Rmax 0 (rates k)).
        { eapply lim_le; try exact Hr; try exact Hdt; try exact Hno; try exact (dv_ov B HB c);
            try (intros; discriminate); try reflexivity. exact (Hsub k Hk). }
        assert (Hrr : Rmax 0 (rates k) <= Rmax 0 (requested B f s p k)).
        { unfold rates, blocked_rates. destruct (i_blocked inp c); [|lra]. destruct (mem k (douts B c)); [|lra].
          rewrite Rmax_left by lra. apply Rmax_l. }
        unfold moved. destruct (Rltb_spec PRECISION (r k)).
        + apply Rmult_le_compat_r; lra.
        + apply Rmult_le_pos; [apply Rmax_l|lra]. }
    rewrite Rmax_right in Hmv by exact Hl. lra.
  - destruct (Q3 c) as (K1&K2&_). split; congruence.
  - intros k Hk. apply Q2; exact Hk.
  - unfold overcount, dinputs_static. rewrite Hst.
    assert (E : Rsum (fun k => ds_amount s' k - ds_amount s k) (dins B c)
              = Rsum (fun k => if into B k c then ds_amount s' k - ds_amount s k else 0) (p_conns p)).
    { transitivity (Rsum (fun k => if into B k c then ds_amount s' k - ds_amount s k else 0) (seq 0 (length (db_conns B)))).
      - unfold dins. rewrite Rsum_filter_if. reflexivity.
      - apply Rsum_over_piece; [apply seq_NoDup|exact Hnd| |].
        + intros k Hk. apply in_seq. pose proof (proj1 (dv_range B HB k) (Hall k Hk)). lia.
        + intros k _ Hn. rewrite (proj2 (Q2 k Hn)). destruct (into B k c); lra. }
    rewrite Rsum_minus in E.
    assert (E2 : Rsum (fun k => if into B k c then ds_amount s' k - ds_amount s k else 0) (p_conns p)
       = Rsum (fun k => if into B k c then ds_amount s' k else 0) (p_conns p)
       - Rsum (fun k => if into B k c then ds_amount s k else 0) (p_conns p)).
    { rewrite <- Rsum_minus. apply Rsum_ext_in. intros k _. destruct (into B k c); lra. }
    change (fun x => ds_amount s' x) with (ds_amount s') in E. change (fun x => ds_amount s x) with (ds_amount s) in E.
    lra.
Qed.
End Safe.

Lemma procs_safe B dt inp f c : dvalid B -> 0 < dt -> In c (db_conts B) ->
  (forall k, In k (concat (map p_conns (db_procs B))) -> 0 <= d_frac (dconn_at B k)) ->
  forall l s s' done, db_procs B = done ++ l -> fine c s -> 0 <= level (ds_cont s c) ->
  (forall l1 p l2, l = l1 ++ p :: l2 -> p_cont p = c ->
     (forall k, In k (concat (map p_conns (p :: l2))) -> into B k c = true -> ds_amount s k = 0)
     \/ asks_within B dt f c) ->
  overcount B inp c s <= stale B c s l \/ asks_within B dt f c ->
  dprocesses B dt inp f s l = Ok s' ->
  0 <= level (ds_cont s' c).
Proof.
  intros HB Hdt Hc Hfr. induction l as [|p l IH]; cbn [dprocesses]; intros s s' don Hd Hf Hl Hst Hov H.
  - injection H as <-; exact Hl.
  - apply bind_ok in H. destruct H as (s1 & H1 & H2).
    assert (Hp : In p (db_procs B)) by (rewrite Hd; apply in_or_app; right; left; reflexivity).
    assert (Hcond : p_cont p = c -> overcount B inp c s <= 0 \/ asks_within B dt f c).
    { intros E. destruct (Hst [] p l eq_refl E) as [Hz|Hw]; [|auto]. destruct Hov as [Hov|Hw]; [|auto].
      left. eapply Rle_trans; [exact Hov|]. right. unfold stale. apply Rsum_zero. intros k Hk.
      destruct (into B k c) eqn:Ek; [apply Hz; assumption|reflexivity]. }
    destruct (process_safe B dt inp f c HB Hdt s p s1 Hp Hf Hl Hcond H1 Hfr) as (A1&A2&A3&A4).
    assert (Hdj : forall k, In k (concat (map p_conns l)) -> ~ In k (p_conns p)).
    { intros k Hk Hk'. pose proof (dv_nodup B HB) as Hn. rewrite Hd, map_app, concat_app in Hn.
      apply NoDup_app_r in Hn. cbn [map concat] in Hn. exact (NoDup_app_disj _ _ Hn k Hk' Hk). }
    apply (IH s1 s' (don ++ [p])); auto.
    + rewrite Hd, <- app_assoc. reflexivity.
    + intros l1 q l2 El Eq. destruct (Hst (p :: l1) q l2 (f_equal (cons p) El) Eq) as [Hz|Hw]; [left|auto].
      intros k Hk Hik. rewrite A3; [apply Hz; assumption|]. apply Hdj.
      rewrite El, map_app, concat_app. apply in_or_app; right; exact Hk.
    + destruct Hov as [Hov|Hw]; [left|auto]. rewrite A4.
      unfold stale in *. cbn [map concat] in Hov. rewrite Rsum_app in Hov.
      assert (E : Rsum (fun k => if into B k c then ds_amount s1 k else 0) (concat (map p_conns l))
                = Rsum (fun k => if into B k c then ds_amount s k else 0) (concat (map p_conns l))).
      { apply Rsum_ext_in. intros k Hk. rewrite A3; [reflexivity|apply Hdj; exact Hk]. }
      rewrite E. lra.
Qed.

(** One step of the brick: the level the books give is not negative. *)
Lemma direct_safe B dt inp f c s s1 : dvalid B -> 0 < dt -> In c (db_conts B) ->
  (forall k, (k < length (db_conns B))%nat -> 0 <= d_frac (dconn_at B k)) ->
  c_infinite (ds_cont s c) = false -> c_allowneg (ds_cont s c) = false ->
  0 <= level (ds_cont s c) -> 0 <= i_forced inp c -> 0 <= i_plain inp c ->
  asks_within B dt f c \/ seen_once B inp c s ->
  dprocesses B dt inp f (take_inputs B inp s) (db_procs B) = Ok s1 ->
  0 <= level (ds_cont s1 c).
Proof.
  intros HB Hdt Hc Hfr Hi Ha Hl Hf Hp Hcond H1.
  destruct (take_kind B inp s c) as (L1&L2&_).
  apply (procs_safe B dt inp f c HB Hdt Hc) with (l := db_procs B) (s := take_inputs B inp s) (done := []); auto.
  - intros k Hk. apply Hfr. apply dv_range; assumption.
  - split; congruence.
  - rewrite take_level by assumption. lra.
  - intros l1 p l2 E Ep. destruct Hcond as [Hw|(_&_&Hz)]; [right; exact Hw|left].
    intros k Hk Hik. unfold into in Hik. destruct (d_tgt (dconn_at B k)) as [c'| |] eqn:Et; try discriminate.
    apply Nat.eqb_eq in Hik; subst c'. cbn [ds_amount]. apply (Hz l1 p l2 E Ep k Hk Et).
  - destruct Hcond as [Hw|(Hs&Hst&_)]; [right; exact Hw|left].
    unfold overcount, dinputs_static, stale.
    assert (E : Rsum (fun k => if into B k c then ds_amount s k else 0) (concat (map p_conns (db_procs B)))
                = Rsum (ds_amount s) (dins B c)).
    { unfold dins. rewrite Rsum_filter_if. apply Rsum_perm.
      apply Permutation.NoDup_Permutation; [apply dv_nodup; exact HB|apply seq_NoDup|].
      intros k. rewrite (dv_range B HB k), in_seq. lia. }
    unfold take_inputs; cbn [ds_cont ds_amount]. rewrite E, (proj2 (mem_in c _) Hc).
    destruct (db_static B c).
    + unfold add_stat. rewrite Hi. cbn [c_stat]. lra.
    + destruct Hst as [Hst|Hst]; [discriminate|]. unfold add_dyn. rewrite Hi. cbn [c_stat]. lra.
Qed.

Lemma finalize_kept x : finalize_value false x = kept x.
Proof.
  unfold finalize_value, kept, NearlyZero, LessThan. pose proof PRECISION_pos.
  destruct (Rleb_spec (Rabs x) PRECISION) as [H1|H1].
  - pose proof (Rle_abs x). destruct (Rle_dec x PRECISION); [reflexivity|lra].
  - destruct (Rltb_spec x (0 - PRECISION)) as [H2|H2]; destruct (Rle_dec x PRECISION); try reflexivity; try lra.
    exfalso. assert (Rabs x <= PRECISION) by (apply Rabs_le; lra). lra.
Qed.
Lemma kept_close x : 0 <= x -> x - PRECISION <= kept x <= x.
Proof. unfold kept; pose proof PRECISION_pos; destruct (Rle_dec x PRECISION); lra. Qed.

Section Balance.
Variables (B : dbrick) (dt : R) (inp : dinputs) (f : dlaw) (s s' : dstate).
Hypothesis HB : dvalid B.
Hypothesis Hdt : 0 < dt.
Hypothesis Hstep : direct_step B dt inp f s = Ok s'.

Lemma books_final : exists released : nat -> R,
  (forall k, 0 <= released k) /\
  (forall k, (k < length (db_conns B))%nat -> dreports (dconn_at B k) (released k) (ds_amount s' k)) /\
  (forall c, In c (db_conts B) -> c_infinite (ds_cont s c) = false ->
     dpending s' c = 0 /\
     c_content (ds_cont s' c) =
       if c_allowneg (ds_cont s c) then dbook B inp s s' released c else kept (dbook B inp s s' released c)) /\
  ((forall k, (k < length (db_conns B))%nat -> 0 <= d_frac (dconn_at B k)) ->
   forall c, In c (db_conts B) -> in_order inp s c -> asks_within B dt f c \/ seen_once B inp c s ->
     0 <= dbook B inp s s' released c).
Proof.
  destruct (direct_books B dt inp f Hdt s s' HB Hstep) as (rel & s1 & H1 & P0 & P1 & P2).
  exists rel. split; [exact P0|]. split; [exact P1|]. split.
  - intros c Hc Hi. destruct (P2 c Hc Hi) as (A&_&D&_). split; [exact D|]. rewrite A.
    destruct (c_allowneg (ds_cont s c)); [reflexivity|apply finalize_kept].
  - intros Hfr c Hc (Hi&Ha&Hl&Hf&Hp) Hcond. destruct (P2 c Hc Hi) as (_&E&_). rewrite <- E.
    apply (direct_safe B dt inp f c s s1); assumption.
Qed.

Lemma sum_by_container (g : nat -> R) : NoDup (db_conts B) ->
  Rsum (fun c => Rsum g (douts B c)) (db_conts B) = Rsum g (concat (map p_conns (db_procs B))).
Proof.
  intros Hnd. pose proof (dv_conts B HB) as Hcs. unfold douts.
  induction (db_procs B) as [|p l IH]; cbn [filter map concat].
  - apply Rsum_zero; reflexivity.
  - rewrite Rsum_app, <- IH by (intros q Hq; apply Hcs; right; exact Hq).
    rewrite <- (Rsum_single (Rsum g (p_conns p)) (p_cont p) (db_conts B)) at 1.
    2:{ exact Hnd. } 2:{ apply Hcs; left; reflexivity. }
    rewrite <- Rsum_plus. apply Rsum_ext_in. intros c Hc. rewrite (Nat.eqb_sym c (p_cont p)).
    destruct (Nat.eqb (p_cont p) c); cbn [map concat]; [rewrite Rsum_app|]; lra.
Qed.

Lemma sum_by_target (g : nat -> R) : NoDup (db_conts B) ->
  Rsum (fun c => Rsum g (dins B c)) (db_conts B) =
  Rsum (fun k => match d_tgt (dconn_at B k) with Inside _ => g k | _ => 0 end) (seq 0 (length (db_conns B))).
Proof.
  intros Hnd.
  rewrite (Rsum_ext_in _ (fun c => Rsum (fun k => if into B k c then g k else 0) (seq 0 (length (db_conns B))))).
  2:{ intros c _. unfold dins. rewrite Rsum_filter_if. reflexivity. }
  rewrite Rsum_swap. apply Rsum_ext_in. intros k _. unfold into.
  destruct (d_tgt (dconn_at B k)) as [c'| |] eqn:E; try (apply Rsum_zero; reflexivity).
  rewrite (Rsum_ext_in _ (fun c => if Nat.eqb c c' then g k else 0)).
  - apply Rsum_single; [exact Hnd|]. apply (dv_inside B HB k); exact E.
  - intros c _. rewrite Nat.eqb_sym. reflexivity.
Qed.

Lemma balance : NoDup (db_conts B) ->
  (forall k, (k < length (db_conns B))%nat -> 0 <= d_frac (dconn_at B k)) ->
  (forall k c, d_tgt (dconn_at B k) = Inside c -> d_frac (dconn_at B k) = 1) ->
  (forall c, In c (db_conts B) -> in_order inp s c /\ (asks_within B dt f c \/ seen_once B inp c s)) ->
  exists released : nat -> R,
  (forall k, 0 <= released k) /\
  (forall k, (k < length (db_conns B))%nat -> dreports (dconn_at B k) (released k) (ds_amount s' k)) /\
  let before := Rsum (fun c => level (ds_cont s c)) (db_conts B) in
  let entered := Rsum (fun c => i_forced inp c + i_plain inp c) (db_conts B) in
  let left_brick := Rsum (fun k => match d_tgt (dconn_at B k) with Inside _ => 0 | _ => released k end)
                      (seq 0 (length (db_conns B))) in
  let after := Rsum (fun c => level (ds_cont s' c)) (db_conts B) in
  before + entered - left_brick - INR (length (db_conts B)) * PRECISION <= after <= before + entered - left_brick.
Proof.
  intros Hnd Hfr Hfi Hord. destruct books_final as (rel & P0 & P1 & P2 & P3).
  exists rel. split; [exact P0|]. split; [exact P1|]. cbv zeta.
  assert (Hb : forall c, In c (db_conts B) -> 0 <= dbook B inp s s' rel c).
  { intros c Hc. destruct (Hord c Hc). apply P3; assumption. }
  assert (Haft : forall c, In c (db_conts B) ->
    dbook B inp s s' rel c - PRECISION <= level (ds_cont s' c) <= dbook B inp s s' rel c).
  { intros c Hc. destruct (Hord c Hc) as ((Hi&Ha&_)&_). destruct (P2 c Hc Hi) as (D&E). rewrite Ha in E.
    unfold level. unfold dpending in D. replace (c_content _ + _ + _) with (c_content (ds_cont s' c)) by lra.
    rewrite E. apply kept_close. apply Hb; exact Hc. }
  assert (Hsum : Rsum (dbook B inp s s' rel) (db_conts B) =
    Rsum (fun c => level (ds_cont s c)) (db_conts B) + Rsum (fun c => i_forced inp c + i_plain inp c) (db_conts B)
    - Rsum (fun k => match d_tgt (dconn_at B k) with Inside _ => 0 | _ => rel k end) (seq 0 (length (db_conns B)))).
  { unfold dbook.
    rewrite (Rsum_minus (fun c => c_content (ds_cont s c) + dpending s c + (i_forced inp c + i_plain inp c)
         + Rsum (ds_amount s') (dins B c)) (fun c => Rsum rel (douts B c))).
    rewrite (Rsum_plus (fun c => c_content (ds_cont s c) + dpending s c + (i_forced inp c + i_plain inp c))
       (fun c => Rsum (ds_amount s') (dins B c))).
    rewrite (Rsum_plus (fun c => c_content (ds_cont s c) + dpending s c) (fun c => i_forced inp c + i_plain inp c)).
    rewrite (sum_by_container rel Hnd), (sum_by_target _ Hnd).
    assert (Ep : Rsum rel (concat (map p_conns (db_procs B))) = Rsum rel (seq 0 (length (db_conns B)))).
    { apply Rsum_perm. apply Permutation.NoDup_Permutation; [apply dv_nodup; exact HB|apply seq_NoDup|].
      intros k. rewrite (dv_range B HB k), in_seq. lia. }
    rewrite Ep.
    assert (Et : Rsum (fun k => match d_tgt (dconn_at B k) with Inside _ => ds_amount s' k | _ => 0 end) (seq 0 (length (db_conns B)))
      - Rsum rel (seq 0 (length (db_conns B)))
      = - Rsum (fun k => match d_tgt (dconn_at B k) with Inside _ => 0 | _ => rel k end) (seq 0 (length (db_conns B)))).
    { rewrite <- Rsum_minus. rewrite <- (Rmult_1_l (Rsum (fun k => match d_tgt _ with Inside _ => 0 | _ => _ end) _)).
      rewrite Ropp_mult_distr_l, <- Rsum_scal. apply Rsum_ext_in. intros k Hk. apply in_seq in Hk.
      destruct (d_tgt (dconn_at B k)) as [c'| |] eqn:E; try lra.
      destruct (P1 k) as (R1&_); [lia|]. rewrite R1; [|left]; rewrite (Hfi k c' E); lra. }
    assert (El : Rsum (fun c => c_content (ds_cont s c) + dpending s c) (db_conts B) = Rsum (fun c => level (ds_cont s c)) (db_conts B)).
    { apply Rsum_ext_in. intros c _. unfold level, dpending. lra. }
    lra. }
  rewrite <- Hsum. split.
  - rewrite <- (Rsum_const PRECISION (db_conts B)), <- Rsum_minus. apply Rsum_le. intros c Hc. apply Haft; exact Hc.
  - apply Rsum_le. intros c Hc. apply Haft; exact Hc.
Qed.
End Balance.
