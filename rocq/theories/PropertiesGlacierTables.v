(** Property theorems: the glacier lookup tables of area scaling and their use (C74, C75). *)
From Verif Require Import Base BaseFacts LandCover LandCoverSpec LandCoverFacts GlacierActions GlacierSpec GlacierFacts GlacierWitness
  GlacierTables GlacierTablesSpec GlacierTablesFacts GlacierTablesLink.
Open Scope R_scope.

(** *** C74 *)
(** For any number of increments and any glaciers, the preparation of the tables succeeds (no assertion fails, no loop runs for ever), and row
    [r] describes the glacier of row 0 with its surface lowered by the same depth everywhere: area and volume are those of the pixels that still
    hold ice, and the volume is the r-th of n equal parts less. *)
Theorem c74_rows : forall g n name units, raster g -> (0 < n)%nat -> glaciers units ->
  exists T, as_table g n name units = Ok T /\ gt_rows T = S n /\ gt_units T = map fst units /\ gt_cover T = name /\
  forall i, (i < length units)%nat -> let th := thickness_of units i in
    gt_area T n i = 0 /\ gt_volume T n i = 0 /\
    exists lowering, lowering 0%nat = 0 /\ (forall r, (S r < n)%nat -> lowering r <= lowering (S r)) /\
      forall r, (r < n)%nat ->
        gt_area T r i = extent_left (g_px g) th (lowering r) /\ gt_volume T r i = ice_left (g_px g) th (lowering r) /\
        gt_volume T r i = (1 - INR r / INR n) * gt_volume T 0 i.
Proof. exact as_table_ok. Qed.
Print Assumptions c74_rows.
(** The first row is the glacier itself. *)
Theorem c74_first_row : forall g n name units T, raster g -> (0 < n)%nat -> glaciers units -> as_table g n name units = Ok T ->
  forall i, (i < length units)%nat ->
    gt_area T 0 i = INR (length (thickness_of units i)) * g_px g /\ gt_volume T 0 i = g_px g * Rsum (fun h => h) (thickness_of units i).
Proof.
  intros g n name units T Hg Hn Hu HT i Hi. destruct (c74_rows g n name units Hg Hn Hu) as (T' & E & _ & _ & _ & D). rewrite HT in E. injection E as <-.
  destruct (D i Hi) as (_ & _ & lam & L0 & _ & Lr). cbn zeta in *. destruct (Lr 0%nat Hn) as (A & B & _). rewrite L0 in A, B.
  assert (Hin : In (nth i units (0%nat, [])) units) by (apply nth_In; exact Hi). destruct (Hu _ Hin) as (_ & P). fold (thickness_of units i) in P.
  rewrite A, B. unfold extent_left, ice_left. split.
  - replace (filter (fun h => Rltb 0 h) (thickness_of units i)) with (thickness_of units i); [ring|]. clear - P. revert P. induction (thickness_of units i) as [|h t IH]; intro P; [reflexivity|].
    cbn [filter]. rewrite (proj2 (Rltb_true 0 h)) by (apply P; left; reflexivity). f_equal. apply IH. intros x Hx. apply P. right. exact Hx.
  - f_equal. apply Rsum_ext_in. intros h Hh. specialize (P h Hh). rewrite Rmax_right; lra.
Qed.
Print Assumptions c74_first_row.
(** The areas never grow from row to row, a glacier keeps at least one pixel up to the last row but one, and the volume decreases. *)
Theorem c74_shrinks : forall g n name units T, raster g -> (0 < n)%nat -> glaciers units -> as_table g n name units = Ok T ->
  forall i r, (i < length units)%nat -> (r < n)%nat ->
    gt_area T (S r) i <= gt_area T r i /\ g_px g <= gt_area T r i /\ gt_volume T (S r) i = gt_volume T r i - gt_volume T 0 i / INR n.
Proof.
  intros g n name units T Hg Hn Hu HT i r Hi Hr. destruct (table_facts g n name units T Hg Hn Hu HT) as (_ & _ & _ & F). destruct (F i Hi) as (F1 & F2 & _ & F4).
  destruct (c74_rows g n name units Hg Hn Hu) as (T' & E & _ & _ & _ & D). rewrite HT in E. injection E as <-.
  destruct (D i Hi) as (_ & _ & lam & _ & Lm & Lr). cbn zeta in *. destruct (Lr r Hr) as (A & _ & B). destruct (F4 r Hr) as (_ & _ & c & Hc & Ec).
  destruct Hg as (Gp & _). assert (Np : 0 < INR n) by (apply lt_0_INR; exact Hn).
  assert (C1 : 1 <= INR c) by (apply (le_INR 1); lia).
  assert (L1 : g_px g <= gt_area T r i). { rewrite Ec. rewrite <- (Rmult_1_l (g_px g)) at 1. apply Rmult_le_compat_r; lra. }
  destruct (Nat.eq_dec (S r) n) as [En|En].
  - rewrite En, F1, F2, B. split; [lra|]. split; [exact L1|]. replace (INR r) with (INR n - 1) by (rewrite <- En, S_INR; ring). field. lra.
  - destruct (Lr (S r) ltac:(lia)) as (A' & _ & B'). rewrite B', B. split; [|split; [exact L1|rewrite S_INR; field; lra]].
    rewrite A', A. unfold extent_left. apply Rmult_le_compat_l; [lra|]. apply le_INR. specialize (Lm r ltac:(lia)).
    clear -Lm. induction (thickness_of units i) as [|h t IH]; [cbn; lia|]. cbn [filter].
    destruct (Rltb (lam (S r)) h) eqn:X; [apply Rltb_true in X|apply Rltb_false in X].
    + rewrite (proj2 (Rltb_true (lam r) h)) by lra. cbn [length]. lia.
    + destruct (Rltb (lam r) h); cbn [length]; lia.
Qed.
Print Assumptions c74_shrinks.
(** The thinning of the pixels, for any depth of melt: it ends, and when there is enough ice it takes exactly that melt by lowering the surface. *)
Theorem c74_thinning : forall melt px, exists px', px_melt melt px = Some px' /\
  ((forall v, In v px -> 0 <= v) -> 0 <= melt -> INR (length px) * melt <= Rsum (fun v => v) px ->
   exists lowering, melt <= lowering /\ px' = map (fun v => Rmax 0 (v - lowering)) px /\ Rsum (fun v => v) px' = Rsum (fun v => v) px - INR (length px) * melt).
Proof.
  intros melt px. destruct (melt_stops melt px) as (px' & E). exists px'. split; [exact E|]. intros A B C. exact (melt_lowers melt px px' A B C E).
Qed.
Print Assumptions c74_thinning.

(** Two units of three and one pixels of 100 m2. *)
Definition gt_grid : grid := mkG 100 10000.
Definition gt_ice : list (nat * list R) := [(7%nat, [10; 20; 60]); (9%nat, [15])].
Lemma gt_ice_ok : raster gt_grid /\ glaciers gt_ice.
Proof.
  split; [split; cbn; lra|]. intros u Hu. cbn in Hu. destruct Hu as [<-|[<-|[]]]; cbn; (split; [discriminate|]); intros h Hh;
    repeat (destruct Hh as [<-|Hh]; [lra|]); contradiction.
Qed.
Example c74_case : raster gt_grid /\ glaciers gt_ice /\ exists T, as_table gt_grid 3 "glacier" gt_ice = Ok T /\ gt_volume T 0 0 = 9000 /\ gt_volume T 1 0 = 6000 /\ gt_area T 0 0 = 300.
Proof.
  destruct gt_ice_ok as (A & B). split; [exact A|]. split; [exact B|]. destruct (c74_rows gt_grid 3 "glacier" gt_ice A ltac:(lia) B) as (T & E & _ & _ & _ & D).
  exists T. split; [exact E|]. destruct (c74_first_row gt_grid 3 "glacier" gt_ice T A ltac:(lia) B E 0%nat ltac:(cbn; lia)) as (F1 & F2).
  destruct (D 0%nat ltac:(cbn; lia)) as (_ & _ & lam & _ & _ & Lr). destruct (Lr 1%nat ltac:(lia)) as (_ & _ & V).
  cbn in F1, F2. rewrite F2, F1. split; [lra|]. split; [|lra]. rewrite V, F2. cbn. field.
Qed.

(** *** C75 *)
(** In every state of a run with such a table, the yearly action never divides by zero and never reads outside the table; when it succeeds it
    changes no other unit, keeps the ice volume of each glacier (exactly, or drops less than 1e-8 of it when less than that is left), ... *)
Theorem c75_ice_conserved : forall g n name units T b, raster g -> (0 < n)%nat -> glaciers units -> as_table g n name units = Ok T ->
  scaling_run g units T b ->
  scaling_apply T (columns T) b <> UB /\
  forall b', scaling_apply T (columns T) b = Ok b' ->
    (forall id, ~ In id (map fst units) -> b' id = b id) /\
    forall id, In id (map fst units) -> 0 <= g_ice b' name id /\ 0 <= g_fraction b' name id <= 1 /\
      Rabs (g_volume b' name id - g_volume b name id) <= PRECISION /\
      (PRECISION < g_volume b name id -> g_volume b' name id = g_volume b name id).
Proof.
  intros g n name units T b Hg Hn Hu HT Hr. destruct (scaling_run_inv g n name units T Hg Hn Hu HT b Hr) as (Nd & _ & Hf).
  destruct (table_facts g n name units T Hg Hn Hu HT) as (_ & TU & TC & _). pose proof PRECISION_pos as Pp.
  assert (NdU : NoDup (map (unit_of T) (columns T))) by (rewrite columns_units; exact Nd).
  destruct (scaling_apply_fine T (columns T) b NdU Hf) as (S1 & S2). split; [exact S1|]. intros b' H. destruct (S2 b' H) as (F1 & F2).
  rewrite columns_units, TU in F2. split; [exact F2|]. intros id Hid. rewrite <- TU, <- (columns_units T) in Hid. apply in_map_iff in Hid. destruct Hid as (i & <- & Hi).
  destruct (F1 i Hi) as (_ & _ & X1 & X2). rewrite TC in *.
  destruct (scaling_effect T (columns T) b b' NdU) as (_ & Q); [intros j Hj; exact (Hf j Hj)|exact H|]. destruct (Q i Hi) as (Q1 & Q2 & _). rewrite TC in *.
  split; [exact X1|]. split; [lra|]. split; [exact Q1|exact Q2].
Qed.
Print Assumptions c75_ice_conserved.
(** ... and gives each glacier the extent of the row whose volume is the first not below the ice that is left (row 0 if the ice has grown). *)
Theorem c75_extent : forall g n name units T b b', raster g -> (0 < n)%nat -> glaciers units -> as_table g n name units = Ok T ->
  scaling_run g units T b -> scaling_apply T (columns T) b = Ok b' ->
  forall i, (i < length units)%nat -> let id := fst (nth i units (0%nat, [])) in let V := g_volume b name id in
    PRECISION < g_fraction b name id -> PRECISION < V ->
    (V <= gt_volume T 0 i * iceDensity -> exists r, (r < n)%nat /\ g_fraction b' name id * gu_area (b id) = gt_area T r i /\
       gt_volume T (S r) i * iceDensity < V <= gt_volume T r i * iceDensity) /\
    (gt_volume T 0 i * iceDensity <= V -> g_fraction b' name id * gu_area (b id) = gt_area T 0 i).
Proof.
  intros g n name units T b b' Hg Hn Hu HT Hr H i Hi id V Hfr HV. destruct (scaling_run_inv g n name units T Hg Hn Hu HT b Hr) as (Nd & _ & Hf).
  destruct (table_facts g n name units T Hg Hn Hu HT) as (TR & TU & TC & F). destruct (F i Hi) as (F1 & F2 & F3 & F4).
  assert (NdU : NoDup (map (unit_of T) (columns T))) by (rewrite columns_units; exact Nd).
  assert (Ci : In i (columns T)) by (rewrite (columns_length g n name units T Hg Hn Hu HT); apply in_seq; lia).
  pose proof (scaling_apply_rows T (columns T) b b' NdU Hf H i Ci) as Q. cbn zeta in Q. rewrite (unit_of_fst g n name units T Hg Hn Hu HT), TC in Q. fold id V in Q.
  specialize (Q Hfr HV). assert (Ip : 0 < iceDensity) by (unfold iceDensity; lra). assert (Np : 0 < INR n) by (apply lt_0_INR; exact Hn). pose proof PRECISION_pos as Pp.
  set (V0 := gt_volume T 0 i * iceDensity) in *. assert (V0p : 0 < V0) by (unfold V0; apply Rmult_lt_0_compat; assumption).
  split.
  - intros Hle. destruct (table_row_bracket T V0 V n V0p ltac:(lra) TR Hn) as (R1 & R2). set (r := table_row T V0 V) in *.
    exists r. split; [exact R1|]. split; [exact Q|].
    assert (Er : gt_volume T r i * iceDensity = (1 - INR r / INR n) * V0) by (destruct (F4 r R1) as (X & _); rewrite X; unfold V0; ring).
    assert (Es : gt_volume T (S r) i * iceDensity = (1 - INR (S r) / INR n) * V0).
    { destruct (Nat.eq_dec (S r) n) as [En|En]; [rewrite En, F2; field; lra|]. destruct (F4 (S r) ltac:(lia)) as (X & _); rewrite X; unfold V0; ring. }
    rewrite Er, Es. exact R2.
  - intros Hge. replace (table_row T V0 V) with 0%nat in Q; [exact Q|]. unfold table_row. rewrite TR. destruct (Nat.eqb_spec (S n) 1); [reflexivity|].
    replace (Reqb V0 0) with false by (symmetry; apply Reqb_false; lra).
    rewrite Rmax_left. { unfold Rdiv. rewrite Rmult_0_l. pose proof (trunc_spec 0 (Rle_refl 0)) as X. destruct (trunc 0); [reflexivity|]. rewrite S_INR in X. pose proof (pos_INR n1). lra. }
    unfold Rdiv. rewrite <- (Rmult_0_l (/ V0)). apply Rmult_le_compat_r; [apply Rlt_le, Rinv_0_lt_compat; exact V0p|]. lra.
Qed.
Print Assumptions c75_extent.
(** The action is not refused either as long as the covers of the units are a partition that leaves room for the initial glacier. *)
Theorem c75_accepted : forall g n name units T b, raster g -> (0 < n)%nat -> glaciers units -> as_table g n name units = Ok T ->
  scaling_run g units T b -> room_for T b -> exists b', scaling_apply T (columns T) b = Ok b'.
Proof.
  intros g n name units T b Hg Hn Hu HT Hr Hroom. destruct (scaling_run_inv g n name units T Hg Hn Hu HT b Hr) as (Nd & _ & Hf).
  destruct (table_facts g n name units T Hg Hn Hu HT) as (TR & _ & _ & F).
  apply scaling_accepts; [rewrite columns_units; exact Nd|exact Hf| |exact Hroom].
  intros i r Hi Hr'. rewrite (columns_length g n name units T Hg Hn Hu HT) in Hi. apply in_seq in Hi. rewrite TR in Hr'.
  assert (G : forall k, (k <= n)%nat -> gt_area T k i <= gt_area T 0 i).
  { induction k as [|k IH]; intro Hk; [lra|]. specialize (IH ltac:(lia)). destruct (c74_shrinks g n name units T Hg Hn Hu HT i k ltac:(lia) ltac:(lia)) as (X & _). lra. }
  apply G. lia.
Qed.
Print Assumptions c75_accepted.

(** Units of 6 and 4 pixels, glaciers on 3 and 1 of them; a third of the ice has melted. *)
Definition gt_basin (i7 i9 : R) : gbasin := fun id => if (id =? 7)%nat then mkGU 600 (gl_unit (1/2) i7 30) else mkGU 400 (gl_unit (1/4) i9 10).
Example c75_case : exists T b', as_table gt_grid 3 "glacier" gt_ice = Ok T /\ scaling_run gt_grid gt_ice T (gt_basin 20000 9000) /\ room_for T (gt_basin 20000 9000) /\
  PRECISION < g_volume (gt_basin 20000 9000) "glacier" 7 <= gt_volume T 0 0 * iceDensity /\
  scaling_apply T (columns T) (gt_basin 20000 9000) = Ok b'.
Proof.
  destruct gt_ice_ok as (A & B). destruct (c74_rows gt_grid 3 "glacier" gt_ice A ltac:(lia) B) as (T & E & TR & TU & TC & D).
  assert (C : columns T = [0%nat; 1%nat]) by (unfold columns; rewrite TU; reflexivity).
  assert (U0 : unit_of T 0 = 7%nat) by (unfold unit_of; rewrite TU; reflexivity). assert (U1 : unit_of T 1 = 9%nat) by (unfold unit_of; rewrite TU; reflexivity).
  assert (P : PRECISION = / 100000000) by reflexivity.
  assert (Rn : scaling_run gt_grid gt_ice T (gt_basin 20000 9000)).
  { apply scaling_start.
    - split; [rewrite P; cbn; lra|]. intros u Hu. cbn in Hu. destruct Hu as [<-|[<-|[]]]; [exists 6%nat|exists 4%nat]; cbn; (split; [lia|]); split; lra.
    - split; [rewrite TU; repeat constructor; cbn; intuition lia|]. intros i Hi. rewrite C in Hi. rewrite TC. destruct Hi as [<-|[<-|[]]]; [rewrite U0|rewrite U1]; (split; [cbn; lra|]);
        exists 1%nat; (split; [reflexivity|]); (split; [discriminate|]); cbn; discriminate.
    - intros i Hi. rewrite C in Hi. rewrite TC, P. destruct Hi as [<-|[<-|[]]]; [rewrite U0|rewrite U1]; unfold g_ice, g_fraction; cbn; (split; [lra|right; lra]). }
  pose proof (fun i H => c74_first_row gt_grid 3 "glacier" gt_ice T A ltac:(lia) B E i H) as F1.
  destruct (F1 0%nat ltac:(cbn; lia)) as (F0a & F0v). destruct (F1 1%nat ltac:(cbn; lia)) as (F1a & _). cbn in F0a, F0v, F1a.
  assert (Rm : room_for T (gt_basin 20000 9000)).
  { intros i Hi. rewrite C in Hi. rewrite TC. cbn zeta. destruct Hi as [<-|[<-|[]]]; [rewrite U0|rewrite U1]; (split; [apply gl_ok; lra|]); (split; [cbn [gt_basin Nat.eqb gu_covers]; rewrite gl_total; lra|]);
      exists 1%nat, 0%nat; (split; [reflexivity|]); (split; [reflexivity|]); [rewrite F0a|rewrite F1a]; cbn; lra. }
  destruct (c75_accepted gt_grid 3 "glacier" gt_ice T _ A ltac:(lia) B E Rn Rm) as (b' & Hb).
  exists T, b'. split; [exact E|]. split; [exact Rn|]. split; [exact Rm|]. split; [|exact Hb].
  rewrite F0v, P. unfold g_volume, g_fraction, g_ice, iceDensity. cbn. lra.
Qed.
