(** C82: the connectivity computed from a flow direction grid. *)
From Coq Require Import String.
From Verif Require Import BaseFacts WitnessTools Basin BasinSpec BasinFacts PropertiesBasin.
From Verif Require Import ConnectivitySpec ConnectivityFacts ConnectivityRound ConnectivityNormal ConnectivityRows.
Open Scope string_scope.
Open Scope R_scope.

(** *** When there is a result *)
Lemma add_flow_keys t u v x : map fst (add_flow t u v x) = map fst t.
Proof. induction t as [|(w, d) t IH]; [reflexivity|]. cbn [add_flow]. destruct (Z.eqb w u && negb (has_row t u)); [reflexivity|]. cbn. rewrite IH. reflexivity. Qed.
Lemma has_row_in t u : In u (map fst t) -> has_row t u = true.
Proof. intro H. apply in_map_iff in H. destruct H as ((w, d) & E & H). apply existsb_exists. exists (w, d). split; [exact H|]. cbn in *. subst. apply Z.eqb_refl. Qed.
Lemma cells_flow_ok g l : forall t, incl l (cells g) -> d8 g -> known_units g (map fst t) -> exists t', cells_flow g t l = Ok t'.
Proof.
  induction l as [|(i, j) l IH]; intros t I D K; [exists t; reflexivity|]. cbn [cells_flow].
  assert (Hc : In (i, j) (cells g)) by (apply I; left; reflexivity).
  assert (Step : exists t1, cell_flow g t (i, j) = Ok t1 /\ map fst t1 = map fst t).
  { cbn [cell_flow]. destruct (Z.eqb_spec (g_id g i j) 0) as [|Hu]; [exists t; auto|].
    assert (Nx : exists n, next_cell g i j = Ok n).
    { unfold next_cell. destruct (Z.leb_spec (g_dir g i j) 0) as [|Hd]; [eexists; reflexivity|]. destruct (D _ Hc) as [L|L]; cbn [fst snd] in L; [lia|].
      assert (O : exists o, d8_offset (g_dir g i j) = Some o). { repeat (destruct L as [L|L]; [rewrite <- L; eexists; reflexivity|]). destruct L. }
      destruct O as ((a, b) & ->). match goal with |- context [if ?c then _ else _] => destruct c end; eexists; reflexivity. }
    destruct Nx as (n & ->). cbn [bind]. destruct n as [(i', j')|]; [|exists t; auto]. destruct (Z.eqb (g_id g i' j') (g_id g i j)); [exists t; auto|].
    rewrite has_row_in by (apply (K (i, j) Hc); exact Hu). eexists. split; [reflexivity|apply add_flow_keys]. }
  destruct Step as (t1 & -> & E1). cbn [bind]. apply IH; [intros c H; apply I; right; exact H|exact D|rewrite E1; exact K].
Qed.
(** The connectivity is computed for any grid of D8 codes whose units are all in the list, in the two modes. *)
Theorem c82_computed : forall g ids mode force p, ids <> [] -> known_units g ids -> d8 g -> mode = "multiple" \/ mode = "single" ->
  exists t, calculate g ids mode force p = Ok t.
Proof.
  intros g ids mode force p Ne K D M. unfold calculate. destruct ids as [|i0 r]; [congruence|]. set (ids := i0 :: r) in *.
  assert (G : exists t, gather g ids = Ok t). { unfold gather. rewrite cells_all. apply cells_flow_ok; [apply incl_refl|exact D|]. rewrite map_map. cbn [fst]. rewrite map_id. exact K. }
  destruct G as (t & ->). cbn [bind]. destruct M as [-> | ->]; eexists; reflexivity.
Qed.
Print Assumptions c82_computed.

(** *** The flows *)
(** The sums gathered for a unit are the flows into the other units and out of the catchment. *)
Theorem c82_flows : forall g ids t, NoDup ids -> gather g ids = Ok t -> map fst t = ids /\ forall u d, In (u, d) t -> u <> 0%Z ->
  NoDup (map fst d) /\ (forall v, In v (map fst d) <-> v <> u /\ receives g u v) /\ forall v x, In (v, x) d -> x = flow g u v.
Proof.
  intros g ids t N E. destruct (gathered g ids t N E) as (A & B). split; [exact A|]. intros u d H Hu. destruct (B u d H Hu) as (C1 & C2 & C3). split; [exact C1|]. split; [exact C2|].
  intros v x K. assert (Kk : In v (map fst d)) by (apply in_keys; exists x; exact K). apply C2 in Kk. rewrite <- (flow_other g u v (proj1 Kk)), <- C3. symmetry. apply val_in; [exact C1|exact K].
Qed.
Print Assumptions c82_flows.

Lemma calculated g ids mode force p t : calculate g ids mode force p = Ok t -> exists t0, gather g ids = Ok t0 /\
  (mode = "multiple" /\ t = each (fun _ => normalize_connectivity force p) (if force then each (connect_to_neighbours g) (each (fun _ => remove_out) t0) else t0) \/
   mode = "single" /\ t = each (fun _ => keep_highest force) (if force then each (connect_to_neighbours g) (each (fun _ => remove_out) t0) else t0)).
Proof.
  unfold calculate. destruct ids; [discriminate|]. destruct (gather g _) as [t0| |]; try discriminate. cbn [bind]. intro H. exists t0. split; [reflexivity|].
  destruct (String.eqb_spec mode "multiple") as [->|]; [left; split; [reflexivity|congruence]|]. destruct (String.eqb_spec mode "single") as [->|]; [right; split; [reflexivity|congruence]|discriminate].
Qed.

(** *** Mode "multiple" *)
(** Without force_connectivity: the shares of a unit are those of the flows to the units downstream that get at least a hundredth of the flow
    kept in the catchment, unless more leaves the catchment than goes to any of them; with more than a hundred receivers nothing may be left. *)
Theorem c82_multiple : forall g ids p t, NoDup ids -> flowing g -> calculate g ids "multiple" false p = Ok t -> map fst t = ids /\ forall u d, In (u, d) t -> u <> 0%Z ->
  (d <> [] -> shares p (flow g u) (kept (flow g u) (downstream g u)) d) /\
  ((forall v, downstream g u v -> flow g u v < flow g u 0%Z) -> d = []) /\
  ((exists v, downstream g u v /\ flow g u 0%Z < flow g u v) -> d = [] -> crowd (downstream g u)).
Proof.
  intros g ids p t N Fl E. apply calculated in E. destruct E as (t0 & G & [(_ & ->)|(M & _)]); [|discriminate]. destruct (gathered_row g ids t0 N Fl G) as (A & B).
  split; [rewrite each_keys; exact A|]. intros u d H Hu. apply each_in in H. destruct H as (d0 & H & ->). specialize (B u d0 H Hu).
  destruct (normal_row _ _ _ p false B) as (R1 & R2 & R3 & _ & R5). fold (downstream g u) in *. split; [exact R1|]. split.
  - intro L. destruct (normalize_connectivity false p d0) as [|(k, x) r] eqn:En; [reflexivity|]. assert (Dk : downstream g u k) by (apply (R5 k x); left; reflexivity).
    assert (P : 0 < flow g u k) by (apply flow_positive; [exact Fl|exact Hu|apply Dk]). pose proof (L k Dk) as L0. apply R2; [reflexivity| |exact L].
    split; [congruence|]. destruct (Z.eq_dec 0 u) as [|_]; [congruence|].
    assert (Dec : receives g u 0%Z \/ ~ receives g u 0%Z).
    { destruct (in_dec Z.eq_dec 0%Z (map fst d0)) as [I|I]; [left; apply (ro_keys _ _ _ B), I|right; intro K; apply I, (ro_keys _ _ _ B); split; [congruence|exact K]]. }
    destruct Dec as [Dec|Dec]; [exact Dec|]. rewrite (no_flow_out g u Dec) in L0. lra.
  - intros (v & V & L) En. destruct R3 as [R3|R3]; [right; right; exists v; split; [exact V|exact L]|exact En|elim (R3 v V)|exact R3].
Qed.
Print Assumptions c82_multiple.

(** With force_connectivity: the shares of the flows to the units downstream, whatever leaves the catchment; for a unit without any, those of
    the lengths of the borders with its neighbours. *)
Theorem c82_forced : forall g ids p t, NoDup ids -> flowing g -> calculate g ids "multiple" true p = Ok t -> map fst t = ids /\ forall u d, In (u, d) t -> u <> 0%Z ->
  ((exists v, downstream g u v) ->
     (d <> [] -> shares p (flow g u) (kept (flow g u) (downstream g u)) d) /\ (d = [] -> crowd (downstream g u))) /\
  ((forall v, ~ downstream g u v) -> exists w, (forall v l, v <> u -> border g u v l -> w v = INR (List.length l)) /\
     (d <> [] -> shares p w (kept w (neighbour g u)) d) /\ (d = [] -> (forall v, ~ neighbour g u v) \/ crowd (neighbour g u))).
Proof.
  intros g ids p t N Fl E. apply calculated in E. destruct E as (t0 & G & [(_ & ->)|(M & _)]); [|discriminate]. destruct (gathered_row g ids t0 N Fl G) as (A & B).
  split; [rewrite !each_keys; exact A|]. intros u d H Hu. apply each_in in H. destruct H as (d2 & H & ->). apply each_in in H. destruct H as (d1 & H & ->). apply each_in in H. destruct H as (d0 & H & ->).
  assert (Same : forall w (rc : Z -> Prop) q, (forall v, rc v -> v <> 0%Z) -> shares p w (kept w (fun v => v <> 0%Z /\ rc v)) q -> shares p w (kept w rc) q).
  { intros w rc q Nz (S1 & S2 & S3). split; [exact S1|]. split; [|exact S3]. intro k. rewrite S2.
    assert (Ee : forall v, v <> 0%Z /\ rc v <-> rc v) by (intro v; split; [tauto|intro V; split; [apply Nz; exact V|exact V]]).
    assert (Te : forall T, total w (fun v => v <> 0%Z /\ rc v) T <-> total w rc T).
    { intro T. split; intros (l & L1 & L2 & L3); exists l; (split; [exact L1|]); (split; [|exact L3]); intro j; rewrite L2; [apply Ee|symmetry; apply Ee]. }
    unfold kept. rewrite Ee. split; intros (K1 & K2); (split; [exact K1|]); intros T HT; apply K2, Te; exact HT. }
  assert (Crowd : forall rc : Z -> Prop, crowd (fun v => v <> 0%Z /\ rc v) -> crowd rc) by (intros rc (l & L1 & L2 & L3); exists l; split; [exact L1|]; split; [intros k K; apply L2; exact K|exact L3]).
  destruct (forced_row g u d0 Hu (B u d0 H Hu)) as [((v & V) & Ro)|(No & Ro)].
  - split; [|intro No; elim (No v V)]. intros _. destruct (normal_row _ _ _ p true Ro) as (R1 & _ & R3 & _). split.
    + intro Ne. apply Same; [intros k K; apply K|]. apply R1. exact Ne.
    + intro En. destruct R3 as [R3|R3]; [left; reflexivity|exact En|elim (R3 v); split; [apply V|exact V]|apply Crowd; exact R3].
  - split; [intros (v & V); elim (No v V)|]. intros _. exists (border_length g u). split; [apply border_row|]. destruct (normal_row _ _ _ p true Ro) as (R1 & _ & R3 & _). split.
    + intro Ne. apply Same; [intros k K; apply K|]. apply R1. exact Ne.
    + intro En. destruct R3 as [R3|R3]; [left; reflexivity|exact En|left; intros v V; elim (R3 v); split; [apply V|exact V]|right; apply Crowd; exact R3].
Qed.
Print Assumptions c82_forced.

(** *** Mode "single" *)
(** The one receiver of a unit is a unit downstream with the highest flow; there is none if at least as much leaves the catchment. *)
Theorem c82_single : forall g ids p t, NoDup ids -> flowing g -> calculate g ids "single" false p = Ok t -> map fst t = ids /\ forall u d, In (u, d) t -> u <> 0%Z ->
  d = [] /\ (forall v, downstream g u v -> flow g u v <= flow g u 0%Z) \/
  (exists v, d = [(v, 1)] /\ downstream g u v /\ flow g u 0%Z <= flow g u v /\ forall k, downstream g u k -> flow g u k <= flow g u v).
Proof.
  intros g ids p t N Fl E. apply calculated in E. destruct E as (t0 & G & [(M & _)|(_ & ->)]); [discriminate|]. destruct (gathered_row g ids t0 N Fl G) as (A & B).
  split; [rewrite each_keys; exact A|]. intros u d H Hu. apply each_in in H. destruct H as (d0 & H & ->). specialize (B u d0 H Hu).
  destruct (single_row _ _ _ false B) as [[(E & No)|(E & _ & Le)]|(v & E & V0 & V & Le)]; [discriminate| | |].
  - left. split; [exact E|]. intros v (_ & V). elim (No v V).
  - left. split; [exact E|]. intros v (_ & V). apply Le. exact V.
  - right. exists v. split; [exact E|]. split; [split; [exact V0|exact V]|]. split; [|intros k (_ & K); apply Le; exact K].
    destruct (in_dec Z.eq_dec 0%Z (map fst d0)) as [I|I]; [apply Le, (ro_keys _ _ _ B), I|].
    rewrite no_flow_out; [left; apply flow_positive; [exact Fl|exact Hu|apply V]|]. intro K. apply I, (ro_keys _ _ _ B). split; [congruence|exact K].
Qed.
Print Assumptions c82_single.
Theorem c82_single_forced : forall g ids p t, NoDup ids -> flowing g -> calculate g ids "single" true p = Ok t -> map fst t = ids /\ forall u d, In (u, d) t -> u <> 0%Z ->
  (d = [] <-> forall v, ~ downstream g u v /\ ~ neighbour g u v) /\
  (d <> [] -> exists v, d = [(v, 1)] /\
     ((exists k, downstream g u k) -> downstream g u v /\ forall k, downstream g u k -> flow g u k <= flow g u v) /\
     ((forall k, ~ downstream g u k) -> neighbour g u v /\
        forall k l m, k <> 0%Z -> k <> u -> border g u v l -> border g u k m -> (List.length m <= List.length l)%nat)).
Proof.
  intros g ids p t N Fl E. apply calculated in E. destruct E as (t0 & G & [(M & _)|(_ & ->)]); [discriminate|]. destruct (gathered_row g ids t0 N Fl G) as (A & B).
  split; [rewrite !each_keys; exact A|]. intros u d H Hu. apply each_in in H. destruct H as (d2 & H & ->). apply each_in in H. destruct H as (d1 & H & ->). apply each_in in H. destruct H as (d0 & H & ->).
  destruct (forced_row g u d0 Hu (B u d0 H Hu)) as [((v & V) & Ro)|(No & Ro)].
  - destruct (single_row _ _ _ true Ro) as [[(E & Nn)|(E & K & _)]|(m & E & M0 & Mm & Le)]; [intros _ (K & _); congruence|elim (Nn v V)|elim (proj1 K); reflexivity|]. rewrite E. split.
    + split; [discriminate|]. intro K. elim (proj1 (K v) V).
    + intros _. exists m. split; [reflexivity|]. split; [intros _; split; [exact Mm|exact Le]|]. intro Nk. elim (Nk v V).
  - destruct (border_row g u) as (_ & Bl). destruct (single_row _ _ _ true Ro) as [[(E & Nn)|(E & K & _)]|(m & E & M0 & Mm & Le)]; [intros _ (K & _); congruence| |elim (proj1 K); reflexivity|]; rewrite E.
    + split; [|congruence]. split; [|reflexivity]. intros _ k. split; [apply No|apply Nn].
    + split; [split; [discriminate|]; intro K; elim (proj2 (K m) Mm)|]. intros _. exists m. split; [reflexivity|]. split; [intros (k & K); elim (No k K)|]. intros _. split; [exact Mm|].
      intros k l n K0 Hk Bm Bk. apply INR_le. rewrite <- (Bl k n Hk Bk), <- (Bl m l (proj1 (proj2 Mm)) Bm). destruct n as [|c n']; [rewrite (Bl k [] Hk Bk); apply pos_INR|]. apply Le. split; [exact K0|]. split; [exact Hk|]. exists (c :: n'). split; [exact Bk|discriminate].
Qed.
Print Assumptions c82_single_forced.

(** *** The table is accepted *)
Lemma row_good w rc p force mode d0 : row_of w rc d0 -> (force = true -> ~ rc 0%Z) -> mode = "multiple" /\ (2 <= p)%nat \/ mode = "single" ->
  let d := if String.eqb mode "multiple" then normalize_connectivity force p d0 else keep_highest force d0 in
  (d <> [] -> Rsum snd d = 1) /\ forall k x, In (k, x) d -> 0 < x /\ k <> 0%Z /\ rc k.
Proof.
  intros Ro F [(-> & P)| ->]; cbv zeta; cbn [String.eqb Ascii.eqb Bool.eqb].
  - destruct (normal_row _ _ _ p force Ro) as (R1 & _ & _ & R4 & R5). split; [intro Ne; apply R1; exact Ne|]. intros k x K. split; [apply (R4 P k x K)|apply (R5 k x K)].
  - destruct (single_row _ _ _ force Ro F) as [[(E & _)|(E & _)]|(v & E & V0 & V & _)]; rewrite E; [split; [congruence|intros k x []]|split; [congruence|intros k x []]|].
    split; [intros _; cbn; lra|]. intros k x [K|[]]. injection K as <- <-. split; [lra|auto].
Qed.
Lemma add_ratios_ok ids id : forall l b, Forall (fun '(k, x) => k <> id /\ 0 <= x <= 1 /\ In id ids /\ In k ids) l -> exists b', add_ratios ids id l b = Ok b'.
Proof.
  assert (Kn : forall z, In z ids -> existsb (Z.eqb z) ids = true) by (intros z H; apply existsb_exists; exists z; split; [exact H|apply Z.eqb_refl]).
  induction l as [|(k, x) l IH]; intros b F; [exists b; reflexivity|]. inversion F as [|? ? Hh F']; subst. destruct Hh as (A & B & C & D). cbn [add_ratios].
  rewrite (proj2 (Z.eqb_neq _ _) A), (Kn id C), (Kn k D). unfold Rltb. destruct (Rlt_dec x 0); [lra|]. destruct (Rlt_dec 1 x); [lra|]. cbn [negb orb]. apply IH. exact F'.
Qed.
Lemma set_connectivity_ok ids : forall T b, (forall id l, In (id, l) T -> (l <> [] -> Rsum snd l = 1) /\ Forall (fun '(k, x) => k <> id /\ 0 <= x <= 1 /\ In id ids /\ In k ids) l) ->
  exists b', set_connectivity ids T b = Ok b'.
Proof.
  induction T as [|(id, l) T IH]; intros b H; [exists b; reflexivity|]. cbn [set_connectivity]. destruct (H id l (or_introl eq_refl)) as (A & B).
  assert (H' : forall i m, In (i, m) T -> (m <> [] -> Rsum snd m = 1) /\ Forall (fun '(k, x) => k <> i /\ 0 <= x <= 1 /\ In i ids /\ In k ids) m) by (intros i m I; apply H; right; exact I).
  destruct l as [|q l]; [apply IH; exact H'|]. set (m := q :: l) in *. rewrite (A ltac:(discriminate)). replace (1 - 1) with 0 by lra. rewrite Rabs_R0.
  unfold Rleb. destruct (Rle_dec 0 (/ 100000000 + / 100000)); [|lra]. destruct (add_ratios_ok ids id m b B) as (b1 & ->). cbn [bind]. apply IH. exact H'.
Qed.
(** The table, given to the hydro units of the catchment, is accepted and connects each of them to the units of its row, in both modes and with
    and without force_connectivity, from two decimal digits on. *)
Theorem c82_accepted : forall g ids mode force p t b, NoDup ids -> ~ In 0%Z ids -> flowing g -> known_units g ids ->
  calculate g ids mode force p = Ok t -> mode = "single" \/ (2 <= p)%nat -> ba_laterals b = [] -> map ud_id (ba_units b) = ids ->
  exists b' l, set_connectivity ids t b = Ok b' /\ build_basin b' = Ok l /\ map hu_id l = ids /\
    forall h, In h l -> exists d, In (hu_id h, d) t /\ receivers l h = map (fun '(v, x) => (Some v, x)) d.
Proof.
  intros g ids mode force p t b N N0 Fl Kn E M Lb Ub. pose proof E as E0. apply calculated in E. destruct E as (t0 & G & E). destruct (gathered_row g ids t0 N Fl G) as (A & B).
  assert (Kt : map fst t = ids) by (destruct E as [(_ & ->)|(_ & ->)]; destruct force; rewrite !each_keys; exact A).
  assert (Rc : forall u v, u <> 0%Z -> v <> 0%Z -> receives g u v \/ neighbour g u v -> In v ids).
  { intros u v Hu Hv [(c & c' & _ & Hc & _ & _ & Ec)|(_ & _ & l & (_ & Bl) & Ne)].
    - rewrite <- Ec. apply Kn; [exact Hc|congruence].
    - destruct l as [|c l]; [congruence|]. destruct (proj1 (Bl c) (or_introl eq_refl)) as (Hc & Ec & _). rewrite <- Ec. apply Kn; [exact Hc|congruence]. }
  assert (Mm : mode = "multiple" /\ (2 <= p)%nat \/ mode = "single").
  { destruct E as [(Em & _)|(Em & _)]; [|auto]. destruct M as [M|M]; [rewrite Em in M; discriminate|auto]. }
  assert (Rows : forall u d, In (u, d) t -> (d <> [] -> Rsum snd d = 1) /\ forall k x, In (k, x) d -> k <> u /\ 0 < x /\ In u ids /\ In k ids).
  { intros u d H. assert (Iu : In u ids) by (rewrite <- Kt; apply in_map_iff; exists (u, d); auto). assert (Hu : u <> 0%Z) by congruence.
    assert (Src : exists d0 w rc, row_of w rc d0 /\ (force = true -> ~ rc 0%Z) /\ (forall v, rc v -> v <> u) /\ (forall v, v <> 0%Z -> rc v -> In v ids) /\
                    d = if String.eqb mode "multiple" then normalize_connectivity force p d0 else keep_highest force d0).
    { assert (Pick : forall d1, In (u, d1) (if force then each (connect_to_neighbours g) (each (fun _ => remove_out) t0) else t0) ->
                exists w rc, row_of w rc d1 /\ (force = true -> ~ rc 0%Z) /\ (forall v, rc v -> v <> u) /\ (forall v, v <> 0%Z -> rc v -> In v ids)).
      { intros d1 H1. destruct force.
        - apply each_in in H1. destruct H1 as (d2 & H1 & ->). apply each_in in H1. destruct H1 as (d3 & H1 & ->). destruct (forced_row g u d3 Hu (B u d3 H1 Hu)) as [(_ & Ro)|(_ & Ro)].
          + exists (flow g u), (downstream g u). split; [exact Ro|]. split; [intros _ (K & _); congruence|]. split; [intros v V; apply V|]. intros v V0 V. apply (Rc u v Hu V0). left. apply V.
          + exists (border_length g u), (neighbour g u). split; [exact Ro|]. split; [intros _ (K & _); congruence|]. split; [intros v V; apply V|]. intros v V0 V. apply (Rc u v Hu V0). right. exact V.
        - exists (flow g u), (fun v => v <> u /\ receives g u v). split; [apply B; assumption|]. split; [discriminate|]. split; [intros v V; apply V|]. intros v V0 V. apply (Rc u v Hu V0). left. apply V. }
      destruct E as [(-> & ->)|(-> & ->)]; apply each_in in H; destruct H as (d1 & H & ->); destruct (Pick d1 H) as (w & rc & P1 & P2 & P3 & P4); exists d1, w, rc; auto. }
    destruct Src as (d0 & w & rc & P1 & P2 & P3 & P4 & ->). destruct (row_good w rc p force mode d0 P1 P2 Mm) as (Q1 & Q2). split; [exact Q1|].
    intros k x K. destruct (Q2 k x K) as (X & K0 & Kr). auto. }
  assert (Small : forall u d k x, In (u, d) t -> In (k, x) d -> x <= 1).
  { intros u d k x H K. destruct (Rows u d H) as (S1 & S2). rewrite <- S1 by (destruct d; [destruct K|discriminate]). apply (Rsum_elem_le snd d (k, x)); [|exact K]. intros (j, y) J. left. apply (S2 j y J). }
  destruct (set_connectivity_ok ids t b) as (b' & Sb).
  { intros u d H. destruct (Rows u d H) as (S1 & S2). split; [exact S1|]. apply Forall_forall. intros (k, x) K. destruct (S2 k x K) as (K1 & K2 & K3 & K4). split; [exact K1|]. split; [split; [lra|apply (Small u d k x H K)]|]. auto. }
  pose proof (connectivity_set _ _ _ _ Sb) as (U & L & _). rewrite Lb in L. cbn [app] in L.
  assert (Bb : exists l, build_basin b' = Ok l).
  { destruct (c68_refused b') as (Nu & Th). destruct (build_basin b') as [l| |] eqn:Eb; [exists l; reflexivity| |congruence]. exfalso. destruct (proj1 Th eq_refl) as (c & Hc & _ & _ & Bad). rewrite L in Hc. apply in_flat_map in Hc.
    destruct Hc as ((u, d) & Hd & Hc). apply in_map_iff in Hc. destruct Hc as ((k, x) & <- & Hk). cbn in Bad. apply Bad. split; [apply (proj2 (Rows u d Hd) k x Hk)|apply (Small u d k x Hd Hk)]. }
  destruct Bb as (l & Bb). exists b', l. split; [exact Sb|]. split; [exact Bb|].
  destruct (c68_connectivity ids t b b' l Lb N Ub) as (I & _ & R); [fold table dict in *; change (NoDup (map fst t)); rewrite Kt; exact N|exact Sb|exact Bb|]. split; [exact I|]. intros h Hh.
  assert (Ih : In (hu_id h) (map fst t)) by (rewrite Kt, <- I; apply in_map; exact Hh). apply in_map_iff in Ih. destruct Ih as ((u, d) & Eu & Hd). cbn in Eu. subst u. exists d. split; [exact Hd|]. apply (R h Hh). exact Hd.
Qed.
Print Assumptions c82_accepted.

(** *** A catchment: unit 1 sends 3/4 of its water to unit 2 and 1/4 to unit 3, which has the outlet *)
Definition of_rows {A} (z : A) (m : list (list A)) (i j : nat) : A := nth j (nth i m []) z.
Definition small_grid (a b : R) : grid := mkGrid 2 2 (of_rows 0%Z [[1; 2]; [1; 3]]%Z) (of_rows 0 [[a; a + 1]; [b; a + b + 2]]) (of_rows 0%Z [[1; 4]; [1; 0]]%Z).
Lemma small_flowing a b : 0 < a -> 0 < b -> flowing (small_grid a b).
Proof. intros Ha Hb c Hc _. cbn in Hc. destruct Hc as [<-|[<-|[<-|[<-|[]]]]]; cbn; lra. Qed.
Lemma small_known a b : known_units (small_grid a b) [1; 2; 3]%Z.
Proof. intros c Hc _. cbn in Hc. destruct Hc as [<-|[<-|[<-|[<-|[]]]]]; cbn; auto. Qed.
Lemma small_d8 a b : d8 (small_grid a b).
Proof. intros c Hc. cbn in Hc. destruct Hc as [<-|[<-|[<-|[<-|[]]]]]; cbn; first [left; lia|right; tauto]. Qed.
Lemma gathered_small a b : gather (small_grid a b) [1; 2; 3]%Z = Ok [(1%Z, [(2%Z, 0 + a); (3%Z, 0 + b)]); (2%Z, [(3%Z, 0 + (a + 1))]); (3%Z, [])].
Proof. reflexivity. Qed.
Lemma ids_nodup : NoDup [1; 2; 3]%Z.
Proof. repeat constructor; cbn; intuition lia. Qed.
Lemma Int_part_is x n : IZR n <= x < IZR n + 1 -> Int_part x = n.
Proof.
  intro H. unfold Int_part. assert (E : up x = (n + 1)%Z); [|lia]. symmetry. apply tech_up; rewrite plus_IZR; lra.
Qed.
Lemma two_rows a b p : 0 < b -> b <= a -> a <= 99 * b ->
  normalize_connectivity false p [(2%Z, 0 + a); (3%Z, 0 + b)] = round_row [(2%Z, a / (a + b)); (3%Z, b / (a + b))] p.
Proof.
  intros Hb Hab H9. unfold normalize_connectivity. cbn [max_key max_from]. rewrite (proj2 (Rltb_false (0 + a) (0 + b))) by lra. cbn [Z.eqb andb d_del filter fst negb d_sum Rsum snd]. rewrite (proj2 (Reqb_false _ 0)) by lra.
  unfold normalize_row at 2. cbn [d_sum Rsum map fst snd filter].
  assert (Q : forall x, b <= x -> Rleb (1 / 100) ((0 + x) / (0 + a + (0 + b + 0))) = true).
  { intros x Hx. apply Rleb_true. apply (Rmult_le_reg_r (a + b)); [lra|]. replace ((0 + x) / (0 + a + (0 + b + 0)) * (a + b)) with x by (field; lra). lra. }
  rewrite (Q a Hab), (Q b (Rle_refl b)). cbn [normalize_row d_sum Rsum map fst snd]. f_equal. f_equal; [f_equal; field; lra|f_equal; f_equal; field; lra].
Qed.
Lemma one_row a p : 0 < a -> normalize_connectivity false p [(3%Z, 0 + a)] = round_row [(3%Z, 1)] p.
Proof.
  intro Ha. unfold normalize_connectivity. cbn [max_key max_from Z.eqb andb d_del filter fst negb d_sum Rsum snd]. rewrite (proj2 (Reqb_false _ 0)) by lra. unfold normalize_row at 2. cbn [d_sum Rsum map fst snd filter].
  assert (E : (0 + a) / (0 + a + 0) = 1) by (field; lra). rewrite !E. rewrite (proj2 (Rleb_true (1 / 100) 1)) by lra. cbn [normalize_row d_sum Rsum map fst snd]. f_equal. f_equal. f_equal. field.
Qed.
Lemma round_one p : round_row [(3%Z, 1)] p = [(3%Z, 1)].
Proof.
  destruct (round_spec [(3%Z, 1)] p) as (A & B & _); [repeat constructor; cbn; tauto|intros k x [K|[]]; injection K as <- <-; lra|cbn; lra|].
  destruct (round_row [(3%Z, 1)] p) as [|(k, x) [|? ?]]; try discriminate. injection A as ->. cbn in B. f_equal. f_equal. lra.
Qed.
(** Two shares x and 1 - x. *)
Lemma round_two x y p n m : x + y = 1 -> IZR n <= x * 10 ^ p < IZR n + 1 -> IZR m <= y * 10 ^ p < IZR m + 1 -> 10 ^ p = IZR (n + m + 1) -> IZR m + x * 10 ^ p >= IZR n + y * 10 ^ p ->
  round_row [(2%Z, x); (3%Z, y)] p = [(2%Z, IZR (n + 1) / 10 ^ p); (3%Z, IZR m / 10 ^ p)].
Proof.
  intros Ho Hn Hm Hp Hr. unfold round_row. cbn [d_sum Rsum map fst snd fold_right]. rewrite (Int_part_is _ n Hn), (Int_part_is _ m Hm).
  assert (Pr : py_round ((x + (y + 0)) * 10 ^ p) = (n + m + 1)%Z).
  { replace ((x + (y + 0)) * 10 ^ p) with (IZR (n + m + 1)) by (rewrite <- Hp; replace (x + (y + 0)) with 1 by lra; ring). unfold py_round. rewrite (Int_part_is _ (n + m + 1)) by lra. rewrite (proj2 (Rltb_true _ _)) by lra. reflexivity. }
  rewrite Pr. replace (n + m + 1 - (n + (m + 0)))%Z with 1%Z by lia. cbn [sort_rem fold_left insert_rem snd]. rewrite (proj2 (Rltb_false _ _)) by lra. cbn. rewrite Z.add_0_r. reflexivity.
Qed.
Lemma round_even x y p n m : x + y = 1 -> x * 10 ^ p = IZR n -> y * 10 ^ p = IZR m -> round_row [(2%Z, x); (3%Z, y)] p = [(2%Z, x); (3%Z, y)].
Proof.
  intros Ho Hn Hm. pose proof (ten_pos p) as Tp. unfold round_row. cbn [d_sum Rsum map fst snd fold_right]. rewrite (Int_part_is _ n), (Int_part_is _ m) by lra.
  assert (Pr : py_round ((x + (y + 0)) * 10 ^ p) = (n + m)%Z).
  { replace ((x + (y + 0)) * 10 ^ p) with (IZR (n + m)) by (rewrite plus_IZR, <- Hn, <- Hm; ring). unfold py_round. rewrite (Int_part_is _ (n + m)) by lra. rewrite (proj2 (Rltb_true _ _)) by lra. reflexivity. }
  rewrite Pr. replace (n + m - (n + (m + 0)))%Z with 0%Z by lia. cbn [slice Z.ltb Z.compare Z.to_nat firstn map existsb]. rewrite !Z.add_0_r, <- Hn, <- Hm. f_equal; [f_equal; field; lra|f_equal; f_equal; field; lra].
Qed.
Definition basin3 : basin := mkBasin [mkUD 1 100 3000 [] [] []; mkUD 2 300 2000 [] [] []; mkUD 3 50 1000 [] [] []] (At 2) [].
Example c82_multiple_used : flowing (small_grid 3 1) /\ NoDup [1; 2; 3]%Z /\ known_units (small_grid 3 1) [1; 2; 3]%Z /\
  calculate (small_grid 3 1) [1; 2; 3]%Z "multiple" false 3 = Ok [(1%Z, [(2%Z, 3 / 4); (3%Z, 1 / 4)]); (2%Z, [(3%Z, 1)]); (3%Z, [])].
Proof.
  split; [apply small_flowing; lra|]. split; [apply ids_nodup|]. split; [apply small_known|]. unfold calculate. rewrite gathered_small. cbn [bind String.eqb Ascii.eqb Bool.eqb each map fst snd]. f_equal.
  rewrite two_rows, one_row, round_one by lra. replace (3 / (3 + 1)) with (3 / 4) by lra. replace (1 / (3 + 1)) with (1 / 4) by lra. rewrite (round_even _ _ _ 750 250) by (cbn; lra). reflexivity.
Qed.
Example c82_single_used : calculate (small_grid 3 1) [1; 2; 3]%Z "single" false 3 = Ok [(1%Z, [(2%Z, 1)]); (2%Z, [(3%Z, 1)]); (3%Z, [])].
Proof. unfold calculate. rewrite gathered_small. cbn [bind String.eqb Ascii.eqb Bool.eqb each map fst snd keep_highest max_key max_from]. rewrite (proj2 (Rltb_false (0 + 3) (0 + 1))) by lra. reflexivity. Qed.
(** The unit of the outlet has two neighbours. *)
Example c82_forced_used : (forall v, ~ downstream (small_grid 3 1) 3 v) /\
  calculate (small_grid 3 1) [1; 2; 3]%Z "single" true 3 = Ok [(1%Z, [(2%Z, 1)]); (2%Z, [(3%Z, 1)]); (3%Z, [(1%Z, 1)])].
Proof.
  split.
  - intros v (_ & _ & c & c' & Hc & Hc' & D & E & _). cbn in Hc. destruct Hc as [<-|[<-|[<-|[<-|[]]]]]; try discriminate E. discriminate D.
  - unfold calculate. rewrite gathered_small. cbn [bind String.eqb Ascii.eqb Bool.eqb each map fst snd]. unfold keep_highest. cbn [remove_out d_del filter fst Z.eqb negb connect_to_neighbours max_key max_from]. rewrite (proj2 (Rltb_false (0 + 3) (0 + 1))) by lra. cbn [Z.eqb andb].
    lazy -[Rltb IZR INR Rplus]. rewrite (proj2 (Rltb_false (INR 1) (INR 1))) by lra. reflexivity.
Qed.
Example c82_accepted_used : exists b' l, set_connectivity [1; 2; 3]%Z [(1%Z, [(2%Z, 3 / 4); (3%Z, 1 / 4)]); (2%Z, [(3%Z, 1)]); (3%Z, [])] basin3 = Ok b' /\ build_basin b' = Ok l /\ map hu_id l = [1; 2; 3]%Z.
Proof.
  destruct c82_multiple_used as (F & N & K & E). destruct (c82_accepted (small_grid 3 1) [1; 2; 3]%Z "multiple" false 3 _ basin3 N ltac:(cbn; intuition lia) F K E (or_intror (le_S 2 2 (le_n 2))) eq_refl eq_refl) as (b' & l & A & B & C & _). exists b', l. auto.
Qed.

(** *** Refuted *)
(** With one decimal digit a receiver of 5 % of the flow is given a share of 0, which the hydro units accept and the model refuses. *)
Theorem c82_zero_share_refuted : exists t b', calculate (small_grid 19 1) [1; 2; 3]%Z "multiple" false 1 = Ok t /\ In (1%Z, [(2%Z, 1); (3%Z, 0)]) t /\
  set_connectivity [1; 2; 3]%Z t basin3 = Ok b' /\ build_basin b' = Throw.
Proof.
  assert (E : calculate (small_grid 19 1) [1; 2; 3]%Z "multiple" false 1 = Ok [(1%Z, [(2%Z, 1); (3%Z, 0)]); (2%Z, [(3%Z, 1)]); (3%Z, [])]).
  { unfold calculate. rewrite gathered_small. cbn [bind String.eqb Ascii.eqb Bool.eqb each map fst snd]. f_equal. rewrite two_rows, one_row, round_one by lra. rewrite (round_two _ _ _ 9 0) by (cbn; first [lra|split; lra]). cbn [normalize_connectivity max_key]. repeat f_equal; cbn; lra. }
  rewrite E. eexists. destruct (set_connectivity_ok [1; 2; 3]%Z [(1%Z, [(2%Z, 1); (3%Z, 0)]); (2%Z, [(3%Z, 1)]); (3%Z, [])] basin3) as (b' & Sb).
  { intros id l H. cbn in H. destruct H as [H|[H|[H|[]]]]; injection H as <- <-; (split; [intro Ne; try congruence; cbn; lra|]); apply Forall_forall; intros (k, x) K; cbn in K; repeat destruct K as [K|K]; try contradiction; injection K as <- <-; (split; [lia|]); (split; [lra|]); cbn; auto. }
  exists b'. split; [reflexivity|]. split; [left; reflexivity|]. split; [exact Sb|]. pose proof (connectivity_set _ _ _ _ Sb) as (U & L & _). apply c68_refused. exists (mkLat 1 3 0). rewrite U, L. cbn. repeat split; auto. lra.
Qed.
Print Assumptions c82_zero_share_refuted.
(** More than a hundred receivers with equal flows: all are below the hundredth, and the unit is left without any connection. *)
Theorem c82_crowd_refuted : forall ks x p, NoDup ks -> ~ In 0%Z ks -> (100 < List.length ks)%nat -> 0 < x -> normalize_connectivity false p (map (fun k => (k, x)) ks) = [].
Proof.
  intros ks x p N N0 L Hx. unfold normalize_connectivity. set (d := map (fun k => (k, x)) ks). assert (Kin : forall k y, In (k, y) d -> In k ks /\ y = x) by (intros k y H; apply in_map_iff in H; destruct H as (j & E & H); injection E as -> <-; auto).
  destruct (max_key d) as [m|] eqn:M; [|apply max_key_none in M; exact M]. apply max_key_spec in M. destruct M as (y & Hm & _). apply Kin in Hm. rewrite (proj2 (Z.eqb_neq m 0)) by (intros ->; apply N0, Hm). cbn [andb].
  assert (Dd : d_del d 0 = d).
  { unfold d_del. clear - Kin N0. assert (G : forall l : dict, (forall k y, In (k, y) l -> In k ks) -> filter (fun q => negb (Z.eqb (fst q) 0)) l = l); [|apply G; intros k y H; apply (Kin k y H)].
    induction l as [|(k, y) l IH]; intro H; [reflexivity|]. cbn. rewrite (proj2 (Z.eqb_neq k 0)) by (intros ->; apply N0, (H 0%Z y); left; reflexivity). cbn. rewrite IH; [reflexivity|]. intros j z J. apply (H j z). right. exact J. }
  rewrite Dd. assert (Sm : d_sum d = INR (List.length ks) * x) by (unfold d_sum, d; rewrite Rsum_map; cbn [snd]; apply Rsum_const).
  assert (L1 : 100 < INR (List.length ks)). { apply lt_INR in L. change (INR 100) with (INR (4 * 25)) in L. rewrite mult_INR in L. cbn [INR] in L. lra. }
  assert (Sp : 100 * x < d_sum d) by (rewrite Sm; apply Rmult_lt_compat_r; assumption).
  rewrite (proj2 (Reqb_false _ 0)) by lra. replace (filter _ (normalize_row d)) with (@nil (Z * R)); [reflexivity|]. symmetry. unfold normalize_row.
  assert (G : forall l, (forall k y, In (k, y) l -> y = x) -> filter (fun q => Rleb (1 / 100) (snd q)) (map (fun q : Z * R => (fst q, snd q / d_sum d)) l) = []); [|apply G; intros k z H; apply (Kin k z H)].
  induction l as [|(k, z) l IH]; intro H; [reflexivity|]. cbn [map filter fst snd]. rewrite (proj2 (Rleb_false _ _)); [apply IH; intros j w J; apply (H j w); right; exact J|].
  rewrite (H k z (or_introl eq_refl)). apply (Rmult_lt_reg_r (d_sum d)); [lra|]. replace (x / d_sum d * d_sum d) with x by (field; lra). lra.
Qed.
Print Assumptions c82_crowd_refuted.
Example c82_crowd_case : NoDup (map Z.of_nat (seq 1 101)) /\ ~ In 0%Z (map Z.of_nat (seq 1 101)) /\ (100 < List.length (map Z.of_nat (seq 1 101)))%nat.
Proof.
  split; [|split; [|rewrite map_length, seq_length; lia]].
  - apply FinFun.Injective_map_NoDup; [intros a b; apply Nat2Z.inj|apply seq_NoDup].
  - intro H. apply in_map_iff in H. destruct H as (n & E & H). apply in_seq in H. lia.
Qed.
(** Water that leaves over the edge of the grid does not count as leaving the catchment: a unit that sends nine tenths of its water over the edge is
    still connected, with a share of 1. *)
Definition edge_grid : grid := mkGrid 1 3 (of_rows 0%Z [[1; 1; 2]]%Z) (of_rows 0 [[9; 1; 2]]) (of_rows 0%Z [[16; 1; 0]]%Z).
Theorem c82_edge_refuted : flowing edge_grid /\ d8 edge_grid /\ calculate edge_grid [1; 2]%Z "single" false 3 = Ok [(1%Z, [(2%Z, 1)]); (2%Z, [])].
Proof.
  split; [intros c Hc _; cbn in Hc; destruct Hc as [<-|[<-|[<-|[]]]]; cbn; lra|]. split; [intros c Hc; cbn in Hc; destruct Hc as [<-|[<-|[<-|[]]]]; cbn; first [left; lia|right; tauto]|]. reflexivity.
Qed.
Print Assumptions c82_edge_refuted.
