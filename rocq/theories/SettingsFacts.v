(** Lemmas on the settings: parameters. *)
From Coq Require Import String Ascii.
From Coq Require Import Classical_Prop.
From Verif Require Import Base BaseFacts Logger LoggerSpec LoggerFacts Settings SettingsSpec.

Lemma first_unique {X} (P : X -> Prop) l i j : first_with P l i -> first_with P l j -> i = j.
Proof.
  intros ((x & Hx & Px) & Hi) ((y & Hy & Py) & Hj). destruct (Nat.lt_trichotomy i j) as [L|[L|L]]; [|exact L|]; exfalso; [exact (Hj i x L Hx Px)|exact (Hi j y L Hy Py)].
Qed.
Lemma first_here {X} (P : X -> Prop) x l : P x -> first_with P (x :: l) 0.
Proof. intros H. split; [exists x; split; [reflexivity|exact H]|]. intros j y Hj. lia. Qed.
Lemma first_later {X} (P : X -> Prop) x l i : ~ P x -> first_with P l i -> first_with P (x :: l) (S i).
Proof.
  intros H ((y & Hy & Py) & Hi). split; [exists y; auto|]. intros [|j] z Hj Hz; [cbn in Hz; congruence|]. exact (Hi j z ltac:(lia) Hz).
Qed.
Lemma first_ex {X} (P : X -> Prop) l i : first_with P l i -> exists x, nth_error l i = Some x /\ P x.
Proof. intros (H & _). exact H. Qed.

Lemma set_param_spec name v : forall l,
  match set_param name v l with
  | Some l' => exists k, first_with (fun p => sp_name p = name) l k /\ blank l' = blank l /\ nth_error l' k = Some (mkPar name v) /\ forall j, j <> k -> nth_error l' j = nth_error l j
  | None => forall p, In p l -> sp_name p <> name
  end.
Proof.
  induction l as [|p l IH]; cbn [set_param]; [intros p []|]. destruct (String.eqb (sp_name p) name) eqn:E.
  - apply String.eqb_eq in E. exists 0%nat. split; [apply first_here; exact E|]. split; [reflexivity|]. split; [cbn; rewrite E; reflexivity|]. intros [|j] Hj; [congruence|reflexivity].
  - apply String.eqb_neq in E. destruct (set_param name v l) as [l'|].
    + destruct IH as (k & Hf & Hb & Hk & Ho). exists (S k). split; [apply first_later; assumption|]. split; [cbn; f_equal; exact Hb|]. split; [exact Hk|].
      intros [|j] Hj; [reflexivity|]. cbn. apply Ho. congruence.
    + intros q [<-|Hq]; auto.
Qed.
Lemma set_process_spec name v : forall l,
  match set_process_param name v l with
  | Some l' => exists j k q, first_with (fun q => exists p, In p (pr_params q) /\ sp_name p = name) l j /\ nth_error l j = Some q /\ first_with (fun p => sp_name p = name) (pr_params q) k /\
      map (fun p => (pr_name p, pr_log p, blank (pr_params p))) l' = map (fun p => (pr_name p, pr_log p, blank (pr_params p))) l /\
      (exists q', nth_error l' j = Some q' /\ nth_error (pr_params q') k = Some (mkPar name v) /\ forall m, m <> k -> nth_error (pr_params q') m = nth_error (pr_params q) m) /\
      forall m, m <> j -> nth_error l' m = nth_error l m
  | None => forall q p, In q l -> In p (pr_params q) -> sp_name p <> name
  end.
Proof.
  induction l as [|q l IH]; cbn [set_process_param]; [intros q p []|]. pose proof (set_param_spec name v (pr_params q)) as P. destruct (set_param name v (pr_params q)) as [ps|].
  - destruct P as (k & Hf & Hb & Hk & Ho). exists 0%nat, k, q. split; [apply first_here; destruct (first_ex _ _ _ Hf) as (p & Hp & En); exists p; split; [exact (nth_error_In _ _ Hp)|exact En]|].
    split; [reflexivity|]. split; [exact Hf|]. split; [cbn [map pr_name pr_log pr_params]; rewrite Hb; reflexivity|]. split; [exists (mkProc (pr_name q) (pr_log q) ps); auto|]. intros [|m] Hm; [congruence|reflexivity].
  - destruct (set_process_param name v l) as [l'|].
    + destruct IH as (j & k & q0 & Hf & Hq & Hk & Hb & Hc & Ho). exists (S j), k, q0. split; [apply first_later; [intros (p & Hp & En); exact (P p Hp En)|exact Hf]|].
      split; [exact Hq|]. split; [exact Hk|]. split; [cbn; f_equal; exact Hb|]. split; [exact Hc|]. intros [|m] Hm; [reflexivity|]. cbn. apply Ho. congruence.
    + intros r p [<-|Hr] Hp; [exact (P p Hp)|exact (IH r p Hr Hp)].
Qed.

Lemma named_unique name b j k j' k' : named_in name b j k -> named_in name b j' k' -> j = j' /\ k = k'.
Proof.
  destruct j as [j|], j' as [j'|]; cbn [named_in].
  - intros (_ & Hj & q & Hq & Hk) (_ & Hj' & q' & Hq' & Hk'). pose proof (first_unique _ _ _ _ Hj Hj'). subst j'. rewrite Hq in Hq'. injection Hq' as <-. split; [reflexivity|exact (first_unique _ _ _ _ Hk Hk')].
  - intros (H & _) Hk. destruct (first_ex _ _ _ Hk) as (p & Hp & En). destruct (H p (nth_error_In _ _ Hp) En).
  - intros Hk (H & _). destruct (first_ex _ _ _ Hk) as (p & Hp & En). destruct (H p (nth_error_In _ _ Hp) En).
  - intros H H'. split; [reflexivity|exact (first_unique _ _ _ _ H H')].
Qed.
Lemma set_in_brick_spec name v b :
  match set_in_brick name v b with
  | Some b' => exists j k, named_in name b j k /\ blank_brick b' = blank_brick b /\ param_in b' j k = Some (mkPar name v) /\
      forall j' k', j' <> j \/ k' <> k -> param_in b' j' k' = param_in b j' k'
  | None => ~ has_parameter name b
  end.
Proof.
  unfold set_in_brick. pose proof (set_param_spec name v (br_params b)) as P. destruct (set_param name v (br_params b)) as [ps|].
  - destruct P as (k & Hf & Hb & Hk & Ho). exists None, k. split; [exact Hf|]. split; [unfold blank_brick; cbn [br_name br_type br_log br_params br_processes]; rewrite Hb; reflexivity|]. split; [exact Hk|].
    intros [j'|] k' H; [reflexivity|]. cbn. apply Ho. destruct H; congruence.
  - pose proof (set_process_spec name v (br_processes b)) as Q. destruct (set_process_param name v (br_processes b)) as [prs|].
    + destruct Q as (j & k & q & Hf & Hq & Hk & Hb & (q' & Hq' & Hv & Hm) & Ho). exists (Some j), k. split; [split; [exact P|]; split; [exact Hf|]; exists q; auto|].
      split; [unfold blank_brick; cbn [br_name br_type br_log br_params br_processes]; rewrite Hb; reflexivity|]. split; [cbn; rewrite Hq'; exact Hv|].
      intros [j'|] k' H; [|reflexivity]. cbn. destruct (Nat.eq_dec j' j) as [->|N]; [|rewrite Ho by exact N; reflexivity]. rewrite Hq', Hq. apply Hm. destruct H; congruence.
    + intros ([j|] & k & H); cbn in H.
      * destruct H as (_ & H & _). destruct (first_ex _ _ _ H) as (q & Hq & p & Hp & En). exact (Q q p (nth_error_In _ _ Hq) Hp En).
      * destruct (first_ex _ _ _ H) as (p & Hp & En). exact (P p (nth_error_In _ _ Hp) En).
Qed.
Lemma set_in_splitter_spec name v s :
  match set_in_splitter name v s with
  | Some s' => exists k, first_with (fun p => sp_name p = name) (sl_params s) k /\ blank_splitter s' = blank_splitter s /\ nth_error (sl_params s') k = Some (mkPar name v) /\
      forall m, m <> k -> nth_error (sl_params s') m = nth_error (sl_params s) m
  | None => forall k, ~ first_with (fun p => sp_name p = name) (sl_params s) k
  end.
Proof.
  unfold set_in_splitter. pose proof (set_param_spec name v (sl_params s)) as P. destruct (set_param name v (sl_params s)) as [ps|].
  - destruct P as (k & Hf & Hb & Hk & Ho). exists k. split; [exact Hf|]. split; [unfold blank_splitter; cbn [sl_name sl_log sl_params]; rewrite Hb; reflexivity|]. split; [exact Hk|exact Ho].
  - intros k H. destruct (first_ex _ _ _ H) as (p & Hp & En). exact (P p (nth_error_In _ _ Hp) En).
Qed.
Lemma on_first_spec {X} (test : X -> bool) f : forall l,
  match on_first test f l with
  | (l', NotThere) => l' = l /\ forall x, In x l -> test x = false
  | (l', Changed) => exists i x y, first_with (fun x => test x = true) l i /\ nth_error l i = Some x /\ f x = Some y /\ nth_error l' i = Some y /\ length l' = length l /\ forall j, j <> i -> nth_error l' j = nth_error l j
  | (l', Raised) => l' = l /\ exists i x, first_with (fun x => test x = true) l i /\ nth_error l i = Some x /\ f x = None
  end.
Proof.
  induction l as [|x l IH]; cbn [on_first]; [split; [reflexivity|intros x []]|]. destruct (test x) eqn:T.
  - destruct (f x) as [y|] eqn:F.
    + exists 0%nat, x, y. split; [apply first_here; exact T|]. repeat split; try assumption; try reflexivity. intros [|j] Hj; [congruence|reflexivity].
    + split; [reflexivity|]. exists 0%nat, x. split; [apply first_here; exact T|]. auto.
  - destruct (on_first test f l) as [l' c]. assert (NT : ~ test x = true) by congruence. destruct c.
    + destruct IH as (-> & H). split; [reflexivity|]. intros y [<-|Hy]; auto.
    + destruct IH as (i & z & y & Hf & Hz & Fz & Hy & Hl & Ho). exists (S i), z, y. split; [apply (first_later _ _ _ _ NT Hf)|]. repeat split; try assumption; [cbn; congruence|].
      intros [|j] Hj; [reflexivity|]. cbn. apply Ho. congruence.
    + destruct IH as (-> & i & z & Hf & Hz & Fz). split; [reflexivity|]. exists (S i), z. split; [apply (first_later _ _ _ _ NT Hf)|]. auto.
Qed.
Lemma map_change {X Y} (g : X -> Y) l l' i x y : nth_error l i = Some x -> nth_error l' i = Some y -> g y = g x -> length l' = length l -> (forall j, j <> i -> nth_error l' j = nth_error l j) -> map g l' = map g l.
Proof.
  intros Hx Hy Hg Hl Ho. revert l' i Hx Hy Hl Ho. induction l as [|a l IH]; intros [|b l'] i Hx Hy Hl Ho; try discriminate; [reflexivity|]. cbn [map]. destruct i as [|i].
  - cbn in Hx, Hy. injection Hx as ->. injection Hy as ->. f_equal; [exact Hg|]. cbn in Hl. injection Hl as Hl. clear - Hl Ho. assert (l' = l) as ->; [|reflexivity].
    revert l' Hl Ho. induction l as [|c l IHl]; intros [|d l'] Hl Ho; try discriminate; [reflexivity|]. pose proof (Ho 1%nat ltac:(lia)) as E. cbn in E. injection E as ->. f_equal. apply IHl; [cbn in Hl; congruence|].
    intros [|j] Hj; [congruence|]. exact (Ho (S (S j)) ltac:(lia)).
  - pose proof (Ho 0%nat ltac:(lia)) as E. cbn in E. injection E as ->. f_equal. apply (IH l' i); [exact Hx|exact Hy|cbn in Hl; congruence|]. intros j Hj. exact (Ho (S j) ltac:(lia)).
Qed.
Lemma first_iff {X} (P Q : X -> Prop) l i : (forall x, P x <-> Q x) -> first_with P l i -> first_with Q l i.
Proof. intros H ((x & Hx & Px) & Hi). split; [exists x; split; [exact Hx|apply H; exact Px]|]. intros j y Hj Hy Qy. apply (Hi j y Hj Hy), H, Qy. Qed.
Lemma brick_named_iff n b : brick_named n b = true <-> br_name b = n.
Proof. apply String.eqb_eq. Qed.
Lemma splitter_named_iff n b : splitter_named n b = true <-> sl_name b = n.
Proof. apply String.eqb_eq. Qed.
Lemma not_named {X} (test : X -> bool) (P : X -> Prop) l : (forall x, test x = true <-> P x) -> (forall x, In x l -> test x = false) -> forall x, In x l -> ~ P x.
Proof. intros H H0 x Hx Px. apply H in Px. rewrite H0 in Px by exact Hx. discriminate. Qed.


(** The parameter [k] of the process [j], or of the brick itself, of the brick [i]. *)
Definition bget (l : list sbrick) (i : nat) (j : option nat) (k : nat) : option sparameter := match nth_error l i with Some b => param_in b j k | None => None end.
Definition sget (l : list ssplitter) (i k : nat) : option sparameter := match nth_error l i with Some x => nth_error (sl_params x) k | None => None end.

Lemma bricks_changed comp name v l l' : on_first (brick_named comp) (set_in_brick name v) l = (l', Changed) ->
  exists i j k b, first_with (fun b => br_name b = comp) l i /\ nth_error l i = Some b /\ named_in name b j k /\ map blank_brick l' = map blank_brick l /\
    bget l' i j k = Some (mkPar name v) /\ forall i' j' k', ~ (i' = i /\ j' = j /\ k' = k) -> bget l' i' j' k' = bget l i' j' k'.
Proof.
  intros E. pose proof (on_first_spec (brick_named comp) (set_in_brick name v) l) as H. rewrite E in H. destruct H as (i & b & b' & Hf & Hb & Es & Hb' & Hl & Ho).
  pose proof (set_in_brick_spec name v b) as S1. rewrite Es in S1. destruct S1 as (j & k & Nm & Bl & Pv & Po). exists i, j, k, b.
  split; [exact (first_iff _ _ _ _ (brick_named_iff comp) Hf)|]. split; [exact Hb|]. split; [exact Nm|]. split; [exact (map_change blank_brick _ _ i b b' Hb Hb' Bl Hl Ho)|].
  unfold bget. split; [rewrite Hb'; exact Pv|]. intros i' j' k' Hn. destruct (Nat.eq_dec i' i) as [->|Ni]; [|rewrite Ho by exact Ni; reflexivity]. rewrite Hb', Hb. apply Po.
  assert (Dj : {j' = j} + {j' <> j}) by (decide equality; apply Nat.eq_dec). destruct Dj as [->|]; [|left; assumption]. right. intros ->. apply Hn. auto.
Qed.
Lemma bricks_raised comp name v l l' : on_first (brick_named comp) (set_in_brick name v) l = (l', Raised) ->
  exists i b, first_with (fun b => br_name b = comp) l i /\ nth_error l i = Some b /\ ~ has_parameter name b.
Proof.
  intros E. pose proof (on_first_spec (brick_named comp) (set_in_brick name v) l) as H. rewrite E in H. destruct H as (_ & i & b & Hf & Hb & Es). exists i, b.
  split; [exact (first_iff _ _ _ _ (brick_named_iff comp) Hf)|]. split; [exact Hb|]. pose proof (set_in_brick_spec name v b) as S1. rewrite Es in S1. exact S1.
Qed.
Lemma bricks_absent comp name v l l' : on_first (brick_named comp) (set_in_brick name v) l = (l', NotThere) -> forall b, In b l -> br_name b <> comp.
Proof.
  intros E. pose proof (on_first_spec (brick_named comp) (set_in_brick name v) l) as H. rewrite E in H. destruct H as (_ & H). exact (not_named _ _ _ (brick_named_iff comp) H).
Qed.
Lemma splitters_changed comp name v l l' : on_first (splitter_named comp) (set_in_splitter name v) l = (l', Changed) ->
  exists i k b, first_with (fun b => sl_name b = comp) l i /\ nth_error l i = Some b /\ first_with (fun q => sp_name q = name) (sl_params b) k /\ map blank_splitter l' = map blank_splitter l /\
    sget l' i k = Some (mkPar name v) /\ forall i' k', ~ (i' = i /\ k' = k) -> sget l' i' k' = sget l i' k'.
Proof.
  intros E. pose proof (on_first_spec (splitter_named comp) (set_in_splitter name v) l) as H. rewrite E in H. destruct H as (i & b & b' & Hf & Hb & Es & Hb' & Hl & Ho).
  pose proof (set_in_splitter_spec name v b) as S1. rewrite Es in S1. destruct S1 as (k & Nm & Bl & Pv & Po). exists i, k, b.
  split; [exact (first_iff _ _ _ _ (splitter_named_iff comp) Hf)|]. split; [exact Hb|]. split; [exact Nm|]. split; [exact (map_change blank_splitter _ _ i b b' Hb Hb' Bl Hl Ho)|].
  unfold sget. split; [rewrite Hb'; exact Pv|]. intros i' k' Hn. destruct (Nat.eq_dec i' i) as [->|Ni]; [|rewrite Ho by exact Ni; reflexivity]. rewrite Hb', Hb. apply Po. intros ->. apply Hn. auto.
Qed.
Lemma splitters_raised comp name v l l' : on_first (splitter_named comp) (set_in_splitter name v) l = (l', Raised) ->
  exists i b, first_with (fun b => sl_name b = comp) l i /\ nth_error l i = Some b /\ forall k, ~ first_with (fun q => sp_name q = name) (sl_params b) k.
Proof.
  intros E. pose proof (on_first_spec (splitter_named comp) (set_in_splitter name v) l) as H. rewrite E in H. destruct H as (_ & i & b & Hf & Hb & Es). exists i, b.
  split; [exact (first_iff _ _ _ _ (splitter_named_iff comp) Hf)|]. split; [exact Hb|]. pose proof (set_in_splitter_spec name v b) as S1. rewrite Es in S1. exact S1.
Qed.
Lemma splitters_absent comp name v l l' : on_first (splitter_named comp) (set_in_splitter name v) l = (l', NotThere) -> forall b, In b l -> sl_name b <> comp.
Proof.
  intros E. pose proof (on_first_spec (splitter_named comp) (set_in_splitter name v) l) as H. rewrite E in H. destruct H as (_ & H). exact (not_named _ _ _ (splitter_named_iff comp) H).
Qed.

Definition with_bricks (s : side) := match s with OfUnits => with_unit_bricks | OfBasin => with_basin_bricks end.
Definition with_splitters (s : side) := match s with OfUnits => with_unit_splitters | OfBasin => with_basin_splitters end.

(** What the change of one variant comes to. *)
Definition changed_well (st : structure) comp name v st' := (exists p, designated st comp name p) /\ only_changed (designated st comp name) name v st st'.
Definition raised_well (st : structure) comp name := has_component st comp /\ forall p, ~ designated st comp name p.

Lemma called_unique st comp s i s' i' : brick_called st comp s i -> brick_called st comp s' i' -> s' = s /\ i' = i.
Proof.
  intros (F & G) (F' & G'). assert (X : forall i', first_with (fun b => br_name b = comp) (str_unit_bricks st) i' -> (forall b, In b (str_unit_bricks st) -> br_name b <> comp) -> False).
  { intros z Hz H. destruct (first_ex _ _ _ Hz) as (x & Hx & Ex). exact (H x (nth_error_In _ _ Hx) Ex). }
  destruct s, s'; cbn [bricks_of] in *; try (destruct (X _ F G'); fail); try (destruct (X _ F' G); fail); split; try reflexivity; exact (first_unique _ _ _ _ F' F).
Qed.
Lemma called_not_splitter st comp s i s' i' : brick_called st comp s i -> splitter_called st comp s' i' -> False.
Proof. intros (F & _) (_ & H & _). destruct (first_ex _ _ _ F) as (x & Hx & Ex). exact (H x s (nth_error_In _ _ Hx) Ex). Qed.
Lemma scalled_unique st comp s i s' i' : splitter_called st comp s i -> splitter_called st comp s' i' -> s' = s /\ i' = i.
Proof.
  intros (F & _ & G) (F' & _ & G'). assert (X : forall i', first_with (fun b => sl_name b = comp) (str_unit_splitters st) i' -> (forall b, In b (str_unit_splitters st) -> sl_name b <> comp) -> False).
  { intros z Hz H. destruct (first_ex _ _ _ Hz) as (x & Hx & Ex). exact (H x (nth_error_In _ _ Hx) Ex). }
  destruct s, s'; cbn [splitters_of] in *; try (destruct (X _ F G'); fail); try (destruct (X _ F' G); fail); split; try reflexivity; exact (first_unique _ _ _ _ F' F).
Qed.
Lemma designated_brick st comp name s i j k s' i' : brick_called st comp s i -> (match j with None => designated st comp name (BrickPlace s' i' k) | Some j => designated st comp name (ProcessPlace s' i' j k) end) <->
  s' = s /\ i' = i /\ exists b, nth_error (bricks_of st s) i = Some b /\ named_in name b j k.
Proof.
  intros C. assert (E : (match j with None => designated st comp name (BrickPlace s' i' k) | Some j => designated st comp name (ProcessPlace s' i' j k) end) <-> (brick_called st comp s' i' /\ exists b, nth_error (bricks_of st s') i' = Some b /\ named_in name b j k)) by (destruct j; reflexivity).
  rewrite E. split; [intros (C' & H)|intros (-> & -> & H); auto]. destruct (called_unique _ _ _ _ _ _ C C') as (-> & ->). auto.
Qed.
Lemma get_unit st s l i j k : bget (bricks_of (with_bricks s st l) s) i j k = bget l i j k.
Proof. destruct s; reflexivity. Qed.
Lemma brick_case st comp name v s l' : (s = OfBasin -> forall b, In b (str_unit_bricks st) -> br_name b <> comp) ->
  on_first (brick_named comp) (set_in_brick name v) (bricks_of st s) = (l', Changed) -> changed_well st comp name v (with_bricks s st l').
Proof.
  intros Ab E. destruct (bricks_changed _ _ _ _ _ E) as (i & j & k & b & Hf & Hb & Nm & Bl & Pv & Po).
  assert (C : brick_called st comp s i) by (split; [exact Hf|destruct s; auto]). pose proof (fun j' k' s' i' => designated_brick st comp name s i j' k' s' i' C) as D.
  assert (D' : forall j' k' s' i', (match j' with None => designated st comp name (BrickPlace s' i' k') | Some j => designated st comp name (ProcessPlace s' i' j k') end) <-> s' = s /\ i' = i /\ j' = j /\ k' = k).
  { intros j' k' s' i'. rewrite D. split; [intros (-> & -> & b0 & Hb0 & N0)|intros (-> & -> & -> & ->)].
    - rewrite Hb in Hb0. injection Hb0 as <-. destruct (named_unique _ _ _ _ _ _ Nm N0) as (-> & ->). auto.
    - split; [reflexivity|]. split; [reflexivity|]. exists b. auto. }
  clear D. split; [pose proof (proj2 (D' j k s i) ltac:(auto)) as X; destruct j; [eexists (ProcessPlace _ _ _ _)|eexists (BrickPlace _ _ _)]; exact X|]. split.
  { unfold blank_structure. destruct s; cbn [with_bricks with_unit_bricks with_basin_bricks str_log str_unit_bricks str_basin_bricks str_covers str_unit_splitters str_basin_splitters bricks_of] in *; rewrite Bl; reflexivity. }
  assert (K : forall j' k' s' i', (s' = s /\ i' = i /\ j' = j /\ k' = k -> bget (bricks_of (with_bricks s st l') s') i' j' k' = Some (mkPar name v)) /\
    (~ (s' = s /\ i' = i /\ j' = j /\ k' = k) -> bget (bricks_of (with_bricks s st l') s') i' j' k' = bget (bricks_of st s') i' j' k')).
  { intros j' k' s' i'. split; [intros (-> & -> & -> & ->); rewrite get_unit; exact Pv|]. intros Hn. destruct s, s'; try reflexivity; cbn [bricks_of with_bricks with_unit_bricks with_basin_bricks str_unit_bricks str_basin_bricks] in *; apply Po; intros (-> & -> & ->); apply Hn; auto. }
  intros [s' i' k'|s' i' j' k'|s' i' k'].
  - rewrite (D' None k' s' i'). exact (K None k' s' i').
  - rewrite (D' (Some j') k' s' i'). exact (K (Some j') k' s' i').
  - split; [intros (H & _); destruct (called_not_splitter _ _ _ _ _ _ C H)|]. intros _. destruct s, s'; reflexivity.
Qed.
Lemma brick_raised_case st comp name v s l' : (s = OfBasin -> forall b, In b (str_unit_bricks st) -> br_name b <> comp) ->
  on_first (brick_named comp) (set_in_brick name v) (bricks_of st s) = (l', Raised) -> raised_well st comp name.
Proof.
  intros Ab E. destruct (bricks_raised _ _ _ _ _ E) as (i & b & Hf & Hb & Nm).
  assert (C : brick_called st comp s i) by (split; [exact Hf|destruct s; auto]). split.
  - left. exists s, b. split; [exact (nth_error_In _ _ Hb)|]. destruct (first_ex _ _ _ Hf) as (x & Hx & Ex). congruence.
  - intros [s' i' k'|s' i' j' k'|s' i' k'] H.
    + apply (designated_brick st comp name s i None k' s' i' C) in H. destruct H as (-> & -> & b0 & Hb0 & N0). apply Nm. exists None, k'. congruence.
    + apply (designated_brick st comp name s i (Some j') k' s' i' C) in H. destruct H as (-> & -> & b0 & Hb0 & N0). apply Nm. exists (Some j'), k'. congruence.
    + exact (called_not_splitter _ _ _ _ _ _ C (proj1 H)).
Qed.
Lemma splitter_case st comp name v s l' : (forall b t, In b (bricks_of st t) -> br_name b <> comp) -> (s = OfBasin -> forall b, In b (str_unit_splitters st) -> sl_name b <> comp) ->
  on_first (splitter_named comp) (set_in_splitter name v) (splitters_of st s) = (l', Changed) -> changed_well st comp name v (with_splitters s st l').
Proof.
  intros Nb Ab E. destruct (splitters_changed _ _ _ _ _ E) as (i & k & b & Hf & Hb & Nm & Bl & Pv & Po).
  assert (C : splitter_called st comp s i) by (split; [exact Hf|]; split; [exact Nb|]; destruct s; auto).
  assert (D' : forall k' s' i', designated st comp name (SplitterPlace s' i' k') <-> s' = s /\ i' = i /\ k' = k).
  { intros k' s' i'. split; [intros (C' & b0 & Hb0 & N0)|intros (-> & -> & ->)].
    - destruct (scalled_unique _ _ _ _ _ _ C C') as (-> & ->). rewrite Hb in Hb0. injection Hb0 as <-. pose proof (first_unique _ _ _ _ N0 Nm). auto.
    - split; [exact C|]. exists b. auto. }
  split; [exists (SplitterPlace s i k); apply D'; auto|]. split.
  { unfold blank_structure. destruct s; cbn [with_splitters with_unit_splitters with_basin_splitters str_log str_unit_bricks str_basin_bricks str_covers str_unit_splitters str_basin_splitters splitters_of] in *; rewrite Bl; reflexivity. }
  intros [s' i' k'|s' i' j' k'|s' i' k'].
  - split; [intros ((F & _) & _); destruct (first_ex _ _ _ F) as (x & Hx & Ex); destruct (Nb x s' (nth_error_In _ _ Hx) Ex)|]. intros _. destruct s, s'; reflexivity.
  - split; [intros ((F & _) & _); destruct (first_ex _ _ _ F) as (x & Hx & Ex); destruct (Nb x s' (nth_error_In _ _ Hx) Ex)|]. intros _. destruct s, s'; reflexivity.
  - rewrite D'. split; [intros (-> & -> & ->); destruct s; exact Pv|]. intros Hn. destruct s, s'; try reflexivity; apply Po; intros (-> & ->); apply Hn; auto.
Qed.
Lemma splitter_raised_case st comp name v s l' : (forall b t, In b (bricks_of st t) -> br_name b <> comp) -> (s = OfBasin -> forall b, In b (str_unit_splitters st) -> sl_name b <> comp) ->
  on_first (splitter_named comp) (set_in_splitter name v) (splitters_of st s) = (l', Raised) -> raised_well st comp name.
Proof.
  intros Nb Ab E. destruct (splitters_raised _ _ _ _ _ E) as (i & b & Hf & Hb & Nm).
  assert (C : splitter_called st comp s i) by (split; [exact Hf|]; split; [exact Nb|]; destruct s; auto). split.
  - right. exists s, b. split; [exact (nth_error_In _ _ Hb)|]. destruct (first_ex _ _ _ Hf) as (x & Hx & Ex). congruence.
  - intros [s' i' k'|s' i' j' k'|s' i' k'] H.
    + destruct H as ((F & _) & _). destruct (first_ex _ _ _ F) as (x & Hx & Ex). exact (Nb x s' (nth_error_In _ _ Hx) Ex).
    + destruct H as ((F & _) & _). destruct (first_ex _ _ _ F) as (x & Hx & Ex). exact (Nb x s' (nth_error_In _ _ Hx) Ex).
    + destruct H as (C' & b0 & Hb0 & N0). destruct (scalled_unique _ _ _ _ _ _ C C') as (-> & ->). rewrite Hb in Hb0. injection Hb0 as <-. exact (Nm _ N0).
Qed.

(** One variant, by name: whatever the text of the component when it is there, otherwise when it does not contain "type:". *)
Lemma set_named comp name v st : ~ has_text "type:" comp \/ has_component st comp ->
  match set_in_structure comp name v st with
  | (st', Changed) => changed_well st comp name v st'
  | (st', NotThere) => st' = st /\ ~ has_component st comp
  | (st', Raised) => st' = st /\ raised_well st comp name
  end.
Proof.
  intros NT. unfold set_in_structure.
  destruct (on_first (brick_named comp) (set_in_brick name v) (str_unit_bricks st)) as [l1 [| |]] eqn:E1;
    [|exact (brick_case st comp name v OfUnits l1 ltac:(discriminate) E1)|split; [reflexivity|exact (brick_raised_case st comp name v OfUnits l1 ltac:(discriminate) E1)]].
  pose proof (bricks_absent _ _ _ _ _ E1) as A1.
  destruct (on_first (brick_named comp) (set_in_brick name v) (str_basin_bricks st)) as [l2 [| |]] eqn:E2;
    [|exact (brick_case st comp name v OfBasin l2 ltac:(auto) E2)|split; [reflexivity|exact (brick_raised_case st comp name v OfBasin l2 ltac:(auto) E2)]].
  pose proof (bricks_absent _ _ _ _ _ E2) as A2. assert (A : forall b t, In b (bricks_of st t) -> br_name b <> comp) by (intros b [|]; [apply A1|apply A2]).
  destruct (on_first (splitter_named comp) (set_in_splitter name v) (str_unit_splitters st)) as [l3 [| |]] eqn:E3;
    [|exact (splitter_case st comp name v OfUnits l3 A ltac:(discriminate) E3)|split; [reflexivity|exact (splitter_raised_case st comp name v OfUnits l3 A ltac:(discriminate) E3)]].
  pose proof (splitters_absent _ _ _ _ _ E3) as A3.
  destruct (on_first (splitter_named comp) (set_in_splitter name v) (str_basin_splitters st)) as [l4 [| |]] eqn:E4;
    [|exact (splitter_case st comp name v OfBasin l4 A ltac:(auto) E4)|split; [reflexivity|exact (splitter_raised_case st comp name v OfBasin l4 A ltac:(auto) E4)]].
  pose proof (splitters_absent _ _ _ _ _ E4) as A4.
  assert (N : ~ has_component st comp) by (intros [(s & b & Hb & Eb)|([|] & x & Hx & Ex)]; [exact (A b s Hb Eb)|exact (A3 x Hx Ex)|exact (A4 x Hx Ex)]).
  destruct (contains "type:" comp) eqn:Ct; [|split; [reflexivity|exact N]]. exfalso. destruct NT as [NT|NT]; [|exact (N NT)]. apply NT. apply contains_spec. exact Ct.
Qed.

(** ** Selection by type *)
Lemma first_map {X Y} (g : X -> Y) (P : X -> Prop) (Q : Y -> Prop) l i : (forall x, P x <-> Q (g x)) -> first_with P l i <-> first_with Q (map g l) i.
Proof.
  intros H. unfold first_with. split; intros ((x & Hx & Px) & Hi).
  - split; [exists (g x); split; [apply map_nth_error; exact Hx|apply H; exact Px]|]. intros j y Hj Hy Qy. rewrite nth_error_map in Hy. destruct (nth_error l j) as [z|] eqn:E; [|discriminate]. cbn in Hy. injection Hy as <-. apply (Hi j z Hj E). apply H. exact Qy.
  - rewrite nth_error_map in Hx. destruct (nth_error l i) as [z|] eqn:E; [|discriminate]. cbn in Hx. injection Hx as <-. split; [exists z; split; [reflexivity|apply H; exact Px]|]. intros j y Hj Hy Py. apply (Hi j (g y) Hj (map_nth_error _ _ _ Hy)). apply H. exact Py.
Qed.
Lemma named_blank name b b' j k : blank_brick b' = blank_brick b -> named_in name b' j k -> named_in name b j k.
Proof.
  unfold blank_brick. intros E. injection E as _ _ _ Ep Eq.
  assert (Fp : forall l l' m, blank l' = blank l -> first_with (fun p => sp_name p = name) l' m -> first_with (fun p => sp_name p = name) l m).
  { intros l l' m Hb H. apply (first_map sp_name _ (fun s => s = name)); [reflexivity|]. unfold blank in Hb. rewrite <- Hb. apply (first_map sp_name _ (fun s => s = name)) in H; [exact H|reflexivity]. }
  assert (Iq : forall p l l', blank l' = blank l -> In p l -> exists p', In p' l' /\ sp_name p' = sp_name p).
  { intros p l l' Hb H. apply (in_map sp_name) in H. unfold blank in Hb. rewrite <- Hb in H. apply in_map_iff in H. destruct H as (p' & Ep' & Hp'). exists p'. auto. }
  destruct j as [j|]; cbn [named_in]; [|apply Fp; exact Ep]. intros (Hn & Hj & q & Hq & Hk). set (g := fun p : sprocess => (pr_name p, pr_log p, blank (pr_params p))) in Eq.
  split; [intros p Hp En; destruct (Iq p _ _ Ep Hp) as (p' & Hp' & En'); apply (Hn p' Hp'); congruence|]. split.
  - assert (Pg : forall q, (exists p, In p (pr_params q) /\ sp_name p = name) <-> In name (snd (g q))).
    { intros q0. cbn [g snd]. unfold blank. rewrite in_map_iff. split; intros (p & H1 & H2); exists p; auto. }
    apply (first_map g _ (fun t => In name (snd t)) _ _ Pg). rewrite <- Eq. apply (first_map g _ (fun t => In name (snd t)) _ _ Pg) in Hj. exact Hj.
  - pose proof (map_nth_error g _ _ Hq) as Hg. rewrite Eq, nth_error_map in Hg. destruct (nth_error (br_processes b) j) as [q0|]; [|discriminate]. cbn in Hg. injection Hg as E1 E2 E3. exists q0. split; [reflexivity|]. exact (Fp _ _ _ (eq_sym E3) Hk).
Qed.
Lemma has_blank name b b' : blank_brick b' = blank_brick b -> has_parameter name b' -> has_parameter name b.
Proof. intros E (j & k & H). exists j, k. exact (named_blank _ _ _ _ _ E H). Qed.
Lemma blank_nth l l' : map blank_brick l' = map blank_brick l -> forall i b, nth_error l i = Some b -> exists b', nth_error l' i = Some b' /\ blank_brick b' = blank_brick b.
Proof. intros E i b H. apply (map_nth_error blank_brick) in H. rewrite <- E, nth_error_map in H. destruct (nth_error l' i) as [b'|]; [|discriminate]. exists b'. split; [reflexivity|]. cbn [option_map] in H. congruence. Qed.
Lemma blank_name b b' : blank_brick b' = blank_brick b -> br_name b' = br_name b /\ br_type b' = br_type b.
Proof. unfold blank_brick. intros E. injection E. auto. Qed.
Lemma blank_names l l' : map blank_brick l' = map blank_brick l -> map br_name l' = map br_name l.
Proof.
  revert l'. induction l as [|b l IH]; intros [|b' l'] E; try discriminate; [reflexivity|]. cbn [map] in *. assert (Eb : blank_brick b' = blank_brick b) by congruence. assert (El : map blank_brick l' = map blank_brick l) by congruence.
  rewrite (IH _ El), (proj1 (blank_name _ _ Eb)). reflexivity.
Qed.

Definition chosen_names (names : list string) (name : string) (l : list sbrick) (i : nat) (j : option nat) (k : nat) : Prop :=
  exists b, nth_error l i = Some b /\ In (br_name b) names /\ named_in name b j k.
Lemma names_set name v : forall names l, NoDup (map br_name l) -> (forall n, In n names -> exists b, In b l /\ br_name b = n /\ has_parameter name b) ->
  exists l', set_by_names names name v l = (l', Changed) /\ map blank_brick l' = map blank_brick l /\
    forall i j k, (chosen_names names name l i j k -> bget l' i j k = Some (mkPar name v)) /\ (~ chosen_names names name l i j k -> bget l' i j k = bget l i j k).
Proof.
  induction names as [|n names IH]; intros l ND H; cbn [set_by_names].
  { exists l. split; [reflexivity|]. split; [reflexivity|]. intros i j k. split; [intros (b & _ & [] & _)|reflexivity]. }
  destruct (H n ltac:(left; reflexivity)) as (b0 & Hb0 & En0 & Hp0). assert (U : forall b, In b l -> br_name b = n -> b = b0).
  { intros b Hb Eb. clear - ND Hb Hb0 Eb En0. induction l as [|a l IHl]; [destruct Hb|]. cbn [map] in ND. inversion_clear ND as [|? ? Na Nl]. destruct Hb as [->|Hb], Hb0 as [->|Hb0]; auto.
    - destruct Na. rewrite Eb, <- En0. apply in_map. exact Hb0. - destruct Na. rewrite En0, <- Eb. apply in_map. exact Hb. }
  destruct (on_first (brick_named n) (set_in_brick name v) l) as [l1 [| |]] eqn:E.
  - destruct (bricks_absent _ _ _ _ _ E b0 Hb0 En0).
  - destruct (bricks_changed _ _ _ _ _ E) as (i0 & j0 & k0 & b & Hf & Hb & Nm & Bl & Pv & Po). destruct (first_ex _ _ _ Hf) as (x & Hx & Ex). rewrite Hb in Hx. injection Hx as <-.
    destruct (IH l1) as (l' & Es & Bl' & Hc).
    + rewrite (blank_names _ _ Bl). exact ND.
    + intros n' Hn'. destruct (H n' ltac:(right; exact Hn')) as (b' & Hb' & En' & Hp'). destruct (In_nth_error _ _ Hb') as (i' & Hi'). destruct (blank_nth _ _ Bl i' b' Hi') as (b'' & Hi'' & Eb).
      exists b''. split; [exact (nth_error_In _ _ Hi'')|]. split; [rewrite (proj1 (blank_name _ _ Eb)); exact En'|]. exact (has_blank _ _ _ (eq_sym Eb) Hp').
    + exists l'. split; [exact Es|]. split; [congruence|]. intros i j k.
      assert (Ch : chosen_names names name l i j k -> chosen_names names name l1 i j k).
      { intros (c & Hc1 & Hc2 & Hc3). destruct (blank_nth _ _ Bl i c Hc1) as (c' & Hc' & Eb). exists c'. split; [exact Hc'|]. split; [rewrite (proj1 (blank_name _ _ Eb)); exact Hc2|exact (named_blank _ _ _ _ _ (eq_sym Eb) Hc3)]. }
      assert (Ch' : chosen_names names name l1 i j k -> chosen_names names name l i j k).
      { intros (c & Hc1 & Hc2 & Hc3). destruct (blank_nth _ _ (eq_sym Bl) i c Hc1) as (c' & Hc' & Eb). exists c'. split; [exact Hc'|]. split; [rewrite (proj1 (blank_name _ _ Eb)); exact Hc2|exact (named_blank _ _ _ _ _ (eq_sym Eb) Hc3)]. }
      assert (DJ : forall a c : option nat, {a = c} + {a <> c}) by (intros; decide equality; apply Nat.eq_dec).
      assert (Dec : {i = i0 /\ j = j0 /\ k = k0} + {~ (i = i0 /\ j = j0 /\ k = k0)}).
      { destruct (Nat.eq_dec i i0), (DJ j j0), (Nat.eq_dec k k0); try (left; auto; fail); right; intros (? & ? & ?); contradiction. }
      destruct (Hc i j k) as (H1 & H2). split.
      * intros (c & Hc1 & Hc2 & Hc3). destruct Dec as [(-> & -> & ->)|Nd].
        -- destruct (classic (chosen_names names name l1 i0 j0 k0)) as [Y|Y]; [exact (H1 Y)|]. rewrite (H2 Y). exact Pv.
        -- destruct Hc2 as [Hc2|Hc2]; [|apply H1, Ch; exists c; auto]. exfalso. apply Nd.
           assert (c = b0) by (apply U; [exact (nth_error_In _ _ Hc1)|auto]). assert (b = b0) by (apply U; [exact (nth_error_In _ _ Hb)|exact Ex]). subst c b.
           destruct (named_unique _ _ _ _ _ _ Hc3 Nm) as (-> & ->). split; [|auto]. apply (NoDup_nth_error (map br_name l)); [exact ND|rewrite map_length; apply nth_error_Some; congruence|]. rewrite !nth_error_map, Hc1, Hb. reflexivity.
      * intros Nc. assert (Ni : ~ (i = i0 /\ j = j0 /\ k = k0)) by (intros (-> & -> & ->); apply Nc; exists b; split; [exact Hb|]; split; [left; auto|exact Nm]).
        rewrite H2; [exact (Po i j k Ni)|]. intros Y. apply Nc. destruct (Ch' Y) as (c & Hc1 & Hc2 & Hc3). exists c. split; [exact Hc1|]. split; [right; exact Hc2|exact Hc3].
  - destruct (bricks_raised _ _ _ _ _ E) as (i & b & Hf & Hb & Np). destruct (first_ex _ _ _ Hf) as (x & Hx & Ex). rewrite Hb in Hx. injection Hx as <-. rewrite (U b (nth_error_In _ _ Hb) Ex) in Np. contradiction.
Qed.

Lemma type_matches_iff type b : type_matches type (br_type b) = true <-> of_type type b.
Proof.
  unfold type_matches, of_type. rewrite Bool.orb_true_iff, Bool.andb_true_iff, !String.eqb_eq, existsb_exists. unfold land_cover_types. split.
  - intros [H|(H & x & Hx & E)]; [left; exact H|]. right. apply String.eqb_eq in E. subst x. auto.
  - intros [H|(H & Hi)]; [left; exact H|right]. split; [exact H|]. exists (br_type b). split; [exact Hi|]. apply String.eqb_refl.
Qed.
Lemma after_colon_spec : forall a type, no_colon a -> after_colon (a ++ ":" ++ type) = type.
Proof.
  intros a type H. apply colon_free in H. induction a as [|c a IH]; [reflexivity|]. cbn [append after_colon] in *. destruct (Ascii.eqb c ":") eqn:E.
  - apply Ascii.eqb_eq in E. subst c. destruct H. left. reflexivity.
  - apply IH. intros H'. apply H. right. exact H'.
Qed.
Lemma selector_type comp type : type_selector comp type -> after_colon comp = type /\ contains "type:" comp = true.
Proof.
  intros (a & -> & Na). split.
  - replace (a ++ "type:" ++ type)%string with ((a ++ "type") ++ ":" ++ type)%string; [|rewrite !append_assoc; reflexivity]. apply after_colon_spec. apply no_colon_app; [exact Na|]. apply colon_free. cbn. intuition congruence.
  - apply contains_spec. exists a, type. reflexivity.
Qed.

Lemma set_typed comp type name v st : type_selector comp type -> ~ has_component st comp -> NoDup (map br_name (str_unit_bricks st)) ->
  (forall b, In b (str_unit_bricks st) -> of_type type b -> has_parameter name b) -> (forall b, In b (str_basin_bricks st) -> ~ of_type type b) ->
  exists st', set_in_structure comp name v st = (st', Changed) /\ only_changed (designated_by_type st type name) name v st st'.
Proof.
  intros T Nc ND Hp Hb. unfold set_in_structure.
  assert (A : forall s l, l = bricks_of st s -> on_first (brick_named comp) (set_in_brick name v) l = (l, NotThere)).
  { intros s l ->. assert (H : forall b, In b (bricks_of st s) -> brick_named comp b = false). { intros b Hi. destruct (brick_named comp b) eqn:E; [|reflexivity]. destruct Nc. left. exists s, b. split; [exact Hi|apply String.eqb_eq; exact E]. }
    revert H. induction (bricks_of st s) as [|b l IH]; intros H; [reflexivity|]. cbn [on_first]. rewrite H by (left; reflexivity). rewrite IH by (intros; apply H; right; assumption). reflexivity. }
  assert (B : forall s l, l = splitters_of st s -> on_first (splitter_named comp) (set_in_splitter name v) l = (l, NotThere)).
  { intros s l ->. assert (H : forall b, In b (splitters_of st s) -> splitter_named comp b = false). { intros b Hi. destruct (splitter_named comp b) eqn:E; [|reflexivity]. destruct Nc. right. exists s, b. split; [exact Hi|apply String.eqb_eq; exact E]. }
    revert H. induction (splitters_of st s) as [|b l IH]; intros H; [reflexivity|]. cbn [on_first]. rewrite H by (left; reflexivity). rewrite IH by (intros; apply H; right; assumption). reflexivity. }
  rewrite (A OfUnits (str_unit_bricks st) eq_refl), (A OfBasin (str_basin_bricks st) eq_refl), (B OfUnits (str_unit_splitters st) eq_refl), (B OfBasin (str_basin_splitters st) eq_refl). destruct (selector_type _ _ T) as (-> & ->).
  destruct (names_set name v (names_of_type type (str_unit_bricks st)) (str_unit_bricks st) ND) as (l' & -> & Bl & Hc).
  { intros n Hn. unfold names_of_type in Hn. apply in_map_iff in Hn. destruct Hn as (b & En & Hi). apply filter_In in Hi. destruct Hi as (Hi & Ht). exists b. split; [exact Hi|]. split; [exact En|]. apply Hp; [exact Hi|]. apply type_matches_iff. exact Ht. }
  assert (E0 : names_of_type type (str_basin_bricks st) = []).
  { unfold names_of_type. revert Hb. induction (str_basin_bricks st) as [|b l IH]; intros H; [reflexivity|]. cbn [filter]. destruct (type_matches type (br_type b)) eqn:E; [|apply IH; intros; apply H; right; assumption].
    destruct (H b ltac:(left; reflexivity)). apply type_matches_iff. exact E. }
  rewrite E0. cbn [set_by_names]. eexists. split; [reflexivity|].
  assert (Ch : forall i j k, chosen_names (names_of_type type (str_unit_bricks st)) name (str_unit_bricks st) i j k <-> exists b, nth_error (str_unit_bricks st) i = Some b /\ of_type type b /\ named_in name b j k).
  { intros i j k. split; intros (b & Hb1 & Hb2 & Hb3); exists b; (split; [exact Hb1|]); (split; [|exact Hb3]).
    - unfold names_of_type in Hb2. apply in_map_iff in Hb2. destruct Hb2 as (b' & En & Hi). apply filter_In in Hi. destruct Hi as (Hi & Ht). destruct (In_nth_error _ _ Hi) as (i' & Hi'). 
      assert (i' = i). { apply (NoDup_nth_error (map br_name (str_unit_bricks st))); [exact ND|rewrite map_length; apply nth_error_Some; congruence|]. rewrite !nth_error_map, Hi', Hb1. cbn. rewrite En. reflexivity. }
      subst i'. rewrite Hb1 in Hi'. injection Hi' as <-. apply type_matches_iff. exact Ht.
    - unfold names_of_type. apply in_map_iff. exists b. split; [reflexivity|]. apply filter_In. split; [exact (nth_error_In _ _ Hb1)|]. apply type_matches_iff. exact Hb2. }
  split; [unfold blank_structure; cbn [with_unit_bricks str_log str_unit_bricks str_basin_bricks str_covers str_unit_splitters str_basin_splitters]; rewrite Bl; reflexivity|].
  intros [s i k|s i j k|s i k]; [destruct s..]; try (split; [intros []|reflexivity]); cbn [designated_by_type].
  - rewrite <- (Ch i None k). exact (Hc i None k).
  - rewrite <- (Ch i (Some j) k). exact (Hc i (Some j) k).
Qed.

(** ** All the variants *)
Lemma variants_named comp name v : ~ has_text "type:" comp -> forall S,
  match set_in_variants comp name v S with
  | (S', NotThere) => S' = S /\ forall st, In st S -> ~ has_component st comp
  | (S', Changed) => (exists st, In st S /\ has_component st comp) /\ Forall2 (fun st st' => (has_component st comp -> changed_well st comp name v st') /\ (~ has_component st comp -> st' = st)) S S'
  | (S', Raised) => exists S1 st S2 S1', S = (S1 ++ st :: S2)%list /\ S' = (S1' ++ st :: S2)%list /\ raised_well st comp name /\
      Forall2 (fun st st' => (has_component st comp -> changed_well st comp name v st') /\ (~ has_component st comp -> st' = st)) S1 S1'
  end.
Proof.
  intros NT. induction S as [|st S IH]; cbn [set_in_variants]; [split; [reflexivity|intros st []]|].
  pose proof (set_named comp name v st (or_introl NT)) as H. destruct (set_in_structure comp name v st) as [st' c].
  assert (HC : c = Changed -> has_component st comp).
  { intros ->. destruct H as ((p & Hp) & _). destruct p as [s i k|s i j k|s i k]; destruct Hp as ((F & _) & _); destruct (first_ex _ _ _ F) as (x & Hx & Ex); [left|left|right]; exists s, x; split; auto; exact (nth_error_In _ _ Hx). }
  assert (One : c <> Raised -> (has_component st comp -> changed_well st comp name v st') /\ (~ has_component st comp -> st' = st)).
  { intros Nc. destruct c; [destruct H as (-> & H); tauto| |congruence]. specialize (HC eq_refl). tauto. }
  destruct (set_in_variants comp name v S) as [r' c']. destruct c.
  - destruct H as (-> & H). destruct c'.
    + destruct IH as (-> & IH). split; [reflexivity|]. intros x [<-|Hx]; auto.
    + destruct IH as ((x & Hx & Cx) & IH). split; [exists x; split; [right; exact Hx|exact Cx]|]. constructor; [apply One; discriminate|exact IH].
    + destruct IH as (S1 & x & S2 & S1' & -> & -> & R & F). exists (st :: S1), x, S2, (st :: S1'). split; [reflexivity|]. split; [reflexivity|]. split; [exact R|]. constructor; [apply One; discriminate|exact F].
  - destruct c'.
    + destruct IH as (-> & IH). split; [exists st; split; [left; reflexivity|auto]|]. constructor; [apply One; discriminate|]. clear - IH. induction S as [|x S IHS]; constructor; [|apply IHS; intros; apply IH; right; assumption].
      split; [intros Hc; destruct (IH x ltac:(left; reflexivity) Hc)|reflexivity].
    + destruct IH as (_ & IH). split; [exists st; split; [left; reflexivity|auto]|]. constructor; [apply One; discriminate|exact IH].
    + destruct IH as (S1 & x & S2 & S1' & -> & -> & R & F). exists (st :: S1), x, S2, (st' :: S1'). split; [reflexivity|]. split; [reflexivity|]. split; [exact R|]. constructor; [apply One; discriminate|exact F].
  - destruct H as (-> & R). exists [], st, S, []. repeat split; try reflexivity; try apply R. constructor.
Qed.
Lemma variants_typed comp type name v : type_selector comp type -> forall S,
  (forall st, In st S -> ~ has_component st comp /\ NoDup (map br_name (str_unit_bricks st)) /\ (forall b, In b (str_unit_bricks st) -> of_type type b -> has_parameter name b) /\ (forall b, In b (str_basin_bricks st) -> ~ of_type type b)) ->
  exists S', set_in_variants comp name v S = (S', match S with [] => NotThere | _ => Changed end) /\ Forall2 (fun st st' => only_changed (designated_by_type st type name) name v st st') S S'.
Proof.
  intros T. induction S as [|st S IH]; intros H; cbn [set_in_variants]; [exists []; auto|]. destruct (H st ltac:(left; reflexivity)) as (H1 & H2 & H3 & H4).
  destruct (set_typed comp type name v st T H1 H2 H3 H4) as (st' & -> & O). destruct IH as (S' & -> & F); [intros; apply H; right; assumption|]. exists (st' :: S'). split; [destruct S; reflexivity|]. constructor; assumption.
Qed.

(** ** Labels *)
Lemma union_snoc l x : union_labels (l ++ [x])%list = add_label (union_labels l) x.
Proof. unfold union_labels. rewrite fold_left_app. reflexivity. Qed.
Lemma add_case seen x : (In x seen /\ add_label seen x = seen) \/ (~ In x seen /\ add_label seen x = (seen ++ [x])%list).
Proof.
  unfold add_label. destruct (existsb (String.eqb x) seen) eqn:E.
  - left. split; [|reflexivity]. apply existsb_exists in E. destruct E as (y & Hy & Ey). apply String.eqb_eq in Ey. congruence.
  - right. split; [|reflexivity]. intros H. assert (existsb (String.eqb x) seen = true) by (apply existsb_exists; exists x; split; [exact H|apply String.eqb_refl]). congruence.
Qed.
Lemma union_in l x : In x (union_labels l) <-> In x l.
Proof.
  induction l as [|y l IH] using rev_ind; [reflexivity|]. rewrite union_snoc. destruct (add_case (union_labels l) y) as [(H & ->)|(H & ->)]; rewrite !in_app_iff, ?IH; cbn; [|tauto]. rewrite <- IH. split; [tauto|]. intros [?|[<-|[]]]; tauto.
Qed.
Lemma union_nodup l : NoDup (union_labels l).
Proof.
  induction l as [|y l IH] using rev_ind; [constructor|]. rewrite union_snoc. destruct (add_case (union_labels l) y) as [(H & ->)|(H & ->)]; [exact IH|].
  apply NoDup_app_remove_l with (l := []) || idtac. replace (union_labels l ++ [y])%list with (rev (y :: rev (union_labels l))) by (cbn; rewrite rev_involutive; reflexivity).
  apply NoDup_rev. constructor; [rewrite <- in_rev; exact H|apply NoDup_rev; exact IH].
Qed.
Lemma before_snoc l x a b : declared_before (l ++ [x])%list a b <-> declared_before l a b \/ (x = a /\ ~ In b l /\ a <> b).
Proof.
  unfold declared_before. split.
  - intros (l1 & l2 & E & N & D). destruct l2 as [|y l2] using rev_ind.
    + apply app_inj_tail in E. destruct E as (-> & ->). right. auto.
    + clear IHl2. left. exists l1, l2. split; [|auto]. replace (l1 ++ a :: l2 ++ [y])%list with ((l1 ++ a :: l2) ++ [y])%list in E by (rewrite <- app_assoc; reflexivity). apply app_inj_tail in E. apply E.
  - intros [(l1 & l2 & -> & N & D)|(-> & N & D)]; [exists l1, (l2 ++ [x])%list|exists l, []]; (split; [|auto]); [rewrite <- app_assoc; reflexivity|reflexivity].
Qed.
Lemma before_in l a b : declared_before l a b -> In a l.
Proof. intros (l1 & l2 & -> & _). apply in_elt. Qed.
Lemma in_before l a b : In a l -> ~ In b l -> a <> b -> declared_before l a b.
Proof. intros H N D. apply in_split in H. destruct H as (l1 & l2 & ->). exists l1, l2. split; [reflexivity|]. split; [|exact D]. intros Hb. apply N. apply in_app_iff. auto. Qed.
Lemma union_before l a b : declared_before (union_labels l) a b <-> declared_before l a b.
Proof.
  induction l as [|y l IH] using rev_ind; [reflexivity|]. rewrite union_snoc. rewrite before_snoc. destruct (add_case (union_labels l) y) as [(H & ->)|(H & ->)].
  - rewrite IH. split; [tauto|]. intros [?|(-> & N & D)]; [assumption|]. rewrite union_in in H. apply in_before; assumption.
  - rewrite before_snoc, IH, union_in. reflexivity.
Qed.
Lemma union_same l : NoDup l -> union_labels l = l.
Proof.
  induction l as [|y l IH] using rev_ind; [reflexivity|]. intros H. rewrite union_snoc. apply NoDup_remove in H. rewrite app_nil_r in H. destruct H as (H & N). rewrite (IH H). destruct (add_case l y) as [(H' & _)|(_ & ->)]; [contradiction|reflexivity].
Qed.
Lemma union_extra l m : (forall x, In x m -> In x l) -> union_labels (l ++ m)%list = union_labels l.
Proof.
  induction m as [|y m IH] using rev_ind; intros H; [rewrite app_nil_r; reflexivity|]. rewrite app_assoc, union_snoc, IH; [|intros; apply H; apply in_app_iff; auto]. destruct (add_case (union_labels l) y) as [(_ & ->)|(N & _)]; [reflexivity|].
  destruct N. apply union_in. apply H. apply in_app_iff. cbn. auto.
Qed.

Lemma basin_read_well st others : NoDup (map fst (basin_labels st)) -> (forall st' l, In st' others -> In l (map fst (basin_labels st')) -> In l (map fst (basin_labels st))) ->
  sub_basin_log_labels (st :: others) = map fst (basin_labels st) /\ sub_basin_read (st :: others) = Ok (map snd (basin_labels st)).
Proof.
  intros ND H. assert (E : sub_basin_log_labels (st :: others) = map fst (basin_labels st)).
  { unfold sub_basin_log_labels. cbn [map concat]. rewrite union_extra; [exact (union_same _ ND)|]. intros x Hx. apply in_concat in Hx. destruct Hx as (l & Hl & Hx). apply in_map_iff in Hl. destruct Hl as (st' & <- & Hs). exact (H st' x Hs Hx). }
  split; [exact E|]. unfold sub_basin_read, sub_basin_pointers. rewrite E, !map_length, Nat.leb_refl, Nat.sub_diag. cbn [repeat bind]. rewrite app_nil_r.
  clear. induction (basin_labels st) as [|d l IH]; [reflexivity|]. cbn [map fold_right]. rewrite IH. reflexivity.
Qed.
Lemma last_wins l : forall (ds : list (string * source)) p,
  fold_left (fun p '(l', s) => if String.eqb l' l then Some s else p) ds p = match find (fun d => String.eqb (fst d) l) (rev ds) with Some d => Some (snd d) | None => p end.
Proof.
  induction ds as [|[l' s] ds IH] using rev_ind; intros p; [reflexivity|]. rewrite fold_left_app, rev_app_distr. cbn. destruct (String.eqb l' l); [reflexivity|]. apply IH.
Qed.
Lemma unit_pointer_case st l : NoDup (map fst (unit_labels st)) -> forall s,
  fold_left (fun p '(l', s) => if String.eqb l' l then Some s else p) (unit_labels st) None = Some s <-> In (l, s) (unit_labels st).
Proof.
  intros ND s. rewrite last_wins. split.
  - destruct (find _ _) as [[l' s']|] eqn:E; [|discriminate]. apply find_some in E. destruct E as (H & Ef). apply String.eqb_eq in Ef. cbn in *. intros X. injection X as ->. subst l'. apply in_rev. exact H.
  - intros H. destruct (find _ _) as [[l' s']|] eqn:E.
    + apply find_some in E. destruct E as (H' & Ef). apply String.eqb_eq in Ef. cbn in *. subst l'. apply in_rev in H'. f_equal. clear - ND H H'. induction (unit_labels st) as [|[x y] ds IH]; [destruct H|]. cbn [map fst] in ND. inversion_clear ND as [|? ? N1 N2].
      destruct H as [H|H], H' as [H'|H']; [congruence| | |auto]; exfalso; apply N1; [injection H as <- <-; exact (in_map fst _ _ H')|injection H' as <- <-; exact (in_map fst _ _ H)].
    + exfalso. apply in_rev in H. pose proof (find_none _ _ E _ H) as X. cbn in X. rewrite String.eqb_refl in X. discriminate.
Qed.

(** ** Variants *)
Lemma includes_iff a b : includes a b = true <-> forall x, In x b -> In x a.
Proof.
  unfold includes. rewrite forallb_forall. split; intros H x Hx.
  - specialize (H x Hx). apply existsb_exists in H. destruct H as (y & Hy & E). apply String.eqb_eq in E. congruence.
  - apply existsb_exists. exists x. split; [exact (H x Hx)|apply String.eqb_refl].
Qed.
Lemma same_set_iff a b : same_set a b = true <-> same_covers a b.
Proof. unfold same_set, same_covers. rewrite Bool.andb_true_iff, !includes_iff. split; [intros (H1 & H2) x; split; auto|intros H; split; intros x Hx; apply H; exact Hx]. Qed.
Lemma string_set_count l : distinct_count l (length (string_set l)).
Proof. exists (string_set l). split; [apply NoDup_nodup|]. split; [|reflexivity]. intros x. apply nodup_In. Qed.
Lemma count_unique l n m : distinct_count l n -> distinct_count l m -> n = m.
Proof.
  intros (d & N & E & <-) (d' & N' & E' & <-). apply Nat.le_antisymm; apply NoDup_incl_length; try assumption; intros x Hx; [apply E', E|apply E, E']; exact Hx.
Qed.
Lemma exact_spec present : forall vs id, match exact_variant id vs present with
  | Some i => exists k, i = (id + k)%nat /\ first_with (fun v => same_covers v present) vs k
  | None => forall v, In v vs -> ~ same_covers v present end.
Proof.
  induction vs as [|v vs IH]; intros id; cbn [exact_variant]; [intros v []|]. destruct (same_set v present) eqn:E.
  - exists 0%nat. split; [lia|]. apply first_here. apply same_set_iff. exact E.
  - assert (N : ~ same_covers v present) by (rewrite <- same_set_iff; congruence). specialize (IH (S id)). destruct (exact_variant (S id) vs present).
    + destruct IH as (k & -> & F). exists (S k). split; [lia|]. apply first_later; assumption.
    + intros x [<-|Hx]; auto.
Qed.
(** The first of the best: [i] is the first index (from [id]) of an element that is good with the extreme value. *)
Definition first_best (good : list string -> Prop) (less : nat -> nat -> Prop) (vs : list (list string)) (k : nat) : Prop :=
  exists v, nth_error vs k = Some v /\ good v /\
    forall j w, nth_error vs j = Some w -> good w -> ~ less (length w) (length v) /\ ((j < k)%nat -> less (length v) (length w)).
Lemma best_spec present : forall post pre small large,
  (match small with
   | Some (i, n) => exists k v, i = S k /\ nth_error pre k = Some v /\ n = length v /\ first_best (fun v => includes v present = true) lt pre k
   | None => forall v, In v pre -> includes v present = false end) ->
  ((exists k v, fst large = S k /\ nth_error pre k = Some v /\ snd large = length v /\ first_best (fun _ => True) gt pre k) \/ (large = (1, 0)%nat /\ forall v, In v pre -> length v = 0%nat)) ->
  let r := best_variant (S (length pre)) post present small large in
  let all := (pre ++ post)%list in
  ((exists v, In v all /\ includes v present = true) -> exists k, r = S k /\ first_best (fun v => includes v present = true) lt all k) /\
  ((forall v, In v all -> includes v present = false) -> (exists k, r = S k /\ first_best (fun _ => True) gt all k) \/ (r = 1%nat /\ forall v, In v all -> length v = 0%nat)).
Proof.
  induction post as [|v post IH]; intros pre small large Hs Hl; cbn zeta.
  - rewrite app_nil_r. cbn [best_variant]. destruct small as [[i n]|].
    + destruct Hs as (k & v & -> & Hk & _ & B). split; [intros _; exists k; auto|]. intros N. destruct B as (v' & Hv' & Gv & _). rewrite (N v' (nth_error_In _ _ Hv')) in Gv. discriminate.
    + split; [intros (v & Hv & Iv); rewrite (Hs v Hv) in Iv; discriminate|]. intros _. destruct Hl as [(k & v & -> & Hk & _ & B)|(-> & Z)]; [left; exists k; auto|right; auto].
  - assert (Last : nth_error (pre ++ [v])%list (length pre) = Some v) by (rewrite nth_error_app2, Nat.sub_diag; auto).
    assert (Early : forall j w, nth_error (pre ++ [v])%list j = Some w -> (j < length pre)%nat /\ nth_error pre j = Some w \/ j = length pre /\ w = v).
    { intros j w Hj. destruct (Nat.lt_ge_cases j (length pre)) as [L|L]; [left; rewrite nth_error_app1 in Hj by exact L; auto|]. right. rewrite nth_error_app2 in Hj by exact L.
      destruct (j - length pre)%nat as [|m] eqn:E; [cbn in Hj; split; [lia|congruence]|]. destruct m; discriminate. }
    assert (Keep : forall j w, nth_error pre j = Some w -> nth_error (pre ++ [v])%list j = Some w) by (intros j w Hj; rewrite nth_error_app1; [exact Hj|apply nth_error_Some; congruence]).
    cbn [best_variant]. specialize (IH (pre ++ [v])%list). rewrite app_length, Nat.add_1_r in IH.
    match goal with |- context [best_variant _ post present ?a ?b] => specialize (IH a b) end. rewrite <- app_assoc in IH. cbn [app] in IH. apply IH; clear IH.
    + destruct (includes v present) eqn:Iv; cbn [andb].
      * destruct small as [[i n]|].
        -- destruct Hs as (k & u & -> & Hk & -> & (u' & Hu' & Gu & B)). rewrite Hk in Hu'. injection Hu' as <-. destruct (Nat.ltb_spec (length v) (length u)) as [L|L].
           ++ exists (length pre), v. split; [reflexivity|]. split; [exact Last|]. split; [reflexivity|]. exists v. split; [exact Last|]. split; [exact Iv|]. intros j w Hj Gw.
              destruct (Early j w Hj) as [(Lj & Hj')|(-> & ->)]; [|split; lia]. destruct (B j w Hj' Gw) as (B1 & B2). split; lia.
           ++ exists k, u. split; [reflexivity|]. split; [exact (Keep _ _ Hk)|]. split; [reflexivity|]. exists u. split; [exact (Keep _ _ Hk)|]. split; [exact Gu|]. intros j w Hj Gw.
              destruct (Early j w Hj) as [(Lj & Hj')|(-> & ->)]; [exact (B j w Hj' Gw)|]. split; [lia|]. intros Lk. assert (k < length pre)%nat by (apply nth_error_Some; congruence). lia.
        -- exists (length pre), v. split; [reflexivity|]. split; [exact Last|]. split; [reflexivity|]. exists v. split; [exact Last|]. split; [exact Iv|]. intros j w Hj Gw.
           destruct (Early j w Hj) as [(Lj & Hj')|(-> & ->)]; [|split; lia]. rewrite (Hs w (nth_error_In _ _ Hj')) in Gw. discriminate.
      * destruct small as [[i n]|].
        -- destruct Hs as (k & u & -> & Hk & -> & (u' & Hu' & Gu & B)). rewrite Hk in Hu'. injection Hu' as <-. exists k, u. split; [reflexivity|]. split; [exact (Keep _ _ Hk)|]. split; [reflexivity|]. exists u. split; [exact (Keep _ _ Hk)|]. split; [exact Gu|].
           intros j w Hj Gw. destruct (Early j w Hj) as [(Lj & Hj')|(-> & ->)]; [exact (B j w Hj' Gw)|congruence].
        -- intros w Hw. apply in_app_iff in Hw. destruct Hw as [Hw|[<-|[]]]; auto.
    + destruct Hl as [(k & u & Ek & Hk & En & (u' & Hu' & _ & B))|(-> & Z)].
      * rewrite Hk in Hu'. injection Hu' as <-. left. destruct (Nat.ltb_spec (snd large) (length v)) as [L|L].
        -- exists (length pre), v. cbn [fst snd]. split; [reflexivity|]. split; [exact Last|]. split; [reflexivity|]. exists v. split; [exact Last|]. split; [exact I|]. intros j w Hj _.
           destruct (Early j w Hj) as [(Lj & Hj')|(-> & ->)]; [|split; lia]. destruct (B j w Hj' I) as (B1 & B2). split; lia.
        -- exists k, u. split; [exact Ek|]. split; [exact (Keep _ _ Hk)|]. split; [exact En|]. exists u. split; [exact (Keep _ _ Hk)|]. split; [exact I|]. intros j w Hj _.
           destruct (Early j w Hj) as [(Lj & Hj')|(-> & ->)]; [exact (B j w Hj' I)|]. split; [lia|]. intros Lk. assert (k < length pre)%nat by (apply nth_error_Some; congruence). lia.
      * cbn [snd]. destruct (Nat.ltb_spec 0 (length v)) as [L|L].
        -- left. exists (length pre), v. cbn [fst snd]. split; [reflexivity|]. split; [exact Last|]. split; [reflexivity|]. exists v. split; [exact Last|]. split; [exact I|]. intros j w Hj _.
           destruct (Early j w Hj) as [(Lj & Hj')|(-> & ->)]; [|split; lia]. pose proof (Z w (nth_error_In _ _ Hj')). split; lia.
        -- right. split; [reflexivity|]. intros w Hw. apply in_app_iff in Hw. destruct Hw as [Hw|[<-|[]]]; [auto|lia].
Qed.

Lemma present_iff covers c : In c (present_covers covers) <-> is_present covers c.
Proof.
  unfold present_covers, string_set, is_present. rewrite nodup_In, in_map_iff. split.
  - intros ((c' & f) & <- & H). apply filter_In in H. destruct H as (H & N). exists f. split; [exact H|]. cbn in N. unfold NearlyZero in N. apply Bool.negb_true_iff in N. apply Rleb_false in N. lra.
  - intros (f & H & N). exists (c, f). split; [reflexivity|]. apply filter_In. split; [exact H|]. cbn. unfold NearlyZero. apply Bool.negb_true_iff. apply Rleb_false. lra.
Qed.
Lemma set_in l x : In x (string_set l) <-> In x l.
Proof. apply nodup_In. Qed.
Definition variant_sets (S : settings) : list (list string) := map (fun st => string_set (cover_names st)) S.
Lemma sets_nth S k v : nth_error (variant_sets S) k = Some v <-> exists st, nth_error S k = Some st /\ v = string_set (cover_names st).
Proof. unfold variant_sets. rewrite nth_error_map. destruct (nth_error S k) as [st|]; cbn; split; [intros E; injection E as <-; exists st; auto|intros (st' & E & ->); congruence|discriminate|intros (st' & E & _); discriminate]. Qed.
Lemma exact_iff covers st : same_covers (string_set (cover_names st)) (present_covers covers) <-> exactly_for covers st.
Proof. unfold same_covers, exactly_for. split; intros H c; specialize (H c); rewrite set_in, present_iff in *; exact H. Qed.
Lemma enough_iff covers st : includes (string_set (cover_names st)) (present_covers covers) = true <-> enough_for covers st.
Proof. rewrite includes_iff. unfold enough_for. split; intros H c Hc; [apply set_in, H, present_iff; exact Hc|apply set_in, H, present_iff; exact Hc]. Qed.
Lemma count_set st n : distinct_count (cover_names st) n -> n = length (string_set (cover_names st)).
Proof. intros H. exact (count_unique _ _ _ H (string_set_count _)). Qed.

Lemma assign_well S covers : S <> [] -> exists k st, assign_variant S covers = Datatypes.S k /\ nth_error S k = Some st /\
  ((exists st', In st' S /\ exactly_for covers st') -> first_with (exactly_for covers) S k) /\
  ((forall st', In st' S -> ~ exactly_for covers st') -> (exists st', In st' S /\ enough_for covers st') -> first_with (smallest (enough_for covers) S) S k) /\
  ((forall st', In st' S -> ~ enough_for covers st') -> first_with (largest S) S k).
Proof.
  intros NS. unfold assign_variant. destruct (Nat.leb_spec (length S) 1) as [L|L].
  { destruct S as [|st [|st2 S]]; [congruence| |cbn in L; lia]. exists 0%nat, st. split; [reflexivity|]. split; [reflexivity|].
    split; [intros (st' & [<-|[]] & E); apply first_here; exact E|]. split; [intros _ (st' & [<-|[]] & E)|intros _]; apply first_here.
    - split; [exact E|]. intros st' n n' [<-|[]] _ H1 H2. rewrite (count_unique _ _ _ H1 H2). lia.
    - intros st' n n' [<-|[]] H1 H2. rewrite (count_unique _ _ _ H1 H2). lia. }
  cbn zeta. fold (variant_sets S). pose proof (exact_spec (present_covers covers) (variant_sets S) 1) as E. destruct (exact_variant 1 (variant_sets S) (present_covers covers)) as [i|].
  { destruct E as (k & -> & F). apply (first_map (fun st => string_set (cover_names st)) (exactly_for covers)) in F; [|intros; symmetry; apply exact_iff].
    destruct (first_ex _ _ _ F) as (st & Hk & Ex). exists k, st. split; [reflexivity|]. split; [exact Hk|]. split; [intros _; exact F|]. pose proof (nth_error_In _ _ Hk) as Hi. split; [intros N; destruct (N st Hi Ex)|intros N; destruct (N st Hi)]. intros c Hc. apply Ex. exact Hc. }
  assert (NE : forall st', In st' S -> ~ exactly_for covers st') by (intros st' Hs Hx; apply (E (string_set (cover_names st'))); [apply in_map_iff; exists st'; auto|apply exact_iff; exact Hx]).
  destruct (best_spec (present_covers covers) (variant_sets S) [] None (1, 0)%nat) as (B1 & B2); [intros v []|right; split; [reflexivity|intros v []]|]. cbn [app length] in B1, B2.
  destruct (classic (exists st', In st' S /\ enough_for covers st')) as [Y|Y].
  - destruct B1 as (k & -> & (v & Hv & Gv & B)). { destruct Y as (st' & Hs & He). exists (string_set (cover_names st')). split; [apply in_map_iff; exists st'; auto|apply enough_iff; exact He]. }
    apply sets_nth in Hv. destruct Hv as (st & Hk & ->). exists k, st. split; [reflexivity|]. split; [exact Hk|]. split; [intros (st' & Hs & Hx); destruct (NE _ Hs Hx)|]. split; [|intros N; destruct Y as (st' & Hs & He); destruct (N _ Hs He)].
    intros _ _. apply enough_iff in Gv. split.
    + exists st. split; [exact Hk|]. split; [exact Gv|]. intros st' n n' Hs He Hn Hn'. apply In_nth_error in Hs. destruct Hs as (j & Hj). apply count_set in Hn, Hn'. subst n n'.
      destruct (B j (string_set (cover_names st'))) as (B' & _); [apply sets_nth; exists st'; auto|apply enough_iff; exact He|]. lia.
    + intros j w Hj Hw (Gw & Mw). destruct (B j (string_set (cover_names w))) as (_ & B'); [apply sets_nth; exists w; auto|apply enough_iff; exact Gw|]. specialize (B' Hj).
      pose proof (Mw st _ _ (nth_error_In _ _ Hk) Gv (string_set_count _) (string_set_count _)). lia.
  - assert (NI : forall v, In v (variant_sets S) -> includes v (present_covers covers) = false).
    { intros v Hv. apply in_map_iff in Hv. destruct Hv as (st & <- & Hs). destruct (includes _ _) eqn:Ei; [|reflexivity]. apply enough_iff in Ei. destruct Y. exists st. auto. }
    assert (K : exists k st, best_variant 1 (variant_sets S) (present_covers covers) None (1, 0)%nat = Datatypes.S k /\ nth_error S k = Some st /\
      forall j w, nth_error S j = Some w -> (length (string_set (cover_names w)) <= length (string_set (cover_names st)))%nat /\ ((j < k)%nat -> (length (string_set (cover_names w)) < length (string_set (cover_names st)))%nat)).
    { destruct (B2 NI) as [(k & -> & (v & Hv & _ & B))|(-> & Z)].
      - apply sets_nth in Hv. destruct Hv as (st & Hk & ->). exists k, st. split; [reflexivity|]. split; [exact Hk|]. intros j w Hj. destruct (B j (string_set (cover_names w))) as (B3 & B4); [apply sets_nth; exists w; auto|exact I|]. split; [lia|]. intros Lj. specialize (B4 Lj). lia.
      - destruct S as [|st S']; [congruence|]. exists 0%nat, st. split; [reflexivity|]. split; [reflexivity|]. intros j w Hj. rewrite (Z (string_set (cover_names w))); [lia|]. apply in_map_iff. exists w. split; [reflexivity|exact (nth_error_In _ _ Hj)]. }
    destruct K as (k & st & -> & Hk & B). exists k, st. split; [reflexivity|]. split; [exact Hk|]. split; [intros (st' & Hs & Hx); destruct (NE _ Hs Hx)|]. split; [intros _ H; contradiction|]. intros _. split.
    + exists st. split; [exact Hk|]. intros st' n n' Hs Hn Hn'. apply In_nth_error in Hs. destruct Hs as (j & Hj). apply count_set in Hn, Hn'. subst n n'. apply (B j st' Hj).
    + intros j w Hj Hw Mw. destruct (B j w Hw) as (_ & B'). specialize (B' Hj). pose proof (Mw st _ _ (nth_error_In _ _ Hk) (string_set_count _) (string_set_count _)). lia.
Qed.

(** ** Lists of components *)
Lemma has_comma n : has_text "," n <-> In ","%char (list_ascii_of_string n).
Proof.
  split.
  - intros (a & b & ->). rewrite !la_app. apply in_app_iff. right. left. reflexivity.
  - intros H. apply in_split in H. destruct H as (l1 & l2 & E). exists (string_of_list_ascii l1), (string_of_list_ascii l2). apply la_inj. rewrite !la_app, !list_ascii_of_string_of_list_ascii. exact E.
Qed.
Lemma split_plain : forall s, ~ In ","%char (list_ascii_of_string s) -> split_commas s = [s].
Proof.
  induction s as [|c s IH]; intros H; [reflexivity|]. cbn [split_commas]. destruct (Ascii.eqb c ",") eqn:E; [apply Ascii.eqb_eq in E; subst c; destruct H; left; reflexivity|].
  rewrite IH by (intros X; apply H; right; exact X). reflexivity.
Qed.
Lemma split_piece : forall s t, ~ In ","%char (list_ascii_of_string s) -> split_commas (s ++ "," ++ t) = s :: split_commas t.
Proof.
  induction s as [|c s IH]; intros t H; [reflexivity|]. cbn [split_commas append]. destruct (Ascii.eqb c ",") eqn:E; [apply Ascii.eqb_eq in E; subst c; destruct H; left; reflexivity|].
  change (String "," t) with ("," ++ t)%string. rewrite (IH t) by (intros X; apply H; right; exact X). reflexivity.
Qed.
Lemma trim_left_spaces : forall a s, spaces a -> trim_left (a ++ s) = trim_left s.
Proof.
  induction a as [|c a IH]; intros s H; [reflexivity|]. rewrite (H c) by (left; reflexivity). cbn. apply IH. intros x Hx. apply H. right. exact Hx.
Qed.
Lemma trim_right_spaces : forall b, spaces b -> trim_right b = ""%string.
Proof. induction b as [|c b IH]; intros H; [reflexivity|]. cbn. rewrite IH by (intros x Hx; apply H; right; exact Hx). rewrite (H c) by (left; reflexivity). reflexivity. Qed.
Lemma trim_right_name b : spaces b -> forall n, n <> ""%string -> (forall r, n <> (r ++ " ")%string) -> trim_right (n ++ b) = n.
Proof.
  intros Sb. induction n as [|c n IH]; intros H1 H2; [congruence|]. cbn [append trim_right]. destruct n as [|d n].
  - cbn [append]. rewrite (trim_right_spaces b Sb). destruct (Ascii.eqb c " ") eqn:E; [|reflexivity]. apply Ascii.eqb_eq in E. subst c. destruct (H2 ""%string). reflexivity.
  - rewrite IH; [reflexivity|discriminate|]. intros r E. apply (H2 (String c r)). cbn. rewrite E. reflexivity.
Qed.
Lemma trim_name a n b : spaces a -> spaces b -> clean_name n -> trim_right (trim_left (a ++ n ++ b)) = n.
Proof.
  intros Sa Sb (N1 & N2 & N3 & N4). rewrite trim_left_spaces by exact Sa. assert (E : trim_left (n ++ b) = (n ++ b)%string).
  { destruct n as [|c n]; [congruence|]. cbn. destruct (Ascii.eqb c " ") eqn:E; [|reflexivity]. apply Ascii.eqb_eq in E. subst c. destruct (N3 n). reflexivity. }
  rewrite E. apply trim_right_name; assumption.
Qed.
Lemma piece_plain a n b : spaces a -> spaces b -> clean_name n -> ~ In ","%char (list_ascii_of_string (a ++ n ++ b)%string).
Proof.
  intros Sa Sb (_ & N & _). rewrite !la_app, !in_app_iff. intros [H|[H|H]]; [specialize (Sa _ H); discriminate| |specialize (Sb _ H); discriminate]. apply N. apply has_comma. exact H.
Qed.
Lemma listed_components t ns : listed t ns -> components_of t = ns.
Proof.
  assert (F : forall n, clean_name n -> negb (String.eqb n "") = true) by (intros n (H & _); apply Bool.negb_true_iff; apply String.eqb_neq; exact H).
  unfold components_of. induction 1 as [a n b Sa Sb Cn|a n b t ns Sa Sb Cn L IH].
  - rewrite split_plain by (apply piece_plain; assumption). cbn [map filter]. rewrite trim_name by assumption. rewrite F by exact Cn. reflexivity.
  - replace (a ++ n ++ b ++ "," ++ t)%string with ((a ++ n ++ b) ++ "," ++ t)%string by (rewrite !append_assoc; reflexivity).
    rewrite split_piece by (apply piece_plain; assumption). cbn [map filter]. rewrite trim_name by assumption. rewrite F by exact Cn. rewrite IH. reflexivity.
Qed.
Lemma listed_clean t ns : listed t ns -> forall n, In n ns -> clean_name n.
Proof. induction 1; intros m [<-|Hm]; auto. destruct Hm. Qed.
Lemma list_in_turn name v : forall names S, (forall n, In n names -> ~ has_text "," n) -> set_list names name v S = in_turn names name v S.
Proof.
  induction names as [|n r IH]; intros S H; [reflexivity|]. cbn [set_list in_turn]. unfold set_parameter_value. destruct (contains "," n) eqn:E; [apply contains_spec in E; destruct (H n ltac:(left; reflexivity) E)|].
  destruct (set_in_variants n name v S) as [S' [| |]]; try reflexivity. apply IH. intros; apply H; right; assumption.
Qed.

(** ** Distinct labels *)
Lemma nodup_app {X} (a b : list X) : NoDup a -> NoDup b -> (forall x, In x a -> In x b -> False) -> NoDup (a ++ b)%list.
Proof.
  induction a as [|x a IH]; intros Na Nb D; [exact Nb|]. inversion_clear Na as [|? ? N1 N2]. cbn. constructor.
  - rewrite in_app_iff. intros [H|H]; [exact (N1 H)|exact (D x ltac:(left; reflexivity) H)].
  - apply IH; [exact N2|exact Nb|]. intros y Hy. apply D. right. exact Hy.
Qed.
Lemma nodup_app_l {X} (a b : list X) : NoDup (a ++ b)%list -> NoDup a.
Proof. induction a as [|x a IH]; intros H; [constructor|]. cbn in H. inversion_clear H as [|? ? N1 N2]. constructor; [intros Hx; apply N1; apply in_app_iff; auto|exact (IH N2)]. Qed.
Lemma nodup_app_r {X} (a b : list X) : NoDup (a ++ b)%list -> NoDup b.
Proof. induction a as [|x a IH]; intros H; [exact H|]. cbn in H. inversion_clear H. auto. Qed.
Lemma nodup_app_disjoint {X} (a b : list X) : NoDup (a ++ b)%list -> forall x, In x a -> In x b -> False.
Proof. induction a as [|y a IH]; intros H x Hx Hb; [destruct Hx|]. cbn in H. inversion_clear H as [|? ? N1 N2]. destruct Hx as [->|Hx]; [apply N1; apply in_app_iff; auto|exact (IH N2 x Hx Hb)]. Qed.
Lemma nodup_concat {X Y} (f : X -> list Y) l : NoDup l -> (forall x, In x l -> NoDup (f x)) -> (forall x y z, In x l -> In y l -> In z (f x) -> In z (f y) -> x = y) -> NoDup (concat (map f l)).
Proof.
  induction l as [|x l IH]; intros N F D; [constructor|]. cbn. inversion_clear N as [|? ? N1 N2]. apply nodup_app.
  - apply F. left. reflexivity.
  - apply IH; [exact N2|intros; apply F; right; assumption|]. intros a b z Ha Hb. apply D; right; assumption.
  - intros z Hz Hc. apply in_concat in Hc. destruct Hc as (m & Hm & Hz'). apply in_map_iff in Hm. destruct Hm as (y & <- & Hy). apply N1. rewrite (D x y z); [exact Hy|left; reflexivity|right; exact Hy|exact Hz|exact Hz'].
Qed.
Lemma append_inj_l a b c : (a ++ b)%string = (a ++ c)%string -> b = c.
Proof. intros E. apply la_inj. apply (f_equal list_ascii_of_string) in E. rewrite !la_app in E. exact (app_inv_head _ _ _ E). Qed.
Lemma label_inj a b x y : no_colon a -> no_colon b -> (a ++ ":" ++ x)%string = (b ++ ":" ++ y)%string -> a = b /\ x = y.
Proof. intros Na Nb E. pose proof (same_component _ _ _ _ Na Nb E) as <-. split; [reflexivity|]. apply append_inj_l in E. apply append_inj_l in E. exact E. Qed.
Lemma colon_no i a b : no_colon i -> i <> (a ++ ":" ++ b)%string.
Proof. intros H. apply H. Qed.
Definition process_labels (n : string) (kp : nat * sprocess) : list (string * source) := map (fun i => (n ++ ":" ++ pr_name (snd kp) ++ ":" ++ i, ProcessItem n (fst kp) i)%string) (pr_log (snd kp)).
Lemma brick_labels_eq b : brick_labels b = (map (fun i => ((br_name b ++ ":" ++ i)%string, BrickItem (br_name b) i)) (br_log b) ++ concat (map (process_labels (br_name b)) (indexed (br_processes b))))%list.
Proof. unfold brick_labels. f_equal. f_equal. apply map_ext. intros [k p]. reflexivity. Qed.
Lemma map_concat {X Y} (f : X -> Y) l : map f (concat l) = concat (map (map f) l).
Proof. apply concat_map. Qed.
Lemma indexed_in {X} (l : list X) k x : In (k, x) (indexed l) -> nth_error l k = Some x.
Proof.
  unfold indexed. assert (G : forall (l : list X) o, In (k, x) (combine (seq o (length l)) l) -> (o <= k)%nat /\ nth_error l (k - o) = Some x).
  { clear. induction l as [|y l IH]; intros o H; [destruct H|]. cbn in H. destruct H as [E|H].
    - injection E as -> ->. split; [lia|]. rewrite Nat.sub_diag. reflexivity.
    - apply IH in H. destruct H as (H1 & H2). split; [lia|]. replace (k - o)%nat with (S (k - S o)) by lia. exact H2. }
  intros H. apply G in H. rewrite Nat.sub_0_r in H. apply H.
Qed.
Lemma indexed_nodup {X} (l : list X) : NoDup (indexed l).
Proof.
  unfold indexed. assert (G : forall (l : list X) o, NoDup (combine (seq o (length l)) l) /\ forall k x, In (k, x) (combine (seq o (length l)) l) -> (o <= k)%nat).
  { clear. induction l as [|y l IH]; intros o; cbn; [split; [constructor|intros k x []]|]. destruct (IH (S o)) as (H1 & H2). split.
    - constructor; [|exact H1]. intros H. apply H2 in H. lia.
    - intros k x [E|H]; [injection E as -> ->; lia|]. apply H2 in H. lia. }
  apply G.
Qed.
Lemma nodup_map_inj {X Y} (f : X -> Y) l x y : NoDup (map f l) -> In x l -> In y l -> f x = f y -> x = y.
Proof.
  induction l as [|a l IH]; intros N Hx Hy E; [destruct Hx|]. cbn in N. inversion_clear N as [|? ? N1 N2]. destruct Hx as [->|Hx], Hy as [->|Hy]; auto; exfalso; apply N1; [rewrite E|rewrite <- E]; apply in_map; assumption.
Qed.
Lemma nodup_map_of {X Y} (f : X -> Y) l : NoDup l -> (forall x y, In x l -> In y l -> f x = f y -> x = y) -> NoDup (map f l).
Proof.
  induction l as [|a l IH]; intros N I; [constructor|]. inversion_clear N as [|? ? N1 N2]. cbn. constructor; [|apply IH; [exact N2|intros; apply I; auto; right; assumption]].
  intros H. apply in_map_iff in H. destruct H as (b & E & Hb). apply N1. rewrite (I a b); [exact Hb|left; reflexivity|right; exact Hb|congruence].
Qed.
(** The labels of a brick start with its name. *)
Lemma brick_label_start b z : In z (map fst (brick_labels b)) -> exists r, z = (br_name b ++ ":" ++ r)%string.
Proof.
  intros H. apply in_map_iff in H. destruct H as ((l & s) & <- & H). rewrite brick_labels_eq in H. apply in_app_iff in H. destruct H as [H|H].
  - apply in_map_iff in H. destruct H as (i & E & _). injection E as <- <-. exists i. reflexivity.
  - apply in_concat in H. destruct H as (m & Hm & Hd). apply in_map_iff in Hm. destruct Hm as (kp & <- & _). apply in_map_iff in Hd. destruct Hd as (i & E & _). injection E as <- <-. eexists. reflexivity.
Qed.
Lemma splitter_label_start x z : In z (map fst (splitter_labels x)) -> exists r, z = (sl_name (snd x) ++ ":" ++ r)%string.
Proof. intros H. apply in_map_iff in H. destruct H as ((l & s) & <- & H). apply in_map_iff in H. destruct H as (i & E & _). injection E as <- <-. exists i. reflexivity. Qed.
Lemma brick_labels_distinct b : good_brick b -> NoDup (map fst (brick_labels b)).
Proof.
  intros (Nb & (Li & Ci) & Np & Hp). rewrite brick_labels_eq, map_app, map_map. apply nodup_app.
  - apply nodup_map_of; [exact Li|]. intros i j Hi Hj E. cbn [fst] in E. apply label_inj in E; [apply E|exact Nb|exact Nb].
  - rewrite map_concat, map_map. apply nodup_concat; [apply indexed_nodup| |].
    + intros (k & p) Hk. apply indexed_in, nth_error_In in Hk. destruct (Hp p Hk) as (Cp & (Lp & _)). unfold process_labels. rewrite map_map. apply nodup_map_of; [exact Lp|]. intros i j Hi Hj E. cbn [fst snd] in E.
      apply label_inj in E; [|exact Nb|exact Nb]. destruct E as (_ & E). apply label_inj in E; [apply E|exact Cp|exact Cp].
    + intros (k & p) (k' & p') z Hk Hk' Hz Hz'. apply indexed_in in Hk, Hk'. pose proof (nth_error_In _ _ Hk) as Ip. pose proof (nth_error_In _ _ Hk') as Ip'.
      unfold process_labels in Hz, Hz'. rewrite map_map in Hz, Hz'. apply in_map_iff in Hz, Hz'. destruct Hz as (i & <- & _). destruct Hz' as (j & E & _). cbn [fst snd] in E.
      apply label_inj in E; [|exact Nb|exact Nb]. destruct E as (_ & E). apply label_inj in E; [|apply Hp; assumption|apply Hp; assumption]. destruct E as (En & _).
      assert (p' = p) by (apply (nodup_map_inj pr_name (br_processes b)); assumption). subst p'. f_equal.
      apply (NoDup_nth_error (map pr_name (br_processes b))); [exact Np|rewrite map_length; apply nth_error_Some; congruence|]. rewrite !nth_error_map, Hk, Hk'. reflexivity.
  - intros z Hz Hz'. apply in_map_iff in Hz. destruct Hz as (i & <- & Hi). cbn [fst] in Hz'. rewrite map_concat, map_map in Hz'. apply in_concat in Hz'. destruct Hz' as (m & Hm & Hd). apply in_map_iff in Hm. destruct Hm as ((k & p) & <- & Hk).
    unfold process_labels in Hd. rewrite map_map in Hd. apply in_map_iff in Hd. destruct Hd as (j & E & _). cbn [fst snd] in E. apply label_inj in E; [|exact Nb|exact Nb]. destruct E as (_ & E). symmetry in E. exact (Ci i Hi _ _ E).
Qed.
Lemma component_labels_distinct bricks splitters : NoDup (map br_name bricks ++ map sl_name splitters)%list -> (forall b, In b bricks -> good_brick b) -> (forall x, In x splitters -> good_splitter x) ->
  NoDup (map fst (concat (map brick_labels bricks) ++ concat (map splitter_labels (indexed splitters)))%list).
Proof.
  intros N Gb Gs. rewrite map_app, !map_concat, !map_map. pose proof (nodup_app_l _ _ N) as Nb. pose proof (nodup_app_r _ _ N) as Ns. apply nodup_app.
  - apply nodup_concat; [exact (NoDup_map_inv _ _ Nb)|intros b Hb; apply brick_labels_distinct, Gb, Hb|]. intros x y z Hx Hy Hz Hz'.
    destruct (brick_label_start _ _ Hz) as (r & E). destruct (brick_label_start _ _ Hz') as (r' & E'). rewrite E in E'. apply label_inj in E'; [|apply Gb; assumption|apply Gb; assumption].
    exact (nodup_map_inj br_name _ _ _ Nb Hx Hy (proj1 E')).
  - apply nodup_concat; [apply indexed_nodup| |].
    + intros (k & x) Hk. apply indexed_in, nth_error_In in Hk. destruct (Gs x Hk) as (Cx & (Lx & _)). unfold splitter_labels. rewrite map_map. apply nodup_map_of; [exact Lx|]. intros i j Hi Hj E. cbn [fst snd] in E. apply label_inj in E; [apply E|exact Cx|exact Cx].
    + intros (k & x) (k' & x') z Hk Hk' Hz Hz'. apply indexed_in in Hk, Hk'. pose proof (nth_error_In _ _ Hk) as Ix. pose proof (nth_error_In _ _ Hk') as Ix'.
      destruct (splitter_label_start _ _ Hz) as (r & E). destruct (splitter_label_start _ _ Hz') as (r' & E'). cbn [snd] in *. rewrite E in E'. apply label_inj in E'; [|apply Gs; assumption|apply Gs; assumption]. destruct E' as (En & _).
      assert (x = x') by (apply (nodup_map_inj sl_name splitters); assumption). subst x'. f_equal.
      apply (NoDup_nth_error (map sl_name splitters)); [exact Ns|rewrite map_length; apply nth_error_Some; congruence|]. rewrite !nth_error_map, Hk, Hk'. reflexivity.
  - intros z Hz Hz'. apply in_concat in Hz, Hz'. destruct Hz as (m & Hm & Hz). destruct Hz' as (m' & Hm' & Hz'). apply in_map_iff in Hm, Hm'. destruct Hm as (b & <- & Hb). destruct Hm' as ((k & x) & <- & Hx).
    apply indexed_in, nth_error_In in Hx. destruct (brick_label_start _ _ Hz) as (r & E). destruct (splitter_label_start _ _ Hz') as (r' & E'). cbn [snd] in *. rewrite E in E'. apply label_inj in E'; [|apply Gb; assumption|apply Gs; assumption].
    apply (nodup_app_disjoint _ _ N (br_name b)); [apply in_map; exact Hb|rewrite (proj1 E'); apply in_map; exact Hx].
Qed.
Lemma unit_labels_distinct st : good_names st OfUnits -> NoDup (map fst (unit_labels st)).
Proof. intros (N & Gb & Gs & _). apply component_labels_distinct; assumption. Qed.
Lemma basin_labels_distinct st : good_names st OfBasin -> NoDup (map fst (basin_labels st)).
Proof.
  intros (N & Gb & Gs & (Nl & Cl)). unfold basin_labels. rewrite app_assoc, map_app. apply nodup_app; [apply component_labels_distinct; assumption|rewrite map_map; cbn [fst]; rewrite map_id; exact Nl|].
  intros z Hz Hz'. rewrite map_map in Hz'. cbn [fst] in Hz'. rewrite map_id in Hz'. rewrite map_app, !map_concat, !map_map in Hz. apply in_app_iff in Hz. destruct Hz as [Hz|Hz]; apply in_concat in Hz; destruct Hz as (m & Hm & Hz); apply in_map_iff in Hm; destruct Hm as (x & <- & _);
    [destruct (brick_label_start _ _ Hz) as (r & E)|destruct (splitter_label_start _ _ Hz) as (r & E)]; exact (Cl z Hz' _ _ E).
Qed.
