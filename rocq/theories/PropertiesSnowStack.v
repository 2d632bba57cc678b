(** C90: the observed snow cover: images, tiles, and the cache of the aggregated values. *)
From Verif Require Import BaseFacts PeriodsFacts SnowStackSpec GlacierBalanceFacts SnowCoverFacts SnowStackFacts.
Open Scope R_scope.

(** From a stack of images: each image and unit with enough pixels that count gives one observation, their scaled mean; nothing else does. *)
Theorem c90_stack c stack : sc_source c = Stack stack ->
  exists ts ids, fresh_load c = Ok ts /\ units_of (sc_units c) (sc_grid c) ids /\ observations (sc_options c) (sc_grid c) ids (sc_start c) (sc_stop c) stack ts.
Proof.
  intro E. unfold fresh_load. rewrite E. eexists. exists (unit_ids (sc_units c) (sc_grid c)). split; [reflexivity|]. split; [apply unit_ids_spec|].
  unfold aggregate_stack. apply (build_targets_spec _ _ _ _ _ (unit_mean (sc_options c) (sc_grid c))). intros. apply unit_mean_spec.
Qed.
Print Assumptions c90_stack.

(** From MODIS tiles: the tiles of a date are put together, the first that has a value counts, and then the same; whatever the order and number of tiles. *)
Theorem c90_modis c date tiles : sc_source c = Tiles date tiles -> tiles <> [] ->
  (forall t, In t tiles -> length (tl_image t) = length (gd_units (sc_grid c))) -> (forall t, In t tiles -> exists d, date (tl_name t) = Ok d) ->
  (forall l, sc_units c = Some l -> NoDup l) ->
  exists ts ids stack, fresh_load c = Ok ts /\ units_of (sc_units c) (sc_grid c) ids /\
    images_of (length (gd_units (sc_grid c))) date (sc_start c) (sc_stop c) tiles stack /\ observations (sc_options c) (sc_grid c) ids (sc_start c) (sc_stop c) stack ts.
Proof.
  intros E Ne Ln D N. unfold fresh_load. rewrite E. destruct tiles as [|t0 ts0] eqn:Q; [congruence|]. rewrite <- Q in *.
  destruct (modis_stack_spec _ date (sc_start c) (sc_stop c) tiles Ln D) as (q & -> & Im). simpl bind.
  set (ids := unit_ids (sc_units c) (sc_grid c)). pose proof (unit_ids_spec (sc_units c) (sc_grid c)) as U. fold ids in U.
  assert (Nd : NoDup ids). { unfold units_of in U. destruct (sc_units c) as [l|]; [subst ids; rewrite U; apply N; reflexivity|]. apply sorted_nodup. tauto. }
  eexists. exists ids, (modis_stack q). split; [reflexivity|]. split; [exact U|]. split; [exact Im|].
  erewrite map_ext; [|intro p; rewrite modis_row_spec by exact Nd; reflexivity].
  apply (build_targets_spec _ _ _ _ _ (unit_mean (sc_options c) (sc_grid c))). intros. apply unit_mean_spec.
Qed.
Print Assumptions c90_modis.

(** Without tiles, or with a tile whose name has no date (even one out of the period), nothing is loaded. *)
Theorem c90_refuses c date tiles : sc_source c = Tiles date tiles -> (forall t, In t tiles -> date (tl_name t) <> UB) ->
  fresh_load c = Throw <-> tiles = [] \/ exists t, In t tiles /\ date (tl_name t) = Throw.
Proof.
  intros E NU. unfold fresh_load. rewrite E. split.
  - intro H. destruct tiles as [|t0 ts0] eqn:Q; [left; reflexivity|]. right. rewrite <- Q in *. clear Q.
    destruct (dated date (sc_start c) (sc_stop c) tiles) as [q| |] eqn:D; [discriminate| |discriminate]. clear H E t0 ts0.
    induction tiles as [|t l IH]; [discriminate|]. simpl in D. destruct (date (tl_name t)) as [d| |] eqn:Qd; [|exists t; split; [left; reflexivity|exact Qd]|exfalso; exact (NU t (or_introl eq_refl) Qd)].
    simpl in D. destruct (dated date (sc_start c) (sc_stop c) l) as [q| |]; simpl in D; [discriminate| |discriminate]. destruct IH as (t' & I & Et); [intros; apply NU; right; assumption|reflexivity|]. exists t'. split; [right; exact I|exact Et].
  - intros [-> |(t & I & Et)]; [reflexivity|]. destruct tiles as [|t0 ts0] eqn:Q; [contradiction|]. rewrite <- Q in *. rewrite (dated_throw _ _ _ _ t I Et NU). reflexivity.
Qed.
Print Assumptions c90_refuses.

(** With limits for the values, no observation is out of them. *)
Lemma counted_between o good lo hi : ag_min o = Some lo -> ag_max o = Some hi -> (forall p, In p good -> counts_pixel o p) ->
  lo * INR (length good) <= Rsum (fun p : Z * value => nan0 (snd p)) good <= hi * INR (length good).
Proof.
  intros L H C. induction good as [|p l IH]; [simpl; lra|]. destruct IH as (A & B); [intros; apply C; right; assumption|]. change (length (p :: l)) with (S (length l)). rewrite S_INR. simpl Rsum.
  destruct (C p (or_introl eq_refl)) as (x & -> & _ & X & Y). specialize (X lo L). specialize (Y hi H). simpl nan0. lra.
Qed.
Theorem c90_between c ts t lo hi : fresh_load c = Ok ts -> In t ts -> (exists stack, sc_source c = Stack stack) \/
    (exists date tiles, sc_source c = Tiles date tiles /\ tiles <> [] /\ (forall t, In t tiles -> length (tl_image t) = length (gd_units (sc_grid c))) /\ (forall t, In t tiles -> exists d, date (tl_name t) = Ok d) /\ forall l, sc_units c = Some l -> NoDup l) ->
  ag_min (sc_options c) = Some lo -> ag_max (sc_options c) = Some hi -> 0 <= ag_scale (sc_options c) ->
  lo * ag_scale (sc_options c) <= st_value t <= hi * ag_scale (sc_options c) /\ in_limits (sc_start c) (sc_stop c) (st_t t).
Proof.
  intros E I S' L H P.
  assert (exists ids stack, observations (sc_options c) (sc_grid c) ids (sc_start c) (sc_stop c) stack ts) as (ids & stack & sel & C & F).
  { destruct S' as [(stack & Es)|(date & tiles & Es & Ne & Ln & D & N)].
    - destruct (c90_stack c stack Es) as (ts' & ids & E' & _ & O). rewrite E in E'. injection E' as <-. exists ids, stack. exact O.
    - destruct (c90_modis c date tiles Es Ne Ln D N) as (ts' & ids & stack & E' & _ & _ & O). rewrite E in E'. injection E' as <-. exists ids, stack. exact O. }
  assert (exists q, In q sel /\ st_t t = fst (fst q) /\ unit_value (sc_options c) (sc_grid c) (snd (fst q)) (snd q) (st_value t)) as (q & Iq & Et & V).
  { clear -F I. induction F as [|q t' sel ts (A & B & V) F IH]; [contradiction|]. destruct I as [<-|I]; [exists q; split; [left; reflexivity|auto]|]. destruct (IH I) as (q' & J & K). exists q'. split; [right; exact J|exact K]. }
  apply (chosen_in _ _ _ q C) in Iq. destruct Iq as (_ & Lim & _). rewrite Et. split; [|exact Lim].
  destruct V as (all & good & _ & G & Ne & _ & M). assert (0 < INR (length good)) as Pg by (apply INR_pos; destruct good; [congruence|simpl; lia]).
  destruct (counted_between _ good lo hi L H) as (A & B); [intros p J; apply (chosen_in _ _ _ p G) in J; tauto|].
  set (s := ag_scale (sc_options c)) in *. split; apply Rmult_le_reg_r with (INR (length good)); try exact Pg; rewrite M; [pose proof (Rmult_le_compat_l s _ _ P A)|pose proof (Rmult_le_compat_l s _ _ P B)]; lra.
Qed.
Print Assumptions c90_between.

(** ** The cache *)
Lemma loads_fresh hash cs : (forall c c', In c cs -> In c' cs -> hash (key_of c) = hash (key_of c') -> key_of c = key_of c' /\ same_request c c') ->
  forall l ch, (forall c, In c l -> In c cs) -> (forall h ts, ch h = Some ts -> exists c, In c cs /\ hash (key_of c) = h /\ fresh_load c = Ok ts) ->
  loads hash l ch = map fresh_load l.
Proof.
  intros H. assert (Same : forall c c', In c cs -> In c' cs -> hash (key_of c) = hash (key_of c') -> fresh_load c = fresh_load c').
  { intros c c' I I' Q. destruct (H c c' I I' Q) as (K & S1 & S2). unfold key_of in K. injection K as K1 K2 K3 K4 K5 K6. unfold fresh_load. rewrite S1, S2, K1, K3, K4, K5. reflexivity. }
  induction l as [|c l IH]; intros ch L J; [reflexivity|]. simpl. pose proof (L c (or_introl eq_refl)) as Ic. assert (L' : forall c', In c' l -> In c' cs) by (intros; apply L; right; assumption).
  unfold load. destruct (ch (hash (key_of c))) as [ts|] eqn:Q.
  - simpl. destruct (J _ _ Q) as (c' & Ic' & Qh & E). rewrite <- E, (Same c' c Ic' Ic Qh). f_equal. apply IH; assumption.
  - destruct (fresh_load c) as [[|t ts]| |] eqn:E; simpl; f_equal; try (apply IH; assumption). apply IH; [exact L'|]. intros h ts' Q'. unfold store in Q'. destruct (Z.eqb_spec h (hash (key_of c))) as [-> |Ne]; [|apply J; exact Q'].
    injection Q' as <-. exists c. repeat split; assumption.
Qed.
(** Whatever is loaded one after the other with the same folder, each load gives what it would give without the cache, if the hashes do not collide and two
    loads with the same key read the same, in the same way, and ask for the same units. *)
Theorem c90_cache_partial hash cs : (forall c c', In c cs -> In c' cs -> hash (key_of c) = hash (key_of c') -> key_of c = key_of c') ->
  (forall c c', In c cs -> In c' cs -> key_of c = key_of c' -> same_request c c') ->
  loads hash cs (fun _ => None) = map fresh_load cs.
Proof. intros A B. apply (loads_fresh hash cs); [|auto|discriminate]. intros c c' I I' Q. split; [apply A|apply B]; auto. Qed.
Print Assumptions c90_cache_partial.

(** "The cache never mixes across discretizations or options": refuted.  The ids that the caller names are not in the key: the second load, for the unit 2
    only, gets the observations of the unit 1. *)
Definition two_units : grid := mkGrid [1; 2]%Z None.
Definition plain : agg_options := mkAgg None (Some 0) (Some 100) (1/2) (1/100).
Definition one_image : snow_source := Stack [(0%Z, [Some 50; Some 100])].
Definition call_for (u : Z) : snow_call := mkSnowCall one_image [("stack.nc"%string, 1000%Z, 0%Z)] "netcdf" two_units (Some [u]) plain None None.
Lemma usable_plain x : 0 <= x <= 100 -> usable_value plain x.
Proof. intro H. split; [discriminate|]. split; intros m Q; injection Q as <-; lra. Qed.
Lemma plain_value u x : (u = 1%Z /\ x = 1/2) \/ (u = 2%Z /\ x = 1) -> unit_mean plain two_units [Some 50; Some 100] u = Some x.
Proof.
  intros [(-> & ->)|(-> & ->)]; apply unit_mean_spec; [exists [(1%Z, Some 50)], [(1%Z, Some 50)]|exists [(2%Z, Some 100)], [(2%Z, Some 100)]]; (split; [|split; [|split; [discriminate|simpl; lra]]]).
  - apply CTake; [reflexivity|]. apply CSkip; [discriminate|]. apply CNil.
  - apply CTake; [|apply CNil]. exists 50. split; [reflexivity|apply usable_plain; lra].
  - apply CSkip; [discriminate|]. apply CTake; [reflexivity|]. apply CNil.
  - apply CTake; [|apply CNil]. exists 100. split; [reflexivity|apply usable_plain; lra].
Qed.
Lemma value_for (u : Z) x : (u = 1%Z /\ x = 1/2) \/ (u = 2%Z /\ x = 1) -> fresh_load (call_for u) = Ok [mkSnow 0 u x].
Proof.
  intro H. assert (E : fresh_load (call_for u) = Ok (restrict_snow None None (((match unit_mean plain two_units [Some 50; Some 100] u with Some v => [mkSnow 0 u v] | None => [] end) ++ []) ++ []))) by reflexivity.
  rewrite E, (plain_value u x H). reflexivity.
Qed.
Theorem c90_cache_units_refuted hash : loads hash [call_for 1; call_for 2] (fun _ => None) = [Ok [mkSnow 0 1 (1/2)]; Ok [mkSnow 0 1 (1/2)]] /\
  map fresh_load [call_for 1; call_for 2] = [Ok [mkSnow 0 1 (1/2)]; Ok [mkSnow 0 2 1]].
Proof.
  assert (A : fresh_load (call_for 1) = Ok [mkSnow 0 1 (1/2)]) by (apply value_for; left; auto). assert (B : fresh_load (call_for 2) = Ok [mkSnow 0 2 1]) by (apply value_for; right; auto).
  assert (K : key_of (call_for 2) = key_of (call_for 1)) by reflexivity.
  split; [|cbn [map]; rewrite A, B; reflexivity]. unfold loads. unfold load at 1. rewrite A. cbn [fst]. f_equal. unfold load. rewrite A. cbn [snd fst]. rewrite K. unfold store. rewrite Z.eqb_refl. reflexivity.
Qed.
Print Assumptions c90_cache_units_refuted.

(** Nor is the way in which the dates are read from the names of the tiles: a corrected second load still gets the dates of the first. *)
Definition by_day (d : Z) : string -> outcome Z := fun _ => Ok d.
Definition tile_call (d : Z) : snow_call := mkSnowCall (Tiles (by_day d) [mkTile "A2020001.hdf" [Some 50; Some 100]]) [("A2020001.hdf"%string, 1000%Z, 0%Z)] "modis" two_units (Some [1%Z]) plain None None.
Lemma tile_value d : fresh_load (tile_call d) = Ok [mkSnow d 1 (1/2)].
Proof.
  assert (E : fresh_load (tile_call d) = Ok (build_targets [1%Z] None None (map (fun p => (fst p, modis_row plain two_units [1%Z] (snd p))) (modis_stack [(d, [Some 50; Some 100])])))) by reflexivity.
  assert (M : modis_stack [(d, [Some 50; Some 100])] = [(d, [Some 50; Some 100])]) by (unfold modis_stack; simpl; rewrite Z.eqb_refl; reflexivity).
  rewrite E, M. cbn [map fst snd]. rewrite (modis_row_spec plain two_units [1%Z] [Some 50; Some 100]) by (repeat constructor; intros []). cbn [map]. rewrite (plain_value 1 (1/2)) by (left; auto). reflexivity.
Qed.
Theorem c90_cache_dates_refuted hash d d' : d <> d' -> loads hash [tile_call d; tile_call d'] (fun _ => None) = [Ok [mkSnow d 1 (1/2)]; Ok [mkSnow d 1 (1/2)]] /\
  map fresh_load [tile_call d; tile_call d'] = [Ok [mkSnow d 1 (1/2)]; Ok [mkSnow d' 1 (1/2)]].
Proof.
  intros _. assert (K : key_of (tile_call d') = key_of (tile_call d)) by reflexivity.
  split; [|cbn [map]; rewrite !tile_value; reflexivity]. unfold loads. unfold load at 1. rewrite tile_value. cbn [fst]. f_equal. unfold load. rewrite tile_value. cbn [snd fst]. rewrite K. unfold store. rewrite Z.eqb_refl. reflexivity.
Qed.
Print Assumptions c90_cache_dates_refuted.

(** The hypotheses are met: a stack, tiles with dates, and loads with different options. *)
Example c90_case : (exists ts, fresh_load (call_for 1) = Ok ts /\ ts <> []) /\ sc_source (tile_call 5) = Tiles (by_day 5) [mkTile "A2020001.hdf" [Some 50; Some 100]] /\
  (forall t, In t [mkTile "A2020001.hdf" [Some 50; Some 100]] -> length (tl_image t) = length (gd_units (sc_grid (tile_call 5)))).
Proof.
  split; [|split; [reflexivity|]].
  - exists [mkSnow 0 1 (1/2)]. split; [apply value_for; left; auto|discriminate].
  - intros t [<-|[]]; reflexivity.
Qed.
Definition renamed (name : string) (u : Z) : snow_call := mkSnowCall one_image [(name, 1000%Z, 0%Z)] "netcdf" two_units (Some [u]) plain None None.
Definition first_letter (s : string) : Z := match s with String c _ => Z.of_nat (Ascii.nat_of_ascii c) | _ => 0%Z end.
Definition name_hash (k : cache_key) : Z := match snd k with (n, _, _) :: _ => first_letter n | [] => 0%Z end.
Example c90_cache_case : let cs := [renamed "a.nc" 1; renamed "b.nc" 2; renamed "a.nc" 1] in
  (forall c c', In c cs -> In c' cs -> name_hash (key_of c) = name_hash (key_of c') -> key_of c = key_of c') /\
  (forall c c', In c cs -> In c' cs -> key_of c = key_of c' -> same_request c c').
Proof.
  assert (D : renamed "a.nc" 1 = renamed "a.nc" 1 /\ key_of (renamed "a.nc" 1) <> key_of (renamed "b.nc" 2) /\ name_hash (key_of (renamed "a.nc" 1)) <> name_hash (key_of (renamed "b.nc" 2))).
  { split; [reflexivity|]. split; [intro Q; injection Q; discriminate|vm_compute; discriminate]. }
  destruct D as (_ & Nk & Nh). cbv zeta. split; intros c c' I I' Q; simpl in I, I'; destruct I as [<-|[<-|[<-|[]]]], I' as [<-|[<-|[<-|[]]]]; try reflexivity; try (split; reflexivity); exfalso; first [apply Nh; first [exact Q|symmetry; exact Q]|apply Nk; first [exact Q|symmetry; exact Q]].
Qed.
