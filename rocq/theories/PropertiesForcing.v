(** Property C69: the forcing data reach the units they were given for. *)
From Flocq Require Import Core.
From Verif Require Import Base BaseFacts Clock ClockFacts TimeSeries Calendar RunMoreFacts ForcingFile ForcingFileSpec ForcingFileFacts.
Open Scope R_scope.

(** A forcing file that is read and accepted: each unit of the basin that uses a variable of the file and is in the file gets one series for it, with the
    values of the file for that unit, whatever the order of the dimensions and of the units. *)
Theorem c69_file_to_units : forall f T l have units a v ty i id k types, length (ff_ids f) = ff_units f ->
  parse_forcing f = Ok l -> add_all T [] l = Some have -> attach have units = Ok a ->
  In v (ff_variables f) -> match_type (v_name v) = Ok ty -> nth_error (ff_ids f) i = Some id -> nth_error units k = Some (id, types) -> In ty types ->
  exists s, attached_to k ty a = [s] /\ s_values s = unit_series v (length (ff_times f)) i.
Proof. exact file_to_unit. Qed.
Print Assumptions c69_file_to_units.
(** Nothing else is attached. *)
Theorem c69_nothing_else : forall f T l have units a k ty s, length (ff_ids f) = ff_units f ->
  parse_forcing f = Ok l -> add_all T [] l = Some have -> attach have units = Ok a -> In (k, ty, s) a ->
  exists v i id types, In v (ff_variables f) /\ match_type (v_name v) = Ok ty /\ nth_error (ff_ids f) i = Some id /\ nth_error units k = Some (id, types) /\
    In ty types /\ s_values s = unit_series v (length (ff_times f)) i.
Proof. exact unit_from_file. Qed.
Print Assumptions c69_nothing_else.

(** The type of a variable follows from its name, whatever its case; any other name is refused. *)
Lemma strings_match_spec a b : strings_match a b = true <-> capitals a = capitals b.
Proof.
  revert b. induction a as [|x a IH]; intros [|y b]; cbn [strings_match capitals]; try (split; [discriminate|discriminate]); [split; reflexivity|].
  rewrite Bool.andb_true_iff, IH, Ascii.eqb_eq. split; [intros (-> & ->); reflexivity|intros [= -> ->]; auto].
Qed.
Theorem c69_names : forall name, (forall k, match_type name = Ok k <-> In (capitals name) (nth k known_names [])) /\
  (match_type name = Throw <-> forall k, ~ In (capitals name) (nth k known_names [])) /\ match_type name <> UB.
Proof.
  intros name. assert (K : known_names = map (map capitals) type_names) by reflexivity.
  assert (G : forall l b, (exists k, match_from b l name = Ok (b + k)%nat /\ In (capitals name) (nth k (map (map capitals) l) [])) \/
    (match_from b l name = Throw /\ forall k, ~ In (capitals name) (nth k (map (map capitals) l) []))).
  { induction l as [|ns l IH]; intros b; [right; split; [reflexivity|intros [|k] []]|]. cbn [match_from map]. destruct (existsb (strings_match name) ns) eqn:E.
    - left. exists 0%nat. split; [f_equal; lia|]. apply existsb_exists in E. destruct E as (n & In_n & En). apply strings_match_spec in En. cbn [nth]. rewrite En. apply in_map. exact In_n.
    - destruct (IH (S b)) as [(k & Ek & Ik)|(Et & N)].
      + left. exists (S k). split; [rewrite Ek; f_equal; lia|exact Ik].
      + right. split; [exact Et|]. intros [|k]; [|exact (N k)]. cbn [nth]. intros I. apply in_map_iff in I. destruct I as (n & En & In_n).
        assert (existsb (strings_match name) ns = true); [|congruence]. apply existsb_exists. exists n. split; [exact In_n|]. apply strings_match_spec. congruence. }
  assert (D : forall c i j, In c (nth i known_names []) -> In c (nth j known_names []) -> i = j).
  { intros c i j Hi Hj. do 9 (destruct i as [|i]; [cbn in Hi; do 9 (destruct j as [|j]; [first [reflexivity|cbn in Hj; repeat (destruct Hi as [<-|Hi]; [repeat (destruct Hj as [Hj|Hj]; [discriminate|]); contradiction|]); contradiction]|]);
      destruct j; contradiction|]). destruct i; contradiction. }
  specialize (G type_names 0%nat). rewrite <- K in G. cbn [Nat.add] in G. unfold match_type. destruct G as [(k & Ek & Ik)|(Et & N)].
  - rewrite Ek. repeat split; try discriminate.
    + intros [= <-]. exact Ik.
    + intros I. f_equal. exact (D _ _ _ Ik I).
    + intros N. exfalso. exact (N k Ik).
  - rewrite Et. repeat split; try discriminate; [|intros _; exact N]. intros I. exfalso. exact (N _ I).
Qed.
Print Assumptions c69_names.
Example c69_names_used : match_type "Temperature_MIN" = Ok 2%nat /\ match_type "t" = Ok 1%nat /\ match_type "Precip" = Throw.
Proof. repeat split. Qed.

(** The attachment fails, without undefined behaviour, exactly when a unit that uses a variable of the file is not in the file. *)
Theorem c69_missing_units : forall f T l have units, length (ff_ids f) = ff_units f -> parse_forcing f = Ok l -> add_all T [] l = Some have ->
  attach have units <> UB /\
  (attach have units = Throw <-> exists v ty id types, In v (ff_variables f) /\ match_type (v_name v) = Ok ty /\ In (id, types) units /\ In ty types /\ ~ In id (ff_ids f)).
Proof.
  intros f T l have units Hlen HP HA. split; [apply attach_not_ub|].
  destruct (parse_shape f l HP) as (start & stop & step & u & t0 & t1 & r & _ & _ & _ & _ & HF). destruct (add_all_spec T l [] have HA) as (-> & Hv & _). cbn [app].
  rewrite (attach_throws l units Hv).
  assert (FC : forall v ty, map fst (fs_data (series_of f start stop step u v ty)) = ff_ids f).
  { intros v ty. unfold series_of. cbn [fs_data]. apply fst_combine. rewrite map_length, seq_length. exact Hlen. }
  split.
  - intros (g & id & types & Ig & Iu & It & N). destruct (in_forall2_r _ _ _ g HF Ig) as (v & Iv & ty & Ety & ->). rewrite FC in N. exists v, ty, id, types. auto.
  - intros (v & ty & id & types & Iv & Ety & Iu & It & N). destruct (in_forall2_l _ _ _ v HF Iv) as (g & Ig & ty' & Ety' & ->). assert (ty' = ty) by congruence. subst ty'.
    exists (series_of f start stop step u v ty), id, types. rewrite FC. auto.
Qed.
Print Assumptions c69_missing_units.

(** Data given as an array with one column per unit: an accepted array has one row per date and one column per id, and the series of each unit is its column. *)
Theorem c69_array_to_units : forall name times ids data g, create_forcing name times ids data = Ok g ->
  match_type name = Ok (fs_type g) /\ a_rows data = length times /\ a_cols data = length ids /\ map fst (fs_data g) = ids /\
  forall i id, nth_error ids i = Some id -> exists s, nth_error (fs_data g) i = Some (id, s) /\ s_values s = array_series data (length times) i.
Proof. exact created. Qed.
Print Assumptions c69_array_to_units.
Theorem c69_array_attached : forall T l have units a name times ids data g i id k types, add_all T [] l = Some have -> attach have units = Ok a ->
  In g l -> create_forcing name times ids data = Ok g -> nth_error ids i = Some id -> nth_error units k = Some (id, types) -> In (fs_type g) types ->
  exists s, attached_to k (fs_type g) a = [s] /\ s_values s = array_series data (length times) i.
Proof.
  intros T l have units a name times ids data g i id k types HA HT Ig HC Hi Hk It. destruct (add_all_spec T l [] have HA) as (-> & Hv & Hn). cbn [app] in *. specialize (Hn ltac:(constructor)).
  destruct (created _ _ _ _ _ HC) as (_ & _ & _ & _ & K). destruct (K i id Hi) as (s & Hs & Es). destruct (valid_parts _ (Hv _ Ig)) as (_ & N).
  rewrite (attach_at _ _ _ _ _ _ (fs_type g) HT Hk), (flat_unique l g id types Hn Ig). unfold expected. rewrite Nat.eqb_refl.
  replace (existsb (Nat.eqb (fs_type g)) types) with true by (symmetry; apply existsb_exists; exists (fs_type g); split; [exact It|apply Nat.eqb_refl]). cbn [andb].
  assert (PT : data_pointer id (fs_data g) = Some s).
  { clear - N Hs. revert i N Hs. induction (fs_data g) as [|[j x] q IH]; intros i N Hs; [destruct i; discriminate|]. cbn [data_pointer map fst] in *. inversion N as [|? ? N1 N2]; subst.
    destruct i as [|i]; cbn in Hs; [injection Hs as -> ->; rewrite Z.eqb_refl; reflexivity|].
    destruct (Z.eqb j id) eqn:E; [|exact (IH i N2 Hs)]. apply Z.eqb_eq in E. subst j. exfalso. apply N1. apply in_map_iff. exists (id, s). split; [reflexivity|exact (nth_error_In _ _ Hs)]. }
  rewrite PT. exists s. split; [reflexivity|exact Es].
Qed.
Print Assumptions c69_array_attached.

(** A daily file of any length (dates up to MJD 11 000 000) is read without loss: its series start and end on its first and last dates and have a daily step. *)
Theorem c69_daily_file : forall f first n, (2 <= n)%nat -> (0 <= first)%Z -> (first + Z.of_nat n <= 11000000)%Z -> ff_times f = daily_dates first n ->
  (forall v, In v (ff_variables f) -> exists ty, match_type (v_name v) = Ok ty) ->
  exists l, parse_forcing f = Ok l /\ Forall2 (fun v g => match_type (v_name v) = Ok (fs_type g) /\
    fs_data g = combine (ff_ids f) (map (fun i => mkS (IZR first) (IZR (first + Z.of_nat n - 1)) 1 Day (unit_series v n i) 0) (seq 0 (ff_units f)))) (ff_variables f) l.
Proof. exact daily_parsed. Qed.
Print Assumptions c69_daily_file.
(** An hourly file of whole days is not: its dates are read as 32-bit floats, the last one as 22:58, and the data are never accepted. *)
Theorem c69_hourly_file_refuted : forall f first days l, (2 ^ 15 <= first)%Z -> (0 < days)%nat -> (first + Z.of_nat days <= 2 ^ 16)%Z ->
  ff_times f = hourly_dates first (24 * days) -> parse_forcing f = Ok l ->
  forall g T have, In g l -> add_series T have g = (false, have).
Proof.
  intros f first days l H1 H2 H3 Ht HP g T have Ig. unfold add_series. rewrite (hourly_lost f first days l H1 H2 H3 Ht HP g Ig). reflexivity.
Qed.
Print Assumptions c69_hourly_file_refuted.

(** The total of a forcing is the sum over the units of the sum of their values, weighted by their areas. *)
Theorem c69_total : forall g units x, Rsum snd units <> 0 -> forcing_total g units = Ok x ->
  exists sums, Forall2 (fun u y => exists s, data_pointer (fst u) (fs_data g) = Some s /\ y = Rsum (fun v => v) (s_values s) * snd u) units sums /\
    x * Rsum snd units = Rsum (fun y => y) sums.
Proof.
  intros g units x NZ H. unfold forcing_total in H. revert NZ H. generalize (Rsum snd units) as A. intros A NZ H.
  destruct (map_all _ units) as [l| |] eqn:E; cbn [bind] in H; try discriminate. injection H as <-. rewrite fold_plus_sum. apply map_all_ok in E.
  exists (map (fun y => y * A) l). split.
  - induction E as [|[id area] y us ys E1 E2 IH]; [constructor|]. cbn [map]. constructor; [|exact IH]. cbn [fst snd].
    destruct (data_pointer id (fs_data g)) as [s|]; [|discriminate]. injection E1 as <-. exists s. split; [reflexivity|]. rewrite fold_plus_sum. field. exact NZ.
  - clear. induction l as [|y l IH]; cbn [Rsum map]; [lra|]. cbn in IH. lra.
Qed.
Print Assumptions c69_total.

(** A file of two units (listed as 7 and 3) and three days with the dimensions (time, unit), for a basin of the units 3 and 7. *)
Definition small_file : forcing_file := mkFF 2 [7; 3]%Z (daily_dates 50000 3) [mkV "P" true (fun t i => INR (10 * i + t)); mkV "temperature" false (fun i t => - INR (10 * i + t))].
Definition small_units : list (Z * list nat) := [(3%Z, [0%nat]); (7%Z, [1; 0]%nat)].
Definition small_period : timer := mkT 50000 50002 1 Day.
Example c69_case : exists l have a s, parse_forcing small_file = Ok l /\ add_all small_period [] l = Some have /\ attach have small_units = Ok a /\
  attached_to 0 0 a = [s] /\ s_values s = [INR 10; INR 11; INR 12].
Proof.
  destruct (c69_daily_file small_file 50000 3 ltac:(lia) ltac:(lia) ltac:(lia) eq_refl) as (l & HP & HF).
  { intros v [<-|[<-|[]]]; [exists 0%nat|exists 1%nat]; reflexivity. }
  inversion HF as [|v1 g1 vs1 l1 (T1 & D1) HF1]; subst. inversion HF1 as [|v2 g2 vs2 l2 (T2 & D2) HF2]; subst. inversion HF2; subst.
  destruct g1 as [y1 d1], g2 as [y2 d2]. cbn [fs_type fs_data] in *. subst d1 d2.
  assert (y1 = 0%nat) by (vm_compute in T1; congruence). assert (y2 = 1%nat) by (vm_compute in T2; congruence). subst y1 y2.
  set (mk1 := fun i => mkS 50000 (IZR (50000 + Z.of_nat 3 - 1)) 1 Day (unit_series (mkV "P" true (fun t i => INR (10 * i + t))) 3 i) 0) in *.
  set (mk2 := fun i => mkS 50000 (IZR (50000 + Z.of_nat 3 - 1)) 1 Day (unit_series (mkV "temperature" false (fun i t => - INR (10 * i + t))) 3 i) 0) in *.
  assert (V1 : forall i, series_valid (mk1 i) = true).
  { intros i. unfold series_valid, mk1. cbn [s_values s_start s_end s_step unit_series map seq length Nat.eqb negb andb]. rewrite (proj2 (Rleb_true _ _)) by (apply IZR_le; lia). reflexivity. }
  assert (V2 : forall i, series_valid (mk2 i) = true).
  { intros i. unfold series_valid, mk2. cbn [s_values s_start s_end s_step unit_series map seq length Nat.eqb negb andb]. rewrite (proj2 (Rleb_true _ _)) by (apply IZR_le; lia). reflexivity. }
  assert (A1 : add_series small_period [] (mkF 0 (combine (ff_ids small_file) (map mk1 (seq 0 (ff_units small_file))))) = (true, [mkF 0 (combine (ff_ids small_file) (map mk1 (seq 0 (ff_units small_file))))])).
  { apply add_series_spec. split; [reflexivity|]. split; [|split; [intros ? []|]].
    - unfold forcing_valid. cbn [fs_data small_file ff_ids ff_units seq map combine length Nat.eqb negb forallb snd andb fst]. rewrite !V1. reflexivity.
    - exists 7%Z, (mk1 0%nat), [(3%Z, mk1 1%nat)]. split; [reflexivity|]. cbn [small_period t_start t_end mk1 s_start s_end]. split; [lra|]. apply IZR_le; lia. }
  assert (A2 : add_series small_period [mkF 0 (combine (ff_ids small_file) (map mk1 (seq 0 (ff_units small_file))))] (mkF 1 (combine (ff_ids small_file) (map mk2 (seq 0 (ff_units small_file))))) =
    (true, [mkF 0 (combine (ff_ids small_file) (map mk1 (seq 0 (ff_units small_file)))); mkF 1 (combine (ff_ids small_file) (map mk2 (seq 0 (ff_units small_file))))])).
  { apply add_series_spec. split; [reflexivity|]. split; [|split].
    - unfold forcing_valid. cbn [fs_data small_file ff_ids ff_units seq map combine length Nat.eqb negb forallb snd andb fst]. rewrite !V2. reflexivity.
    - intros g [<-|[]]. cbn. discriminate.
    - exists 7%Z, (mk2 0%nat), [(3%Z, mk2 1%nat)]. split; [reflexivity|]. cbn [small_period t_start t_end mk2 s_start s_end]. split; [lra|]. apply IZR_le; lia. }
  exists [mkF 0 (combine (ff_ids small_file) (map mk1 (seq 0 (ff_units small_file)))); mkF 1 (combine (ff_ids small_file) (map mk2 (seq 0 (ff_units small_file))))].
  eexists. exists [(0%nat, 0%nat, mk1 1%nat); (1%nat, 0%nat, mk1 0%nat); (1%nat, 1%nat, mk2 0%nat)]. eexists.
  split; [exact HP|]. split; [cbn [add_all]; rewrite A1; cbn iota; rewrite A2; reflexivity|]. split; [|split; [reflexivity|reflexivity]].
  unfold attach. cbn [map_all small_units length seq combine attach_one fs_type existsb Nat.eqb orb fs_data small_file ff_ids ff_units map data_pointer Z.eqb Pos.eqb bind].
  rewrite ?V1, ?V2. reflexivity.
Qed.
Example c69_hourly_case : exists l, parse_forcing (mkFF 1 [1%Z] (hourly_dates 50000 (24 * 2)) [mkV "p" true (fun _ _ => 0)]) = Ok l /\ l <> [].
Proof.
  set (f := mkFF 1 [1%Z] (hourly_dates 50000 (24 * 2)) [mkV "p" true (fun _ _ => 0)]). unfold parse_forcing.
  assert (E : map to_float (ff_times f) = map (fun i => to_float (50000 + INR i / 24)) (seq 0 48)) by (unfold f; cbn [ff_times]; unfold hourly_dates; rewrite map_map; reflexivity).
  destruct (axis_shape (fun i => to_float (50000 + INR i / 24)) 48 ltac:(lia)) as (r & Er & El). cbv beta in El. rewrite E, Er, El.
  assert (A0 : to_float (50000 + INR 0 / 24) = IZR 50000).
  { replace (50000 + INR 0 / 24) with (IZR 50000) by (cbn; lra). apply to_float_int. lia. }
  assert (A2 : to_float (50000 + INR (48 - 1) / 24) = IZR (50001 * 256 + 245) / 256).
  { apply to_float_256; [|replace ((50000 + INR (48 - 1) / 24) * 256 - IZR (50001 * 256 + 245)) with (1 / 3); [rewrite Rabs_right; lra|]]; rewrite INR_IZR_INZ; cbn [Nat.sub Z.of_nat Pos.of_succ_nat]; cbn; lra. }
  rewrite A0, A2, minute_date_day by lia. rewrite late_hour by lia. cbn [bind]. destruct (extract_time_step _) as [step u]. cbn [ff_variables f map_all v_name].
  replace (match_type "p") with (@Ok nat 0%nat) by reflexivity. cbn [bind]. eexists. split; [reflexivity|discriminate].
Qed.
