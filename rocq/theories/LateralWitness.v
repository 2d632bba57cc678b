(** Concrete lateral transport: a snowpack of 50 mm of water equivalent sliding to two units. *)
From Verif Require Import WitnessTools Container ContainerFacts Direct DirectSpec DirectFacts DirectSafe DirectWitness Lateral LateralSpec.

Definition slide_origin : lat_origin := mkOr 100 (1/2).
Definition slide_targets : list lat_out := [mkLO (3/4) 200 1 0 1 1; mkLO (1/4) 50 1 10 1 1].
Definition slide_P : slide_param := mkSP 0 1 10 75 40 (-1).
Definition slide_brick : dbrick :=
  mkDB (map (fun t => mkDC OutsideInstant (lat_weight (lat_flux slide_origin t))) slide_targets)
    [mkDP 1 [0%nat; 1%nat]] [0%nat; 1%nat] (fun _ => None) (fun _ => None) (Nat.eqb 1).
Definition slide_law : dlaw := fun conts k =>
  nth k (lat_rates (-1) slide_factor (slide_amount slide_P 30 (level (conts 1%nat))) slide_targets) 0.
Definition slide_state : dstate := mkDS (cvec [store 0; store 50]) (vec []) (vec []).

Lemma slide_amount_val : slide_amount slide_P 30 50 = 40.
Proof.
  assert (T : slide_threshold slide_P 30 = 40).
  { unfold slide_threshold. cbn [sp_coeff sp_exp sp_minslope sp_maxslope sp_minhold sp_maxdepth slide_P].
    rewrite !Rmult_0_l. rtests. rewrite Rmax_right by lra. reflexivity. }
  unfold slide_amount. rewrite T. unfold slide_factor, waterDensity, snowDensity. cbv zeta.
  rtests. rtests. lra.
Qed.
Lemma slide_rates : lat_rates (-1) slide_factor (slide_amount slide_P 30 (level (ds_cont slide_state 1%nat))) slide_targets = [30; 10].
Proof.
  replace (level (ds_cont slide_state 1%nat)) with 50 by (unfold level; cbn; lra). rewrite slide_amount_val.
  unfold lat_rates, slide_targets, lat_rate, avoid_accumulation, NearlyZero, NearlyEqual.
  cbn [map lo_fraction lo_weight lo_swe]. rtests. cbn [andb]. f_equal; [lra|f_equal; lra].
Qed.
Lemma slide_valid : dvalid slide_brick.
Proof. unfold slide_brick. dvalid_tac. Qed.
Lemma slide_lateral : lateral_process slide_brick slide_law (mkDP 1 [0%nat; 1%nat]) slide_origin slide_targets (-1) slide_factor
  (fun conts => slide_amount slide_P 30 (level (conts 1%nat))) slide_state.
Proof.
  constructor.
  - reflexivity.
  - cbn [p_conns map]. unfold slide_law. rewrite slide_rates. reflexivity.
  - replace (level (ds_cont slide_state 1%nat)) with 50 by (unfold level; cbn; lra).
    unfold lat_fluxes. rewrite slide_amount_val. rtests. reflexivity.
Qed.
Lemma slide_runs : exists s', dprocess slide_brick 1 no_input slide_law slide_state (mkDP 1 [0%nat; 1%nat]) = Ok s' /\
  ds_amount s' 0%nat = 30 * (50 / 200) /\ ds_amount s' 1%nat = 10 * (50 / 50).
Proof.
  unfold dprocess. cbn [p_cont p_conns].
  replace (dconstrain slide_brick 1 no_input slide_state 1 (requested slide_brick slide_law slide_state (mkDP 1 [0%nat; 1%nat]))) with (Ok (vec [30;10])).
  2:{ symmetry. unfold dconstrain, requested, blocked_rates, dinputs_static, LessThanOrEqual, slide_law. rewrite slide_rates. rcbn2. rtests. dlimit 2%nat. }
  cbn [bind]. eexists. split; [reflexivity|].
  cbn [fold_left]. unfold apply_dconn, dweighted, GreaterThan, updc, upd, sub_dyn, add_stat, dconn_at, lat_weight, lat_flux, NearlyZero, NearlyEqual, fraction_areas.
  rcbn2. unfold lat_weight, lat_flux, fraction_areas, NearlyZero, NearlyEqual. rcbn2. rtests. rcbn2. rtests. split; num.
Qed.

Lemma slide_unhindered : unhindered slide_brick no_input slide_state (mkDP 1 [0%nat; 1%nat]).
Proof.
  unfold unhindered. split; [reflexivity|]. split.
  - unfold level, slide_state, PRECISION. cbn. lra.
  - split; [|unfold dinputs_static; cbn; lra]. intros k Hk Hn. exfalso. apply Hn. exact Hk.
Qed.
Lemma slide_holding : holding slide_P 30 40.
Proof.
  exists 40. split; [|cbn; split; [lra|reflexivity]].
  replace 40 with (Rmax (1000 * sp_coeff slide_P * Rpower 30 (sp_exp slide_P)) (sp_minhold slide_P)).
  - apply held; cbn; [lra|left; lra].
  - cbn [sp_coeff sp_exp sp_minhold slide_P]. rewrite Rmult_0_r, Rmult_0_l. apply Rmax_right. lra.
Qed.
