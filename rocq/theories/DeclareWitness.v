(** The Socont model with one glacier (python/src/hydrobricks/models/socont.py:124-216, modules/glacier.py:87-131, models/model.py:1129-1168): its two variants,
    and a catchment with a unit without ice and a unit with a glacier. *)
From Verif Require Import Base BaseFacts Container Direct Network Topology Catchment CatchmentSpec Build BuildSpec StructureSpec StructureFacts DeclareSpec DeclareFacts.
Open Scope string_scope.

Definition linear_out : list part_process := [mkPP "outflow" "outflow:linear" ["outlet"] false].
Definition glacier_part : part :=
  mkPart "glacier" CoverPart "" false None
    [mkPP "outflow_rain_snowmelt" "outflow:direct" ["glacier_area_rain_snowmelt_storage"] true; mkPP "melt" "melt:degree_day" ["glacier_area_icemelt_storage"] true].
Definition ice_free_parts : list part :=
  [mkPart "glacier_area_rain_snowmelt_storage" BasinPart "storage" false None linear_out;
   mkPart "glacier_area_icemelt_storage" BasinPart "storage" false None linear_out;
   mkPart "open" CoverPart "" false None [mkPP "infiltration" "infiltration:socont" ["slow_reservoir"] false; mkPP "runoff" "outflow:rest" ["surface_runoff"] false];
   mkPart "slow_reservoir" UnitPart "storage" false (Some 200)
     [mkPP "et" "et:socont" [] false; mkPP "outflow" "outflow:linear" ["outlet"] false; mkPP "overflow" "overflow" ["outlet"] false;
      mkPP "percolation" "percolation:constant" ["slow_reservoir_2"] false];
   mkPart "slow_reservoir_2" UnitPart "storage" false None linear_out;
   mkPart "surface_runoff" UnitPart "storage" false None [mkPP "runoff" "runoff:socont" ["outlet"] false]].
Definition socont_options : options := mkOp true "melt:degree_day" None None None None None None false.
Definition ice_free : variant := mkVariant [("open", "open")] socont_options ice_free_parts.
Definition glaciered : variant := mkVariant [("open", "open"); ("glacier", "glacier")] socont_options (glacier_part :: ice_free_parts).

Ltac each_in H := cbn in H; repeat match type of H with
  | _ \/ _ => destruct H as [H|H]; [subst|]
  | False => destruct H end.
Ltac before_tac l1 l2 l3 := exists l1, l2, l3; reflexivity.

Lemma plain_tac s : s <> "" -> forallb (fun a => negb (Ascii.eqb a ":")) (list_ascii_of_string s) = true -> plain_name s.
Proof. intros H1 H2. split; [exact H1|]. intros a Ha ->. rewrite forallb_forall in H2. specialize (H2 _ Ha). discriminate. Qed.

Section Variants.
Variable v : variant.
Hypothesis Hv : v = ice_free \/ v = glaciered.
Lemma variant_good : good_variant v.
Proof.
  unfold good_variant. destruct Hv as [-> | ->]; cbn [v_covers v_options v_parts ice_free glaciered].
  - constructor.
    + constructor.
      * intros c Hc. each_in Hc. apply plain_tac; [discriminate|reflexivity].
      * constructor; [cbn; tauto|constructor].
      * intros c c' H1 H2. each_in H1. each_in H2. split; discriminate.
      * intros c Hc. each_in Hc. cbn. intuition discriminate.
    + constructor; try reflexivity; try (intros t t0 H; discriminate H); try (intros t H; discriminate H); intros H; destruct (H eq_refl).
    + intros _. split; discriminate.
    + intros c Hc. each_in Hc. cbn. auto.
    + repeat (constructor; [cbn; intuition discriminate|]). constructor.
    + intros p Hp Hk. each_in Hp; try discriminate Hk. cbn. auto.
    + intros p Hp Hk. each_in Hp; try (cbn in Hk; congruence); (split; [cbn; intuition discriminate|]; intros c Hc; each_in Hc; repeat split; discriminate).
    + intros p Hp Hk. each_in Hp; try (cbn in Hk; congruence); reflexivity.
    + intros p x Hp Hx. each_in Hp; try discriminate Hx. injection Hx as <-. lra.
    + intros p q Hp Hq. left. each_in Hp; each_in Hq; reflexivity.
    + intros p q t Hp Hq Ht. each_in Hp; each_in Hq; each_in Ht; (apply plain_tac; [discriminate|reflexivity]).
    + intros p q t Hp Hq Ht Ha. each_in Hp; each_in Hq; each_in Ht; try discriminate Ha; try (apply goes_out; reflexivity).
      * apply (goes_down _ _ _ _ (nth 3 ice_free_parts glacier_part)); [left; reflexivity|cbn; auto 10|reflexivity|reflexivity|left; reflexivity].
      * apply (goes_down _ _ _ _ (nth 5 ice_free_parts glacier_part)); [left; reflexivity|cbn; auto 10|reflexivity|reflexivity|left; reflexivity].
      * apply (goes_on _ _ _ _ (nth 4 ice_free_parts glacier_part)); try reflexivity; [cbn; auto 10|].
        exists (firstn 3 ice_free_parts), [], (skipn 5 ice_free_parts). reflexivity.
  - constructor.
    + constructor.
      * intros c Hc. each_in Hc; (apply plain_tac; [discriminate|reflexivity]).
      * repeat (constructor; [cbn; intuition discriminate|]). constructor.
      * intros c c' H1 H2. each_in H1; each_in H2; split; discriminate.
      * intros c Hc. each_in Hc; cbn; intuition discriminate.
    + constructor; try reflexivity; try (intros t t0 H; discriminate H); try (intros t H; discriminate H); intros H; destruct (H eq_refl).
    + intros _. split; discriminate.
    + intros c Hc. each_in Hc; cbn; auto 10.
    + repeat (constructor; [cbn; intuition discriminate|]). constructor.
    + intros p Hp Hk. each_in Hp; try discriminate Hk; cbn; auto.
    + intros p Hp Hk. each_in Hp; try (cbn in Hk; congruence); (split; [cbn; intuition discriminate|]; intros c Hc; each_in Hc; repeat split; discriminate).
    + intros p Hp Hk. each_in Hp; try (cbn in Hk; congruence); reflexivity.
    + intros p x Hp Hx. each_in Hp; try discriminate Hx. injection Hx as <-. lra.
    + intros p q Hp Hq. each_in Hp; each_in Hq; try (left; reflexivity). right. split; [reflexivity|]. split; [|reflexivity]. intros c Hc E. each_in Hc; [discriminate E|reflexivity].
    + intros p q t Hp Hq Ht. each_in Hp; each_in Hq; each_in Ht; (apply plain_tac; [discriminate|reflexivity]).
    + intros p q t Hp Hq Ht Ha. each_in Hp; each_in Hq; each_in Ht; try discriminate Ha; try (apply goes_out; reflexivity).
      * apply (goes_basin _ _ _ _ (nth 0 ice_free_parts glacier_part)); [left; reflexivity|cbn; auto 10|reflexivity|reflexivity].
      * apply (goes_basin _ _ _ _ (nth 1 ice_free_parts glacier_part)); [left; reflexivity|cbn; auto 10|reflexivity|reflexivity].
      * apply (goes_down _ _ _ _ (nth 3 ice_free_parts glacier_part)); [left; reflexivity|cbn; auto 10|reflexivity|reflexivity|left; reflexivity].
      * apply (goes_down _ _ _ _ (nth 5 ice_free_parts glacier_part)); [left; reflexivity|cbn; auto 10|reflexivity|reflexivity|left; reflexivity].
      * apply (goes_on _ _ _ _ (nth 4 ice_free_parts glacier_part)); try reflexivity; [cbn; auto 10|].
        exists (glacier_part :: firstn 3 ice_free_parts)%list, [], (skipn 5 ice_free_parts). reflexivity.
Qed.
End Variants.

Definition unit_variant (u : nat) : variant := match u with 0%nat => ice_free | _ => glaciered end.
(** 3 km2 without ice, 1 km2 with a quarter of ice. *)
Definition half_ice (name : string) : R := if String.eqb name "glacier" then 1/4 else 3/4.
Definition socont_domain : domain :=
  mkDom [mkUnit 3 (structure_of ice_free) (fun _ => 1) []; mkUnit 1 (structure_of glaciered) half_ice []]
    (map part_brick (filter of_basin ice_free_parts)).
Lemma socont_units : good_units ice_free unit_variant socont_domain.
Proof.
  pose proof (variant_good ice_free (or_introl eq_refl)) as G0. pose proof (variant_good glaciered (or_intror eq_refl)) as G1.
  assert (K : forall P : nat -> Prop, P 0%nat -> P 1%nat -> forall u, (u < length (dm_units socont_domain))%nat -> P u).
  { intros P H0 H1 u Hu. cbn in Hu. destruct u as [|[|u]]; [exact H0|exact H1|lia]. }
  constructor.
  - exact G0.
  - exists (structure_of ice_free). split; [exact (model_declared _ _ _ G0)|]. unfold structure_of. rewrite basin_shape. reflexivity.
  - apply K; assumption.
  - apply K; reflexivity.
  - apply K; [exact (model_declared _ _ _ G0)|exact (model_declared _ _ _ G1)].
  - apply K; cbn; lra.
  - intros u c Hu Hc. revert Hc. revert u Hu. refine (K _ _ _); intros Hc; each_in Hc; cbn; unfold PRECISION, half_ice; cbn; rewrite Rabs_right by lra; split; lra.
  - apply K; cbn; unfold half_ice; cbn; lra.
  - intros u v' Hu Hv'. exfalso. revert Hv'. revert u Hu. refine (K _ _ _); intros Hv'; destruct Hv'.
Qed.
