(** C83, C84: the operations on the forcing as a whole: their order, PET, totals, and their re-application during a calibration. *)
From Coq Require Import String.
From Verif Require Import BaseFacts WitnessTools ForcingFile ForcingOpsSpec ForcingOpsFacts ForcingOpsCal PropertiesForcingOps.
Open Scope string_scope.
Open Scope R_scope.

(** *** The order of the operations *)
Definition with_ops (f : forcing) (l : list operation) : forcing := mkFo (fo_units f) (fo_months f) (fo_1d f) (fo_2d f) l (fo_init f).
Definition out_map {A B} (g : A -> B) (o : outcome A) : outcome B := bind o (fun x => Ok (g x)).
Lemma one_with_ops pet ps t f op l : apply_one pet ps t (with_ops f l) op = out_map (fun r => with_ops r l) (apply_one pet ps t f op).
Proof.
  unfold out_map. destruct op as [v m c|v m o|m use kw]; cbn [apply_one].
  - destruct (resolve ps c) as [(a, b)| |]; cbn [bind]; try reflexivity. destruct (t || snd (a, b)); [|reflexivity]. unfold prior_correction. destruct (get_variable v); cbn [bind]; try reflexivity. cbn [with_ops fo_1d].
    destruct (look _ _); cbn [bind]; try reflexivity. destruct (number _); cbn [bind]; try reflexivity. destruct (String.eqb m "multiplicative"); [reflexivity|]. destruct (String.eqb m "additive"); reflexivity.
  - destruct (resolve_options ps o) as [q| |]; cbn [bind]; try reflexivity. destruct (t || any_changing q); [|reflexivity]. unfold spatialize. destruct (get_variable v); cbn [bind]; try reflexivity. cbn [with_ops fo_1d fo_months fo_units].
    destruct (look _ _); cbn [bind]; try reflexivity. destruct (default_method _ _); cbn [bind]; try reflexivity. destruct (match match _ with ANone => _ | _ => _ end with AList _ => _ | _ => _ end); [reflexivity|]. destruct (negb _); [reflexivity|].
    destruct (all_units _ _); reflexivity.
  - destruct (map_out _ kw) as [q| |]; cbn [bind]; try reflexivity. destruct (t || _); [|reflexivity]. unfold compute_pet. cbn [with_ops fo_units fo_2d].
    match goal with |- context [bind ?a _] => destruct a as [lat| |] end; cbn [bind]; try reflexivity. destruct (map_out _ _); cbn [bind]; try reflexivity. destruct (all_indexed _ _ _); reflexivity.
Qed.
Lemma list_with_ops pet ps t l : forall k f, apply_list pet ps t (with_ops f l) k = out_map (fun r => with_ops r l) (apply_list pet ps t f k).
Proof. induction k as [|op k IH]; intro f; [reflexivity|]. cbn [apply_list]. rewrite one_with_ops. unfold out_map at 1. destruct (apply_one pet ps t f op); cbn [bind]; try reflexivity. apply IH. Qed.
Definition corrections (l : list operation) : list operation := filter (fun op => match op with Correct _ _ _ => true | _ => false end) l.
Definition spatialisations (l : list operation) : list operation := filter (fun op => match op with Spatialize _ _ _ => true | _ => false end) l.
Definition pets (l : list operation) : list operation := filter (fun op => match op with ComputePet _ _ _ => true | _ => false end) l.
Lemma of_type_0 l : of_type 0 l = corrections l.
Proof. unfold of_type, corrections. induction l as [|[] l IH]; cbn [filter op_type Nat.eqb]; rewrite ?IH; reflexivity. Qed.
Lemma of_type_1 l : of_type 1 l = spatialisations l.
Proof. unfold of_type, spatialisations. induction l as [|[] l IH]; cbn [filter op_type Nat.eqb]; rewrite ?IH; reflexivity. Qed.
Lemma of_type_3 l : of_type 3 l = pets l.
Proof. unfold of_type, pets. induction l as [|[] l IH]; cbn [filter op_type Nat.eqb]; rewrite ?IH; reflexivity. Qed.
(** Corrections come first, then the spatialisations, then PET, each in the order in which they were declared. *)
Theorem c83_phases pet ps t f f' : apply_operations pet ps t f = Ok f' ->
  exists a b c, apply_list pet ps t f (corrections (fo_ops f)) = Ok a /\ apply_list pet ps t a (spatialisations (fo_ops f)) = Ok b /\ apply_list pet ps t b (pets (fo_ops f)) = Ok c /\ f' = initialized c.
Proof. rewrite <- of_type_0, <- of_type_1, <- of_type_3. apply phases. Qed.
Print Assumptions c83_phases.
(** The order in which operations of different kinds are declared does not matter. *)
Theorem c83_order pet ps t f l : corrections (fo_ops f) = corrections l -> spatialisations (fo_ops f) = spatialisations l -> pets (fo_ops f) = pets l ->
  apply_operations pet ps t (with_ops f l) = out_map (fun r => with_ops r l) (apply_operations pet ps t f).
Proof.
  intros A B C. rewrite <- !of_type_0 in A. rewrite <- !of_type_1 in B. rewrite <- !of_type_3 in C. unfold apply_operations. cbn [apply_types with_ops fo_ops]. rewrite <- A, list_with_ops. unfold out_map at 1.
  destruct (apply_list pet ps t f _) as [a| |] eqn:Ea; cbn [bind]; try reflexivity. pose proof (list_ops _ _ _ _ _ _ Ea) as Oa. cbn [with_ops fo_ops]. rewrite Oa, <- B, list_with_ops. unfold out_map at 1.
  destruct (apply_list pet ps t a _) as [b| |] eqn:Eb; cbn [bind]; try reflexivity. pose proof (list_ops _ _ _ _ _ _ Eb) as Ob. cbn [with_ops fo_ops]. rewrite Ob, Oa, !no_type_2. cbn [apply_list bind with_ops fo_ops]. rewrite Ob, Oa, <- C, list_with_ops. unfold out_map at 1.
  destruct (apply_list pet ps t b _) as [c| |] eqn:Ec; reflexivity.
Qed.
Print Assumptions c83_order.
(** The case: the correction is declared after the spatialisation and still applies to it. *)
Definition no_pet : string -> pet_args -> outcome (list R) := fun _ _ => Throw.
Definition sp (name : string) (g : opt) : operation := Spatialize name "default" (mkO (Given (AInt 1000)) g free free free).
Definition cor (c : opt) : operation := Correct "p" "multiplicative" c.
Ltac fgo := lazy -[Rltb Rplus Rmult Rminus Rdiv Rinv Ropp IZR]; repeat (rtests; lazy -[Rltb Rplus Rmult Rminus Rdiv Rinv Ropp IZR]).
Example c83_order_case : exists f', apply_operations no_pet None true (case_f [sp "p" (Given (AFloat (1/10))); cor (Given (AFloat 2))]) = Ok f' /\ exists y, cell f' VP 1 0 = Some y /\ y = 10 * 2 * 2.
Proof. eexists. split; [fgo; reflexivity|]. eexists. split; [fgo; reflexivity|]. lra. Qed.

(** *** PET *)
(** Every unit gets the evapotranspiration of its own series, elevation and latitude (or the latitude that was given). *)
Theorem c83_pet pet f method use kw f' : compute_pet pet f method use kw = Ok f' ->
  exists values, look (fo_2d f') VPet = Ok values /\ List.length values = List.length (fo_units f) /\
    forall i p, nth_error (fo_units f) i = Some p -> exists s a, nth_error values i = Some s /\ pet method a = Ok s /\
      (pa_elevation a = if in_use use "elevation" then Some (pl_elevation p) else None) /\
      ((in_use use "latitude" || in_use use "lat" = true)%bool -> kw_look kw "latitude" = None -> kw_look kw "lat" = None -> pa_lat a = Some (pl_latitude p * TO_RAD)) /\
      (forall u, In u use -> in_use ["latitude"; "lat"; "elevation"] u = false -> exists v units, get_variable u = Ok v /\ look (fo_2d f) v = Ok units /\ In (v, nth i units []) (pa_series a)).
Proof.
  intro E. unfold compute_pet in E.
  match type of E with context [bind ?a _] => destruct a as [lat| |] eqn:Lat end; cbn [bind] in E; try discriminate.
  destruct (map_out get_variable _) as [vars| |] eqn:V; cbn [bind] in E; try discriminate. destruct (all_indexed _ _ _) as [values| |] eqn:A; cbn [bind] in E; try discriminate. injection E as <-.
  exists values. split; [cbn [with_2d fo_2d]; rewrite look_store, var_eqb_refl; reflexivity|].
  assert (G : forall (h : nat -> place -> outcome (list R)) l k r, all_indexed h k l = Ok r -> List.length r = List.length l /\ forall i p, nth_error l i = Some p -> exists s, nth_error r i = Some s /\ h (k + i)%nat p = Ok s).
  { clear. intros h. induction l as [|p l IH]; intros k r E; cbn [all_indexed] in E; [injection E as <-; split; [reflexivity|intros [|i] p H; discriminate]|].
    destruct (h k p) as [x| |] eqn:H; cbn [bind] in E; try discriminate. destruct (all_indexed h (S k) l) as [q| |] eqn:Q; cbn [bind] in E; try discriminate. injection E as <-. destruct (IH _ _ Q) as (A & B). split; [cbn; congruence|].
    intros [|i] p' Hp; cbn [nth_error] in *; [injection Hp as <-; exists x; rewrite Nat.add_0_r; auto|]. rewrite Nat.add_succ_r. exact (B i p' Hp). }
  destruct (G _ _ _ _ A) as (Hl & Hn). clear G. split; [exact Hl|]. intros i p Hp. destruct (Hn i p Hp) as (s & S & Ps). cbn [Nat.add] in Ps.
  destruct (map_out _ vars) as [series| |] eqn:M; cbn [bind] in Ps; try discriminate. exists s. eexists. split; [exact S|]. split; [exact Ps|]. cbn [pa_elevation pa_lat pa_series]. split; [reflexivity|]. split.
  - intros U K1 K2. rewrite U, K1, K2 in Lat. injection Lat as <-. reflexivity.
  - intros u Iu F. destruct (map_out_in2 _ _ _ V u) as (v & Iv & Gv); [apply filter_In; split; [exact Iu|rewrite F; reflexivity]|]. destruct (map_out_in2 _ _ _ M v Iv) as ((v', ser) & Is & Ls).
    destruct (look (fo_2d f) v) as [units| |] eqn:Lv; cbn [bind] in Ls; try discriminate. injection Ls as <- <-. exists v, units. auto.
Qed.
Print Assumptions c83_pet.
Example c83_pet_case : exists f', apply_operations (fun _ a => match pa_lat a, pa_series a with Some x, [(VT, s)] => Ok (map (fun t => t * x) s) | _, _ => Throw end) None true
  (case_f [sp "t" (Given (AFloat (-1))); ComputePet "hamon" ["t"; "lat"] []]) = Ok f' /\ cell f' VPet 1 1 = Some ((15 + (-1) * (2000 - 1000) / 100) * (47 * TO_RAD)).
Proof. eexists. split; [reflexivity|reflexivity]. Qed.
(** The additional options, documented as passed to the function of pyet, have no effect at all. *)
Theorem c83_pet_options_refuted pet f method use kw kw' : kw_look kw "latitude" = kw_look kw' "latitude" -> kw_look kw "lat" = kw_look kw' "lat" -> compute_pet pet f method use kw = compute_pet pet f method use kw'.
Proof. intros A B. unfold compute_pet. rewrite A, B. reflexivity. Qed.
Print Assumptions c83_pet_options_refuted.
(** The variables that the model refuses, although the forcing offers them for the computation of PET: all variables of the forcing are passed to the model. *)
Theorem c83_variables_refuted v : match_type (variable_text v) = Throw <-> In v [VTdew; VRh; VRhMin; VRhMax; VRnet; VSd; VWind; VPressure].
Proof. split; [destruct v; intro H; try (vm_compute in H; discriminate H); cbn; tauto|]. cbn [In]. intros H. repeat (destruct H as [<- | H]; [vm_compute; reflexivity|]); destruct H. Qed.
Print Assumptions c83_variables_refuted.

(** *** The total precipitation *)
(** The total is an average of the totals of the units. *)
Theorem c83_total f areas units lo hi : look (fo_2d f) VP = Ok units -> List.length units = List.length areas -> (forall a, In a areas -> 0 <= a) -> 0 < Rsum (fun a => a) areas ->
  (forall s, In s units -> lo <= Rsum (fun x => x) s <= hi) -> exists t, total_precipitation f areas = Ok t /\ lo <= t <= hi.
Proof.
  intros L Hl Ha S H. unfold total_precipitation. rewrite L. cbn [bind]. eexists. split; [reflexivity|]. set (A := Rsum (fun a => a) areas) in *.
  assert (K : forall us ars, List.length us = List.length ars -> (forall a, In a ars -> 0 <= a) -> (forall s, In s us -> lo <= Rsum (fun x => x) s <= hi) ->
    lo * (Rsum (fun a => a) ars / A) <= Rsum (fun q => Rsum (fun x => x) (fst q) * snd q / A) (combine us ars) <= hi * (Rsum (fun a => a) ars / A)).
  { induction us as [|u us IH]; intros [|a ars] E Pa Ps; try discriminate; cbn [combine Rsum].
    - split; apply Req_le; field; lra.
    - cbn [fst snd]. destruct (IH ars) as (I1 & I2); [injection E as E; exact E|intros x I; apply Pa; right; exact I|intros x I; apply Ps; right; exact I|].
      destruct (Ps u (or_introl eq_refl)) as (P1 & P2). pose proof (Pa a (or_introl eq_refl)) as Pa0. set (T := Rsum (fun x => x) u) in *.
      assert (0 <= a / A) by (apply Rmult_le_pos; [exact Pa0|left; apply Rinv_0_lt_compat; exact S]).
      replace (T * a / A) with (T * (a / A)) by (unfold Rdiv; ring). set (r := Rsum (fun a => a) ars) in *. replace ((a + r) / A) with (a / A + r / A) by (unfold Rdiv; ring). split; nra. }
  destruct (K units areas Hl Ha H) as (K1 & K2). fold A in K1, K2. replace (A / A) with 1 in * by (field; lra). lra.
Qed.
Print Assumptions c83_total.
Example c83_total_case : exists f', apply_operations no_pet None true (case_f [sp "p" (Given (AFloat (1/10)))]) = Ok f' /\ exists t, total_precipitation f' [3; 1] = Ok t /\ t = (30 * 3 + 60 * 1) / 4.
Proof. eexists. split; [fgo; reflexivity|]. eexists. split; [fgo; reflexivity|]. lra. Qed.
