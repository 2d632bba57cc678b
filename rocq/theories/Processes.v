(** Process and splitter formulas (core/src/processes, core/src/fluxes).  No proofs here.
    Parameters are C++ floats behind pointers; here they are the reals they point to. *)
From Verif Require Import Base.

(** [std::pow] on the arguments the processes use: a non-negative base.  A result that is not a finite
    number (zero to a negative power, negative base) is [UB]. *)
Definition cpow (x e : R) : outcome R :=
  if Rltb 0 x then Ok (Rpower x e)
  else if Reqb x 0 then (if Rltb 0 e then Ok 0 else if Reqb e 0 then Ok 1 else UB)
  else UB.

(** ** Containers as seen by a process *)
(** core/src/containers/WaterContainer.h:99-102 [GetMaximumCapacity] dereferences the capacity pointer;
    WaterContainer.cpp:245-248 [GetTargetFillingRatio]. *)
Definition filling_ratio (cap : option R) (content : R) : outcome R :=
  match cap with
  | None => UB
  | Some c => if Reqb c 0 then UB else Ok (Rmax 0 (Rmin 1 (content / c)))
  end.
(** WaterContainer.cpp:237-239 [ContentAccessible]. *)
Definition accessible (content : R) : bool := Rltb 0 content.
(** containers/IceContainer.cpp:22-32: ice under snow is not accessible when melt is blocked by snow.
    [snow] is [None] when no snowpack is attached, else whether that snowpack has snow. *)
Definition ice_accessible (blocked : bool) (snow : option bool) (content : R) : outcome bool :=
  if blocked then match snow with
                  | None => Throw
                  | Some true => Ok false
                  | Some false => Ok (accessible content)
                  end
  else Ok (accessible content).

(** ** Splitters.  A result is (rain, snow) handed to the two output fluxes. *)
(** core/src/fluxes/SplitterSnowRainLinear.cpp:49-64 [Compute]. *)
Definition split_linear (start stop rcf scf precip temp : R) : outcome (R * R) :=
  if Rleb temp start then Ok (0, precip * scf)
  else if Rleb stop temp then Ok (precip * rcf, 0)
  else let f := (temp - start) / (stop - start) in
       Ok (precip * f * rcf, precip * (1 - f) * scf).
(** core/src/fluxes/SplitterSnowRainThreshold.cpp:45-54 [Compute]. *)
Definition split_threshold (threshold rcf scf precip temp : R) : outcome (R * R) :=
  if Rleb temp threshold then Ok (0, precip * scf) else Ok (precip * rcf, 0).
(** core/src/fluxes/SplitterSnowRainCemaNeige.cpp:80-117 [Compute]; below 1500 m the minimum and maximum
    temperatures are read through pointers ([None] = not attached). *)
Definition cemaneige_solid_high (t : R) : R :=
  if Rleb t (-1) then 1 else if Rleb 3 t then 0 else (3 - t) / 4.
Definition cemaneige_solid_low (tmin tmax0 : R) : R :=
  let tmax := if Rltb tmax0 tmin then tmin else tmax0 in
  if Rleb tmax 0 then 1 else if Rleb 0 tmin then 0 else 1 - tmax / (tmax - tmin).
Definition cemaneige_solid (elevation : R) (t tmin tmax : option R) : outcome R :=
  if Rleb 1500 elevation
  then match t with Some t => Ok (cemaneige_solid_high t) | None => UB end
  else match tmin, tmax with Some a, Some b => Ok (cemaneige_solid_low a b) | _, _ => UB end.
Definition split_cemaneige (elevation rcf scf precip : R) (t tmin tmax : option R) : outcome (R * R) :=
  bind (cemaneige_solid elevation t tmin tmax) (fun fs =>
  Ok (precip * (1 - fs) * rcf, precip * fs * scf)).
(** core/src/fluxes/SplitterRain.cpp:37-39 [Compute]. *)
Definition split_rain (rcf precip : R) : outcome (R * R) := Ok (precip * rcf, 0).

(** ** GR4J production store *)
(** std::tanh; Coq's [tanh] is sinh/cosh. *)
Definition tanh_capped (x : R) : R := tanh (Rmin x 13).
(** core/src/processes/helpers/GR4JFormulas.h:26-33. *)
Definition gr4j_infiltration (S Pn X1 : R) : R :=
  if Rleb Pn 0 || Rleb X1 0 then 0
  else let Sr := S / X1 in let tws := tanh_capped (Pn / X1) in
       X1 * (1 - Sr * Sr) * tws / (1 + Sr * tws).
(** GR4JFormulas.h:39-46. *)
Definition gr4j_evaporation (S En X1 : R) : R :=
  if Rleb En 0 || Rleb X1 0 then 0
  else let Sr := S / X1 in let tws := tanh_capped (En / X1) in
       S * (2 - Sr) * tws / (1 + (1 - Sr) * tws).
(** GR4JFormulas.h:51-57; the base of the power is at least one, so [Rpower] is [std::pow]. *)
Definition gr4j_percolation (S X1 : R) : R :=
  if Rleb X1 0 then 0
  else let ratio := S / X1 in
       S * (1 - Rpower (1 + ratio * ratio * ratio * ratio / (2562890625 / 100000000)) (- (1/4))).
(** core/src/processes/ProcessProductionGR4J.cpp:34-63 [GetRates]: [content] is the level before the step,
    [pn] the static (instantaneous) inflow of the step, [en] the published net demand. *)
Definition gr4j_production_rate (X1 content pn en : R) : R :=
  if Rleb X1 0 then 0
  else let Ps := gr4j_infiltration content pn X1 in
       let S1 := content + Ps in
       let Es := gr4j_evaporation S1 en X1 in
       let S2 := S1 - Es in
       (pn - Ps) + gr4j_percolation S2 X1.
(** core/src/processes/ProcessETGR4J.cpp:34-55 [GetRates]. *)
Definition gr4j_et_rate (X1 content pn en : R) : R :=
  if Rleb en 0 then 0 else if Rleb X1 0 then 0
  else gr4j_evaporation (content + gr4j_infiltration content pn X1) en X1.
(** core/src/processes/ProcessInterceptionGR4J.cpp:34-39 [GetRates]: intercepted water, and the net demand
    published for the other processes reading the same forcing. *)
Definition gr4j_interception (P E : R) : R * R := (Rmin P E, Rmax 0 (E - P)).
(** core/src/processes/ProcessPercolationGR4J.cpp:14-21, ProcessInfiltrationGR4J.cpp:11-20. *)
Definition gr4j_percolation_rate (X1 content : R) : R :=
  if Rleb X1 0 then 0 else gr4j_percolation content X1.
Definition gr4j_infiltration_rate (X1 pn target : R) : R :=
  if Rleb pn 0 || Rleb X1 0 then 0 else gr4j_infiltration target pn X1.

(** ** GR6J exponential store: core/src/processes/helpers/GR6JFormulas.h:23-39. *)
Definition gr6j_exponential_outflow (Rexp X6 : R) : R :=
  if Rleb X6 0 then Rmax 0 Rexp
  else let ar := Rmax (-33) (Rmin 33 (Rexp / X6)) in
       if Rltb 7 ar then Rexp + X6 / exp ar
       else if Rltb ar (-7) then X6 * exp ar
       else X6 * ln (exp ar + 1).

(** ** Evapotranspiration *)
(** core/src/processes/ProcessETSocont.cpp:35-38 (exponent 0.5, constructor line 9). *)
Definition et_socont (cap : option R) (content pet : R) : outcome R :=
  bind (filling_ratio cap content) (fun r => bind (cpow r (1/2)) (fun p => Ok (pet * p))).
(** core/src/processes/ProcessETPowerLaw.cpp:47-50. *)
Definition et_power (cap : option R) (content exponent pet : R) : outcome R :=
  bind (filling_ratio cap content) (fun r => bind (cpow r exponent) (fun p => Ok (pet * p))).
(** core/src/processes/ProcessETLinear.cpp:36-39. *)
Definition et_linear (cap : option R) (content pet : R) : outcome R :=
  bind (filling_ratio cap content) (fun r => Ok (pet * Rmin 1 r)).
(** core/src/processes/ProcessETExponential.cpp:47-51. *)
Definition et_exponential (cap : option R) (content alpha pet : R) : outcome R :=
  bind (filling_ratio cap content) (fun r => Ok (pet * (1 - exp (- alpha * r)))).
(** core/src/processes/ProcessETHBV.cpp:53-64. *)
Definition et_hbv (cap : option R) (content lp cf pet : R) : outcome R :=
  match cap with
  | None => UB
  | Some c => let threshold := lp * c in
      if Rleb threshold 0 then Ok (cf * pet)
      else Ok (cf * pet * Rmin 1 (content / threshold))
  end.
(** core/src/processes/ProcessETOpenWater.cpp:36-52; [dt] is [None] when no clock is attached. *)
Definition et_open_water (dt : option R) (content pet : R) : R :=
  match dt with
  | None => pet
  | Some d => if Rltb 0 d then Rmin pet (Rmax 0 (content / d)) else pet
  end.

(** ** Snow and ice *)
(** core/src/processes/ProcessMeltDegreeDay.cpp:49-60; ProcessMeltDegreeDayAspect.cpp:68-79 is the same
    with the factor of the unit's aspect class. *)
Definition melt_degree_day (acc : bool) (factor tmelt t : R) : R :=
  if acc then (if Rleb tmelt t then (t - tmelt) * factor else 0) else 0.
(** core/src/processes/ProcessMeltTemperatureIndex.cpp:62-74. *)
Definition melt_temperature_index (acc : bool) (factor radcoeff rad tmelt t : R) : R :=
  if acc then (if Rleb tmelt t then (t - tmelt) * (factor + radcoeff * rad) else 0) else 0.
(** core/src/processes/ProcessMeltCemaNeige.cpp:63-92: new cold content and melt rate. *)
Definition melt_cemaneige (ctg kf tmelt mean_snow swe : R) (cold t : R) : R * R :=
  if accessible swe then
    let cold' := Rmin 0 (ctg * cold + (1 - ctg) * (t - tmelt)) in
    if Rltb cold' 0 || Rleb t tmelt then (cold', 0)
    else let pot := kf * (t - tmelt) in
         let cn := 9/10 * mean_snow in
         let g := if Rltb 0 cn then Rmin 1 (swe / cn) else 1 in
         (cold', (9/10 * g + 1/10) * pot)
  else (cold, 0).
(** core/src/processes/ProcessRefreezeDegreeDay.cpp:66-83; [sibling] is the melt process of the brick:
    its degree-day factor and melting temperature. *)
Definition refreeze_degree_day (sibling : option (R * R)) (cfr t : R) : R :=
  match sibling with
  | None => 0
  | Some (ddf, tmelt) => if Rleb tmelt t then 0 else cfr * ddf * (tmelt - t)
  end.
(** core/src/processes/ProcessOutflowSnowHolding.cpp:38-60 (not a snowpack: no outflow). *)
Definition outflow_snow_holding (swe : option R) (dt : option R) (whc content : R) : R :=
  match swe with
  | None => 0
  | Some s => let excess := content - whc * s in
      if Rleb excess 0 then 0 else excess / match dt with Some d => d | None => 1 end
  end.
(** core/src/processes/ProcessTransformSnowToIceSwat.cpp:31-39 ([doy] from the clock). *)
Definition snow_to_ice_swat (north : bool) (coeff : R) (doy : Z) (content : R) : R :=
  let ref := if north then 81%Z else 264%Z in
  coeff * (1 + sin (2 * PI * IZR (doy - ref) / 365)) * content.

(** ** Infiltration, runoff, outflow, percolation *)
(** core/src/processes/ProcessInfiltrationSocont.cpp:17-23. *)
Definition infiltration_socont (cap : option R) (target content : R) : outcome R :=
  match cap with
  | None => UB
  | Some c => if Rleb c 0 then Ok 0
      else bind (filling_ratio cap target) (fun r => Ok (content * (1 - r * r)))
  end.
(** core/src/processes/ProcessInfiltrationHBV.cpp:33-43. *)
Definition infiltration_hbv (cap : option R) (target beta content : R) : outcome R :=
  match cap with
  | None => UB
  | Some c => if Rleb content 0 || Rleb c 0 then Ok 0
      else bind (filling_ratio cap target) (fun r =>
           bind (cpow (Rmax 0 (Rmin 1 r)) beta) (fun p => Ok (content * (1 - p))))
  end.
(** core/src/processes/ProcessRunoffHBV.cpp:35-42. *)
Definition runoff_hbv (k alpha uz : R) : outcome R :=
  if Rleb uz 0 then Ok 0 else bind (cpow uz (1 + alpha)) (fun p => Ok (k * p)).
(** core/src/processes/ProcessRunoffSocont.cpp:41-56 (exponent 5/3, constructor line 13). *)
Definition runoff_socont (beta slope area content : R) : outcome R :=
  bind (cpow slope (1/2)) (fun sq => bind (cpow (content * 2 / 1000) (5/3)) (fun hp =>
  if Reqb area 0 then UB
  else let q := beta * sq * hp / area in
       let dh := q * 2 * 86400 in
       Ok (Rmin (dh / 2 * 1000) content))).
(** core/src/processes/ProcessCapillaryHBV.cpp:69-96, one target: [weights] are the area fractions of the
    land covers feeding it. *)
Definition capillary_hbv (cap : option R) (target cflux : R) (weights : list R) : outcome R :=
  match cap with
  | None => UB
  | Some c => if Rleb c 0 then Ok 0
      else bind (filling_ratio cap target) (fun r =>
           let w := match weights with [] => 1 | _ => Rsum (fun x => x) weights end in
           Ok (cflux * w * (1 - Rmax 0 (Rmin 1 r))))
  end.
(** core/src/processes/ProcessOutflowLinear.cpp:19-21, ProcessOutflowDirect.cpp:42-44,
    ProcessPercolationConstant.cpp:23-25. *)
Definition outflow_linear (k content : R) : R := k * content.
Definition outflow_direct (content : R) : R := Rmax content 0.
(** core/src/processes/ProcessOutflowThreshold.cpp:31-43. *)
Definition outflow_threshold (dt : option R) (capacity content : R) : R :=
  let excess := content - capacity in
  if Rleb excess 0 then 0 else excess / match dt with Some d => d | None => 1 end.
(** core/src/processes/ProcessOutflowRest.cpp:13-41; [siblings] are the linked rates of the other
    processes of a solver brick. *)
Definition outflow_rest (solver : bool) (siblings : list R) (content : R) : R :=
  Rmax (if solver then content - Rsum (fun x => x) siblings else content) 0.
(** core/src/processes/ProcessSublimationConstant.cpp:30-36, ProcessSublimationPET.cpp:44-50. *)
Definition sublimation_constant (acc : bool) (rate : R) : R := if acc then rate else 0.
Definition sublimation_pet (acc : bool) (pet factor : R) : R := if acc then pet * factor else 0.
