(** Model of the lateral transport of snow between hydro units.
    Sources: core/src/processes/ProcessLateral.cpp, ProcessLateralSnowSlide.cpp,
    ProcessLateralSnowRedistributionFrey.cpp, core/src/base/ModelBuilder.cpp:479-512. *)
From Verif Require Export Base Container Direct.
Open Scope R_scope.

(** GlobVars.h:9-10. *)
Definition snowDensity : R := 250.
Definition waterDensity : R := 1000.

(** One output of a lateral process: one snowpack of one connected unit (ModelBuilder.cpp:483-505).  [lo_weight] is the share of
    the connection, [lo_area] the area of the receiving unit, [lo_fraction] the fraction of its cover carrying the snowpack,
    [lo_swe] the snow committed there; [lo_unit] and [lo_cover] are the weights of the flux (Flux.h:186-188) before the call. *)
Record lat_out := mkLO { lo_weight : R; lo_area : R; lo_fraction : R; lo_swe : R; lo_unit : R; lo_cover : R }.
(** Origin: area of its unit and fraction of its cover (ProcessLateral.cpp:48-55). *)
Record lat_origin := mkOr { or_area : R; or_fraction : R }.

(** ProcessLateral.cpp:68-77 [ComputeFractionAreas]. *)
Definition fraction_areas (o : lat_origin) (t : lat_out) : R :=
  (or_area o * or_fraction o) / (lo_area t * lo_fraction t).

(** ProcessLateralSnowSlide.cpp:120-134, ProcessLateralSnowRedistributionFrey.cpp:215-229 [AvoidUnrealisticAccumulation];
    [limit] is the maximum snow depth, [factor] converts water equivalent to depth. *)
Definition avoid_accumulation (limit factor rate : R) (t : lat_out) : R :=
  if Rltb 0 limit && Rltb (15 / 10 * limit / factor) (lo_swe t) then 0 else rate.

(** ProcessLateralSnowSlide.cpp:98-115, ProcessLateralSnowRedistributionFrey.cpp:192-210: the rate of one output when [amount] is
    to be redistributed, and the weight of its flux afterwards. *)
Definition lat_rate (limit factor amount : R) (t : lat_out) : R :=
  if NearlyZero (lo_fraction t) PRECISION then 0
  else avoid_accumulation limit factor (amount * lo_weight t * lo_fraction t) t.
Definition lat_flux (o : lat_origin) (t : lat_out) : lat_out :=
  if NearlyZero (lo_fraction t) PRECISION then t
  else mkLO (lo_weight t) (lo_area t) (lo_fraction t) (lo_swe t) (fraction_areas o t) (lo_cover t).

(** Rates and fluxes: nothing is redistributed, and no flux is touched, when the amount is not positive. *)
Definition lat_rates (limit factor amount : R) (l : list lat_out) : list R :=
  if Rleb amount 0 then map (fun _ => 0) l else map (lat_rate limit factor amount) l.
Definition lat_fluxes (o : lat_origin) (amount : R) (l : list lat_out) : list lat_out :=
  if Rleb amount 0 then l else map (lat_flux o) l.

(** Flux.h:133-136: weight of a flux. *)
Definition lat_weight (t : lat_out) : R := lo_unit t * lo_cover t.

(** ProcessLateralSnowSlide.cpp:53-96: the water equivalent to redistribute. *)
Record slide_param := mkSP { sp_coeff : R; sp_exp : R; sp_minslope : R; sp_maxslope : R; sp_minhold : R; sp_maxdepth : R }.
Definition slide_threshold (P : slide_param) (slope : R) : R :=
  let s := Rmax slope (sp_minslope P) in
  let t0 := sp_coeff P * Rpower s (sp_exp P) * 1000 in
  let t1 := if Rltb (sp_maxslope P) slope then sp_minhold P else t0 in
  let t2 := Rmax t1 (sp_minhold P) in
  if Rltb 0 (sp_maxdepth P) then Rmin t2 (sp_maxdepth P) else t2.
Definition slide_factor : R := waterDensity / snowDensity.
Definition slide_amount (P : slide_param) (slope swe : R) : R :=
  let depth := swe * slide_factor in
  let t := slide_threshold P slope in
  let excess := if Rltb t depth then (depth - t) / slide_factor else 0 in
  if Rltb 1000 excess then 1000 else excess.

(** ProcessLateralSnowRedistributionFrey.cpp:142-189, for the snow density [rho] of [GetSnowDensity]. *)
Record frey_param := mkFP { fp_correction : R; fp_hold : R; fp_rhomax : R; fp_maxdepth : R }.
Definition frey_factor (rho : R) : R := waterDensity / rho.
Definition frey_coeff (P : frey_param) (rho slope : R) : R :=
  let s := Rmin (Rmax slope 0) 90 in
  if Rltb rho (fp_rhomax P) then (fp_rhomax P - rho) / fp_rhomax P * exp (- rho / fp_rhomax P) * (s / 90) else 0.
Definition frey_amount (P : frey_param) (rho slope swe : R) : R :=
  if Rleb swe 0 then 0 else
  let excess := Rmax (swe - fp_hold P / frey_factor rho) 0 in
  let f := frey_coeff P rho slope in
  if Rleb excess 0 then 0 else
  if Rleb f 0 then 0 else
  let r := excess * f * fp_correction P in
  if Rltb 1000 r then 1000 else r.

(** ProcessLateralSnowRedistributionFrey.cpp:99-107 [ComputeFreshSnowDensity]. *)
Record frey_density := mkFD { fd_min : R; fd_freshmax : R; fd_max : R; fd_settling : R; fd_rscale : R; fd_tscale : R }.
Definition fresh_density (D : frey_density) (t : R) : R :=
  let x := t / fd_rscale D + fd_tscale D in
  let sig := x / sqrt (1 + x * x) in
  (fd_freshmax D - fd_min D) * (sig + 1) * (5 / 10) + fd_min D.
(** ProcessLateralSnowRedistributionFrey.cpp:109-140 [Finalize]: state (density, snow of the previous step). *)
Definition update_density (D : frey_density) (dt t swe : R) (st : R * R) : R * R :=
  let '(density, prev) := st in
  let settle := Rmin (Rmax (fd_settling D * dt) 0) 1 in
  let settled := density + (fd_max D - density) * settle in
  let fresh := Rmax (swe - prev) 0 in
  let existing := Rmax (Rmin prev swe) 0 in
  let density' :=
    if Rleb swe 0 then fresh_density D t
    else if Rltb 0 fresh && Rltb 0 (existing + fresh) then
      (existing * settled + fresh * fresh_density D t) / (existing + fresh)
    else settled in
  (density', swe).
(** ProcessLateralSnowRedistributionFrey.cpp:93-97 [Reset]. *)
Definition density_reset : R * R := (snowDensity, 0).
(** ... over successive steps: (time step, temperature, committed snow). *)
Fixpoint run_density (D : frey_density) (l : list (R * R * R)) (st : R * R) : R * R :=
  match l with
  | [] => st
  | (dt, t, swe) :: l' => run_density D l' (update_density D dt t swe st)
  end.
