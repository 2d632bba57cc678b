(** The forcing of the Python interface: corrections of station data, spatialisation to the hydro units, PET, and their re-application.
    No proofs here.  FO = python/src/hydrobricks/forcing.py, MO = python/src/hydrobricks/models/model.py, TR = python/src/hydrobricks/trainer.py.
    [Throw] stands for every Python exception.  Not modelled: gridded data (FO:1159-1266), dates beyond the month of each time step, several
    loadings of station data, broadcasting of a list of numbers over the time axis ([Throw] here). *)
From Coq Require Import String.
From Verif Require Import Base ParamSet.
Open Scope string_scope.
Open Scope R_scope.

(** FO:94-109. *)
Inductive variable := VP | VT | VTmin | VTmax | VTdew | VPet | VRh | VRhMin | VRhMax | VRnet | VRsolar | VSd | VWind | VPressure.
Definition var_num (v : variable) : nat :=
  match v with VP => 0 | VT => 1 | VTmin => 2 | VTmax => 3 | VTdew => 4 | VPet => 5 | VRh => 6 | VRhMin => 7 | VRhMax => 8 | VRnet => 9 | VRsolar => 10 | VSd => 11 | VWind => 12 | VPressure => 13 end%nat.
Definition var_eqb (a b : variable) : bool := Nat.eqb (var_num a) (var_num b).
(** FO:197-249 [get_variable_enum]: the members of the enumeration, then the aliases. *)
Definition variable_names : list (string * variable) :=
  [("P", VP); ("T", VT); ("T_MIN", VTmin); ("T_MAX", VTmax); ("T_DEW_POINT", VTdew); ("PET", VPet); ("RH", VRh); ("RH_MIN", VRhMin); ("RH_MAX", VRhMax);
   ("R_NET", VRnet); ("R_SOLAR", VRsolar); ("SD", VSd); ("WIND", VWind); ("PRESSURE", VPressure);
   ("precipitation", VP); ("precip", VP); ("p", VP); ("temperature", VT); ("temp", VT); ("t", VT); ("temperature_min", VTmin); ("min_temperature", VTmin);
   ("t_min", VTmin); ("tmin", VTmin); ("temperature_max", VTmax); ("max_temperature", VTmax); ("t_max", VTmax); ("tmax", VTmax); ("pet", VPet);
   ("relative_humidity", VRh); ("rh", VRh); ("relative_humidity_min", VRhMin); ("min_relative_humidity", VRhMin); ("rh_min", VRhMin); ("rhmin", VRhMin);
   ("relative_humidity_max", VRhMax); ("max_relative_humidity", VRhMax); ("rh_max", VRhMax); ("rhmax", VRhMax); ("net_radiation", VRnet); ("r_net", VRnet);
   ("r_n", VRnet); ("rn", VRnet); ("solar_radiation", VRsolar); ("r_solar", VRsolar); ("r_s", VRsolar); ("rs", VRsolar); ("sunshine_duration", VSd); ("sd", VSd);
   ("wind_speed", VWind); ("wind", VWind); ("pressure", VPressure)].
Definition get_variable (name : string) : outcome variable :=
  match find (fun q => String.eqb (fst q) name) variable_names with Some q => Ok (snd q) | None => Throw end.
(** FO:251-293 [_can_be_negative]. *)
Definition can_be_negative (v : variable) : bool := match v with VT | VTmin | VTmax | VTdew => true | _ => false end.

(** The value of an option: None, a float, an int, a list of numbers; or 'param:name'. *)
Inductive arg := ANone | AFloat (x : R) | AInt (n : Z) | AList (l : list R).
Inductive opt := Given (a : arg) | Param (name : string).
(** The stored operations (FO:391-401, 467-482, 631-642); options that were not given are [Given ANone]. *)
Record options := mkO { o_ref : opt; o_gradient : opt; o_gradient_1 : opt; o_gradient_2 : opt; o_threshold : opt }.
Inductive operation :=
  | Correct (variable method : string) (factor : opt)
  | Spatialize (variable method : string) (o : options)
  | ComputePet (method : string) (use : list string) (kw : list (string * opt)).
(** The parameter object: what [get] answers, and [allow_changing]. *)
Record pars := mkPP { pp_get : string -> outcome arg; pp_changing : list string }.
Definition of_set (s : pset) (changing : list string) : pars :=
  mkPP (fun n => bind (get s n) (fun v => Ok (match v with None => ANone | Some (PNum x) => AFloat x | Some (PList l) => AList l end))) changing.

(** The hydro units: elevation and latitude.  [fo_months]: the month of each time step of the station data. [fo_1d], [fo_2d]: the data by variable
    (data_name and data), in two dimensions the series of each unit. *)
Record place := mkPl { pl_elevation : R; pl_latitude : R }.
Record forcing := mkFo { fo_units : list place; fo_months : list nat; fo_1d : list (variable * list R); fo_2d : list (variable * list (list R));
  fo_ops : list operation; fo_init : bool }.
Definition look {A} (l : list (variable * A)) (v : variable) : outcome A :=
  match find (fun q => var_eqb (fst q) v) l with Some q => Ok (snd q) | None => Throw end.
Fixpoint store {A} (l : list (variable * A)) (v : variable) (x : A) : list (variable * A) :=
  match l with [] => [(v, x)] | (w, y) :: r => if var_eqb w v then (w, x) :: r else (w, y) :: store r v x end.
Definition with_1d (f : forcing) (l : list (variable * list R)) : forcing := mkFo (fo_units f) (fo_months f) l (fo_2d f) (fo_ops f) (fo_init f).
Definition with_2d (f : forcing) (l : list (variable * list (list R))) : forcing := mkFo (fo_units f) (fo_months f) (fo_1d f) l (fo_ops f) (fo_init f).
(** Numbers in numpy arithmetic with an array of one element. *)
Definition number (a : arg) : outcome R := match a with AFloat x => Ok x | AInt n => Ok (IZR n) | AList [x] => Ok x | _ => Throw end.

(** FO:928-974 [_apply_prior_correction]. *)
Definition prior_correction (f : forcing) (name method : string) (factor : arg) : outcome forcing :=
  bind (get_variable name) (fun v => bind (look (fo_1d f) v) (fun data => bind (number factor) (fun c =>
  if String.eqb method "multiplicative" then Ok (with_1d f (store (fo_1d f) v (map (fun x => x * c) data)))
  else if String.eqb method "additive" then Ok (with_1d f (store (fo_1d f) v (map (fun x => x + c) data)))
  else Throw))).

(** FO:1013-1025. *)
Definition default_method (v : variable) (method : string) : outcome string :=
  if String.eqb method "default" then match v with VT => Ok "additive_elevation_gradient" | VP => Ok "multiplicative_elevation_gradient" | VPet => Ok "constant" | _ => Throw end
  else Ok method.
(** FO:1069-1075, 1099-1104: unit_values[month, i_unit] = f(data_raw[month]). *)
Fixpoint set_month (m : nat) (f : R -> R) (months : list nat) (data acc : list R) : list R :=
  match months, data, acc with mo :: months', x :: data', a :: acc' => (if Nat.eqb mo m then f x else a) :: set_month m f months' data' acc' | _, _, _ => [] end.
Definition monthly (f : nat -> R -> R) (months : list nat) (data : list R) : list R :=
  fold_left (fun acc m => set_month (m + 1) (f m) months data acc) (seq 0 12) (map (fun _ => 0) months).
(** FO:1055-1116: a gradient that is a float, a list of one or a list of twelve numbers. *)
Definition with_gradient (law : R -> R -> R) (g : arg) (months : list nat) (data : list R) : outcome (list R) :=
  match g with
  | AFloat x => Ok (map (law x) data)
  | AList [x] => Ok (map (law x) data)
  | AList l => if Nat.eqb (List.length l) 12 then Ok (monthly (fun m => law (nth m l 0)) months data) else Throw
  | _ => Throw
  end.
(** FO:1044-1143: the series of one unit. *)
Definition unit_series (method : string) (ref g g2 threshold : arg) (months : list nat) (data : list R) (z : R) : outcome (list R) :=
  if String.eqb method "constant" then Ok data
  else if String.eqb method "additive_elevation_gradient" then
    match ref with ANone => Throw | _ => bind (number ref) (fun z0 => with_gradient (fun a x => x + a * (z - z0) / 100) g months data) end
  else if String.eqb method "multiplicative_elevation_gradient" then
    match ref with ANone => Throw | _ => bind (number ref) (fun z0 => with_gradient (fun a x => x * (1 + a * (z - z0) / 100)) g months data) end
  else if String.eqb method "multiplicative_elevation_threshold_gradients" then
    bind (number threshold) (fun h =>
    if Rltb z h then bind (number g) (fun a => bind (number ref) (fun z0 => Ok (map (fun x => x * (1 + a * (z - z0) / 100)) data)))
    else bind (number ref) (fun z0 =>
         if Rltb h z0 then bind (number g2) (fun b => Ok (map (fun x => x * (1 + b * (z - z0) / 100)) data))
         else bind (number g) (fun a => bind (number g2) (fun b =>
              Ok (map (fun x => x * (1 + a * (h - z0) / 100) * (1 + b * (z - h) / 100)) data)))))
  else Throw.
Fixpoint all_units {A} (f : place -> outcome A) (l : list place) : outcome (list A) :=
  match l with [] => Ok [] | p :: r => bind (f p) (fun x => bind (all_units f r) (fun q => Ok (x :: q))) end.
(** FO:1145-1147. *)
Definition clip (v : variable) (l : list R) : list R := if can_be_negative v then l else map (fun x => if Rltb x 0 then 0 else x) l.
(** FO:976-1157 [_apply_spatialization_from_station_data], the options resolved.  numpy refuses series that are not as long as the time axis. *)
Definition spatialize (f : forcing) (name method : string) (ref g g1 g2 threshold : arg) : outcome forcing :=
  bind (get_variable name) (fun v => bind (look (fo_1d f) v) (fun data => bind (default_method v method) (fun method =>
  let g := match g with ANone => g1 | _ => g end in
  if match g with AList l => negb (Nat.eqb (List.length l) 1) && negb (Nat.eqb (List.length l) 12) | _ => false end then Throw
  else if negb (Nat.eqb (List.length data) (List.length (fo_months f))) then Throw
  else bind (all_units (fun p => bind (unit_series method ref g g2 threshold (fo_months f) data (pl_elevation p)) (fun s => Ok (clip v s))) (fo_units f)) (fun values =>
       Ok (with_2d f (store (fo_2d f) v values)))))).

(** FO:1268-1410 [_apply_pet_computation]; [pet] is the function of pyet for one unit.  The arguments it gets: latitude, elevation, series. *)
Record pet_args := mkPA { pa_lat : option R; pa_elevation : option R; pa_series : list (variable * list R) }.
Definition TO_RAD : R := PI / 180.
Fixpoint map_out {A B} (f : A -> outcome B) (l : list A) : outcome (list B) :=
  match l with [] => Ok [] | x :: r => bind (f x) (fun y => bind (map_out f r) (fun q => Ok (y :: q))) end.
Definition kw_look (kw : list (string * arg)) (k : string) : option arg := option_map snd (find (fun q => String.eqb (fst q) k) kw).
Definition in_use (use : list string) (k : string) : bool := existsb (String.eqb k) use.
Fixpoint all_indexed {A} (f : nat -> place -> outcome A) (i : nat) (l : list place) : outcome (list A) :=
  match l with [] => Ok [] | p :: r => bind (f i p) (fun x => bind (all_indexed f (S i) r) (fun q => Ok (x :: q))) end.
Section Pet.
Variable pet : string -> pet_args -> outcome (list R).
Definition compute_pet (f : forcing) (method : string) (use : list string) (kw : list (string * arg)) : outcome forcing :=
  bind (if in_use use "latitude" || in_use use "lat"
        then match kw_look kw "latitude" with
             | Some a => bind (number a) (fun x => Ok (fun _ : place => Some (x * TO_RAD)))
             | None => match kw_look kw "lat" with Some a => bind (number a) (fun x => Ok (fun _ => Some (x * TO_RAD))) | None => Ok (fun p => Some (pl_latitude p * TO_RAD)) end
             end
        else Ok (fun _ => None)) (fun lat =>
  bind (map_out get_variable (filter (fun u => negb (in_use ["latitude"; "lat"; "elevation"] u)) use)) (fun vars =>
  bind (all_indexed (fun i p =>
          bind (map_out (fun v => bind (look (fo_2d f) v) (fun units => Ok (v, nth i units []))) vars) (fun series =>
          pet method (mkPA (lat p) (if in_use use "elevation" then Some (pl_elevation p) else None) series))) 0 (fo_units f)) (fun values =>
  Ok (with_2d f (store (fo_2d f) VPet values))))).

(** FO:895-926: an option, and whether it refers to a parameter that may change. *)
Definition resolve (ps : option pars) (o : opt) : outcome (arg * bool) :=
  match o with
  | Given a => Ok (a, false)
  | Param n => match ps with None => Throw | Some p => bind (pp_get p n) (fun a => Ok (a, existsb (String.eqb n) (pp_changing p))) end
  end.
Definition resolve_options (ps : option pars) (o : options) : outcome (list (arg * bool)) := map_out (resolve ps) [o_ref o; o_gradient o; o_gradient_1 o; o_gradient_2 o; o_threshold o].
Definition any_changing (l : list (arg * bool)) : bool := existsb snd l.
Definition nth_arg (l : list (arg * bool)) (i : nat) : arg := fst (nth i l (ANone, false)).
(** FO:848-926: one operation. *)
Definition apply_one (ps : option pars) (to_all : bool) (f : forcing) (op : operation) : outcome forcing :=
  match op with
  | Correct v m c => bind (resolve ps c) (fun q => if to_all || snd q then prior_correction f v m (fst q) else Ok f)
  | Spatialize v m o => bind (resolve_options ps o) (fun q =>
      if to_all || any_changing q then spatialize f v m (nth_arg q 0) (nth_arg q 1) (nth_arg q 2) (nth_arg q 3) (nth_arg q 4) else Ok f)
  | ComputePet m use kw => bind (map_out (fun q => bind (resolve ps (snd q)) (fun a => Ok (fst q, a))) kw) (fun kw' =>
      if to_all || existsb (fun q => snd (snd q)) kw' then compute_pet f m use (map (fun q => (fst q, fst (snd q))) kw') else Ok f)
  end.
(** FO:680-689: the types of operations in a fixed order. *)
Definition op_type (op : operation) : nat := match op with Correct _ _ _ => 0 | Spatialize _ _ _ => 1 | ComputePet _ _ _ => 3 end%nat.
Fixpoint apply_list (ps : option pars) (to_all : bool) (f : forcing) (l : list operation) : outcome forcing :=
  match l with [] => Ok f | op :: r => bind (apply_one ps to_all f op) (fun f' => apply_list ps to_all f' r) end.
Definition of_type (ty : nat) (l : list operation) : list operation := filter (fun op => Nat.eqb (op_type op) ty) l.
Fixpoint apply_types (ps : option pars) (to_all : bool) (f : forcing) (types : list nat) : outcome forcing :=
  match types with [] => Ok f | ty :: r => bind (apply_list ps to_all f (of_type ty (fo_ops f))) (fun f' => apply_types ps to_all f' r) end.
(** FO:644-692 [apply_operations]. *)
Definition initialized (f : forcing) : forcing := mkFo (fo_units f) (fo_months f) (fo_1d f) (fo_2d f) (fo_ops f) true.
Definition apply_operations (ps : option pars) (to_all : bool) (f : forcing) : outcome forcing := bind (apply_types ps to_all f [0; 1; 2; 3]%nat) (fun f' => Ok (initialized f')).
(** MO:300-308: what a run does with the forcing before the data are passed to the model. *)
Definition run_forcing (p : pars) (f : forcing) : outcome forcing := if fo_init f then Ok f else apply_operations (Some p) true f.
(** TR:887-889, 1011-1014: the calibration applies all operations once, then for each sample those with changing parameters, and runs. *)
Definition sample_forcing (p : pars) (f : forcing) : outcome forcing := bind (apply_operations (Some p) false f) (run_forcing p).
Fixpoint samples_forcing (l : list pars) (f : forcing) : outcome forcing :=
  match l with [] => Ok f | p :: r => bind (sample_forcing p f) (samples_forcing r) end.
Definition calibrate_forcing (p0 : pars) (l : list pars) (f : forcing) : outcome forcing := bind (apply_operations (Some p0) true f) (samples_forcing l).
End Pet.

(** FO:830-846 [get_total_precipitation]; [areas] of the units in their order. *)
Definition total_precipitation (f : forcing) (areas : list R) : outcome R :=
  bind (look (fo_2d f) VP) (fun units => Ok (Rsum (fun q => Rsum (fun x => x) (fst q) * snd q / Rsum (fun a => a) areas) (combine units areas))).
(** MO:370-382: the name of a variable passed to the model, str() of a lower-case enumeration. *)
Definition variable_text (v : variable) : string :=
  match v with VP => "p" | VT => "t" | VTmin => "t_min" | VTmax => "t_max" | VTdew => "t_dew_point" | VPet => "pet" | VRh => "rh" | VRhMin => "rh_min" | VRhMax => "rh_max"
             | VRnet => "r_net" | VRsolar => "r_solar" | VSd => "sd" | VWind => "wind" | VPressure => "pressure" end.
