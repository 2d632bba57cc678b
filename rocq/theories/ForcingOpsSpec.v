(** Vocabulary of the theorems about the preparation of the forcing (C83, C84). *)
From Coq Require Import String.
From Verif Require Export Base ParamSet ForcingOps.
Open Scope string_scope.
Open Scope R_scope.

(** The value of the station, and of unit [i], at time step [k]. *)
Definition station (f : forcing) (v : variable) (k : nat) : option R := match look (fo_1d f) v with Ok l => nth_error l k | _ => None end.
Definition cell (f : forcing) (v : variable) (i k : nat) : option R :=
  match look (fo_2d f) v with Ok units => match nth_error units i with Some l => nth_error l k | None => None end | _ => None end.
(** The gradient that applies in month [m] (1 - 12), per 100 m. *)
Definition gradient_in (g : arg) (m : nat) : option R :=
  match g with AFloat x => Some x | AList [x] => Some x | AList l => if Nat.eqb (List.length l) 12 then nth_error l (m - 1) else None | _ => None end.
(** How the factor changes with the elevation when the gradient is [a] below and [b] above [h], from 1 at the elevation [z0] of the station. *)
Definition threshold_factor (z0 a b h z : R) : R :=
  if Rltb z h then 1 + a * (z - z0) / 100
  else if Rltb h z0 then 1 + b * (z - z0) / 100
  else (1 + a * (h - z0) / 100) * (1 + b * (z - h) / 100).
(** The methods: the value [y] at elevation [z], in a month [m], for the value [x] of the station. *)
Inductive law (ref g g2 threshold : arg) (m : nat) (z x : R) : string -> R -> Prop :=
  | law_constant : law ref g g2 threshold m z x "constant" x
  | law_additive z0 a : number ref = Ok z0 -> gradient_in g m = Some a -> law ref g g2 threshold m z x "additive_elevation_gradient" (x + a * (z - z0) / 100)
  | law_multiplicative z0 a : number ref = Ok z0 -> gradient_in g m = Some a -> law ref g g2 threshold m z x "multiplicative_elevation_gradient" (x * (1 + a * (z - z0) / 100))
  | law_threshold z0 a b h : number ref = Ok z0 -> number threshold = Ok h -> (z < h \/ z0 <= h -> number g = Ok a) -> (h <= z -> number g2 = Ok b) ->
      law ref g g2 threshold m z x "multiplicative_elevation_threshold_gradients" (x * threshold_factor z0 a b h z).
(** Variables that are not temperatures are never negative. *)
Definition physical (v : variable) (y : R) : R := match v with VT | VTmin | VTmax | VTdew => y | _ => Rmax 0 y end.
(** The method used for a variable by default. *)
Definition method_of (v : variable) (method : string) : option string :=
  if String.eqb method "default"
  then match v with VT => Some "additive_elevation_gradient" | VP => Some "multiplicative_elevation_gradient" | VPet => Some "constant" | _ => None end
  else Some method.

(** The options of an operation that come from parameters. *)
Definition opt_params (o : opt) : list string := match o with Given _ => [] | Param n => [n] end.
Definition op_params (op : operation) : list string :=
  match op with
  | Correct _ _ c => opt_params c
  | Spatialize _ _ o => opt_params (o_ref o) ++ opt_params (o_gradient o) ++ opt_params (o_gradient_1 o) ++ opt_params (o_gradient_2 o) ++ opt_params (o_threshold o)
  | ComputePet _ _ kw => flat_map (fun q => opt_params (snd q)) kw
  end.
(** The variable an operation gives to the units. *)
Definition output (op : operation) : option variable :=
  match op with
  | Correct _ _ _ => None
  | Spatialize n _ _ => match get_variable n with Ok v => Some v | _ => None end
  | ComputePet _ _ _ => Some VPet
  end.
Definition outputs (l : list operation) : list (option variable) := map output (filter (fun op => match op with Correct _ _ _ => false | _ => true end) l).
(** Parameter sets that differ only in the parameters that may change, [names]. *)
Definition differ_on (names : list string) (p q : pars) : Prop := pp_changing p = names /\ pp_changing q = names /\ forall n, ~ In n names -> pp_get p n = pp_get q n.
(** What makes a calibration of the forcing sound: corrections and PET do not depend on changing parameters, PET is not computed from variables
    that do, and no variable is given to the units twice. *)
Definition sound_operations (names : list string) (l : list operation) : Prop :=
  (forall v m c n, In (Correct v m c) l -> In n (opt_params c) -> ~ In n names) /\
  (forall m use kw, In (ComputePet m use kw) l ->
     (forall n, In n (op_params (ComputePet m use kw)) -> ~ In n names) /\
     (forall u, In u use -> get_variable u <> Ok VPet) /\
     (forall u s sm so v n, In u use -> In (Spatialize s sm so) l -> get_variable u = Ok v -> get_variable s = Ok v -> In n (op_params (Spatialize s sm so)) -> ~ In n names)) /\
  NoDup (outputs l).
(** The names of each variable. *)
Definition names_of (v : variable) : list string :=
  (match v with
   | VP => ["P"; "p"; "precip"; "precipitation"]
   | VT => ["T"; "t"; "temp"; "temperature"]
   | VTmin => ["T_MIN"; "t_min"; "tmin"; "temperature_min"; "min_temperature"]
   | VTmax => ["T_MAX"; "t_max"; "tmax"; "temperature_max"; "max_temperature"]
   | VTdew => ["T_DEW_POINT"]
   | VPet => ["PET"; "pet"]
   | VRh => ["RH"; "rh"; "relative_humidity"]
   | VRhMin => ["RH_MIN"; "rh_min"; "rhmin"; "relative_humidity_min"; "min_relative_humidity"]
   | VRhMax => ["RH_MAX"; "rh_max"; "rhmax"; "relative_humidity_max"; "max_relative_humidity"]
   | VRnet => ["R_NET"; "r_net"; "r_n"; "rn"; "net_radiation"]
   | VRsolar => ["R_SOLAR"; "r_solar"; "r_s"; "rs"; "solar_radiation"]
   | VSd => ["SD"; "sd"; "sunshine_duration"]
   | VWind => ["WIND"; "wind"; "wind_speed"]
   | VPressure => ["PRESSURE"; "pressure"]
   end)%string.
