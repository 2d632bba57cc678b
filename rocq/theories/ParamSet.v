(** Model of the parameter sets of the Python interface and of their use in calibration.
    PA = python/src/hydrobricks/parameters.py, TR = python/src/hydrobricks/trainer.py, ME = python/src/hydrobricks/evaluation/metrics.py.
    The table of parameters is a list of rows in the order of definition.  [Throw] stands for every Python exception (ConfigurationError,
    TypeError, AssertionError, ValueError).  Not modelled: units, the sharing of list objects between columns, the logging. *)
From Coq Require Import String Ascii.
From Verif Require Import Base.
Open Scope R_scope.

(** Python str.lower(), on ASCII letters. *)
Definition lower_char (c : ascii) : ascii :=
  let n := nat_of_ascii c in if (Nat.leb 65 n && Nat.leb n 90)%bool then ascii_of_nat (n + 32) else c.
Fixpoint lower (s : string) : string := match s with EmptyString => EmptyString | String c r => String (lower_char c) (lower r) end.

(** A value, a minimum or a maximum: a number or a list of numbers. *)
Inductive pvalue := PNum (x : R) | PList (l : list R).
(** The argument [aliases]: None, a string, or a list of strings. *)
Inductive palias := NoAlias | OneText (s : string) | Names (l : list string).
(** PA:43-56. The functions may fail (math domain errors). *)
Record transform := mkTr { to_transformed : R -> outcome R; to_real : R -> outcome R }.
(** One row (PA:868-884).  [pa_prior]: a prior distribution is attached. *)
Record param := mkPar { pa_component : string; pa_name : string; pa_alias : palias; pa_value : option pvalue;
  pa_min : option pvalue; pa_max : option pvalue; pa_prior : bool; pa_transform : option transform }.
Record pset := mkPS { ps_params : list param; ps_constraints : list (string * string * string) }.
(** PA:781-804. *)
Definition empty_set : pset := mkPS [] [].

(** Python comparison a < b: numbers, or lists in lexicographic order; a list and a number do not compare. *)
Fixpoint list_lt (l m : list R) : bool :=
  match l, m with
  | _, [] => false
  | [], _ => true
  | x :: l', y :: m' => if Reqb x y then list_lt l' m' else Rltb x y
  end.
Definition py_lt (a b : pvalue) : outcome bool :=
  match a, b with
  | PNum x, PNum y => Ok (Rltb x y)
  | PList l, PList m => Ok (list_lt l m)
  | _, _ => Throw
  end.

(** Iterating over the aliases: a string gives its letters. *)
Definition iter_alias (a : palias) : list string :=
  match a with NoAlias => [] | OneText s => map (fun c => String c EmptyString) (list_ascii_of_string s) | Names l => l end.
(** PA:2174-2180: explode keeps a string as it is. *)
Definition existing_aliases (s : pset) : list string :=
  flat_map (fun p => match pa_alias p with NoAlias => [] | OneText t => [lower t] | Names l => map lower l end) (ps_params s).
(** PA:2156-2186. *)
Definition check_aliases (s : pset) (a : palias) : outcome unit :=
  if existsb (fun x => existsb (String.eqb (lower x)) (existing_aliases s)) (iter_alias a) then Throw else Ok tt.
(** PA:2106-2154. *)
Definition check_min_max (mn mx : option pvalue) : outcome unit :=
  match mn, mx with
  | Some (PNum a), Some (PNum b) => if Rltb b a then Throw else Ok tt
  | Some (PList l), Some (PList m) =>
      if negb (List.length l =? List.length m)%nat then Throw
      else if existsb (fun q => Rltb (snd q) (fst q)) (combine l m) then Throw else Ok tt
  | Some _, Some _ => Throw
  | _, _ => Ok tt
  end.
(** PA:832-896 [define_parameter]. *)
Definition define_parameter (s : pset) (component name : string) (a : palias) (mn mx default : option pvalue) (mandatory : bool) : outcome pset :=
  bind (check_aliases s a) (fun _ => bind (check_min_max mn mx) (fun _ =>
  Ok (mkPS (ps_params s ++ [mkPar component name a (if mandatory then None else default) mn mx false None]) (ps_constraints s)))).
(** PA:1320-1365 [add_data_parameter]. *)
Definition add_data_parameter (s : pset) (name : string) (value mn mx : option pvalue) : outcome pset :=
  bind (check_aliases s (Names [name])) (fun _ => bind (check_min_max mn mx) (fun _ =>
  Ok (mkPS (ps_params s ++ [mkPar "data" name (Names [name]) value mn mx false None]) (ps_constraints s)))).

(** PA:2317-2325: a row answers to its aliases and to component:name, whatever the case. *)
Definition answers (name : string) (p : param) : bool :=
  existsb (fun a => String.eqb (lower name) (lower a)) (iter_alias (pa_alias p)) ||
  String.eqb (lower name) (lower (pa_component p ++ ":" ++ pa_name p)).
(** PA:2292-2334 [_get_parameter_index]: the first row that answers. *)
Fixpoint index_from (l : list param) (name : string) (i : nat) : option nat :=
  match l with [] => None | p :: r => if answers name p then Some i else index_from r name (S i) end.
Definition param_index (s : pset) (name : string) : option nat := index_from (ps_params s) name 0.
Definition has (s : pset) (name : string) : bool := match param_index s name with Some _ => true | None => false end.
Definition blank : param := mkPar "" "" NoAlias None None None false None.
Definition row (s : pset) (i : nat) : param := nth i (ps_params s) blank.
Fixpoint change_row (l : list param) (i : nat) (f : param -> param) : list param :=
  match l, i with [], _ => [] | p :: r, O => f p :: r | p :: r, S j => p :: change_row r j f end.
Definition with_row (s : pset) (i : nat) (f : param -> param) : pset := mkPS (change_row (ps_params s) i f) (ps_constraints s).
Definition put_value (v : pvalue) (p : param) : param :=
  mkPar (pa_component p) (pa_name p) (pa_alias p) (Some v) (pa_min p) (pa_max p) (pa_prior p) (pa_transform p).

(** PA:898-918 [add_aliases], the aliases as a list; a string does not add to a list. *)
Definition add_aliases (s : pset) (name : string) (l : list string) : outcome pset :=
  match param_index s name with
  | None => Throw
  | Some i =>
      match pa_alias (row s i) with
      | OneText _ => Throw
      | NoAlias => Ok (with_row s i (fun p => mkPar (pa_component p) (pa_name p) (Names l) (pa_value p) (pa_min p) (pa_max p) (pa_prior p) (pa_transform p)))
      | Names k => Ok (with_row s i (fun p => mkPar (pa_component p) (pa_name p) (Names (k ++ l)) (pa_value p) (pa_min p) (pa_max p) (pa_prior p) (pa_transform p)))
      end
  end.
(** PA:920-946 [change_range]. *)
Definition change_range (s : pset) (name : string) (mn mx : option R) : outcome pset :=
  match param_index s name with
  | None => Throw
  | Some i => Ok (with_row s i (fun p => mkPar (pa_component p) (pa_name p) (pa_alias p) (pa_value p)
                (match mn with Some a => Some (PNum a) | None => pa_min p end) (match mx with Some b => Some (PNum b) | None => pa_max p end) (pa_prior p) (pa_transform p)))
  end.
(** PA:948-988 [set_transform]. *)
Definition is_list (v : option pvalue) : bool := match v with Some (PList _) => true | _ => false end.
Definition set_transform (s : pset) (name : string) (t : transform) : outcome pset :=
  match param_index s name with
  | None => Throw
  | Some i => if is_list (pa_min (row s i)) || is_list (pa_value (row s i)) then Throw
              else Ok (with_row s i (fun p => mkPar (pa_component p) (pa_name p) (pa_alias p) (pa_value p) (pa_min p) (pa_max p) (pa_prior p) (Some t)))
  end.

(** *** Values *)
(** PA:2248-2266: zip stops at the shortest list. *)
Fixpoint check_list (adapt : bool) (mn mx v : list R) : outcome (list R) :=
  match mn, mx, v with
  | a :: mn', b :: mx', x :: v' =>
      if Rltb b x && negb adapt then Throw
      else if Rltb x a && negb adapt then Throw
      else bind (check_list adapt mn' mx' v') (fun r => Ok ((if Rltb x a then a else if Rltb b x then b else x) :: r))
  | _, _, _ => Ok v
  end.
(** PA:2188-2269 [_check_value_range]. *)
Definition check_value_range (adapt : bool) (p : param) (v : pvalue) : outcome pvalue :=
  match pa_min p with
  | Some (PList mn) =>
      match pa_max p, v with
      | Some (PList mx), PList l => bind (check_list adapt mn mx l) (fun r => Ok (PList r))
      | _, _ => Throw
      end
  | mn =>
      bind (match pa_max p with None => Ok false | Some b => py_lt b v end) (fun above =>
      if above then match pa_max p with Some b => if adapt then Ok b else Throw | None => Throw end
      else bind (match mn with None => Ok false | Some a => py_lt v a end) (fun below =>
           if below then match mn with Some a => if adapt then Ok a else Throw | None => Throw end else Ok v))
  end.
(** PA:1179-1190: one entry of [set_values]. *)
Definition from_transformed (p : param) (v : pvalue) : outcome pvalue :=
  match pa_transform p with
  | None => Ok v
  | Some t => match v with PNum x => bind (to_real t x) (fun y => Ok (PNum y)) | PList _ => Throw end
  end.
Definition set_value (s : pset) (check adapt transformed : bool) (kv : string * pvalue) : outcome pset :=
  match param_index s (fst kv) with
  | None => Throw
  | Some i =>
      bind (if transformed then from_transformed (row s i) (snd kv) else Ok (snd kv)) (fun v =>
      bind (if check then check_value_range adapt (row s i) v else Ok v) (fun v => Ok (with_row s i (put_value v))))
  end.
(** PA:1152-1190 [set_values]: the entries in turn; an exception leaves the entries before it set. *)
Inductive ended := Returned (s : pset) | Raised (s : pset).
Fixpoint set_values (s : pset) (check adapt transformed : bool) (values : list (string * pvalue)) : ended :=
  match values with
  | [] => Returned s
  | kv :: r => match set_value s check adapt transformed kv with Ok s' => set_values s' check adapt transformed r | _ => Raised s end
  end.
(** PA:1229-1266 [get], [get_transformed]. *)
Definition get (s : pset) (name : string) : outcome (option pvalue) :=
  match param_index s name with Some i => Ok (pa_value (row s i)) | None => Throw end.
Definition get_transformed (s : pset) (name : string) : outcome (option pvalue) :=
  match param_index s name with
  | None => Throw
  | Some i => match pa_transform (row s i) with
              | None => Ok (pa_value (row s i))
              | Some t => match pa_value (row s i) with Some (PNum x) => bind (to_transformed t x) (fun y => Ok (Some (PNum y))) | _ => Throw end
              end
  end.
(** PA:1280-1307 [is_valid], [get_undefined]. *)
Definition no_value (p : param) : bool := match pa_value p with None => true | Some _ => false end.
Definition is_valid (s : pset) : bool := negb (existsb no_value (ps_params s)).
Definition get_undefined (s : pset) : list string := map pa_name (filter no_value (ps_params s)).

(** *** Constraints and ranges *)
(** PA:1030-1050, 1052-1078. *)
Definition define_constraint (s : pset) (c : string * string * string) : pset := mkPS (ps_params s) (ps_constraints s ++ [c]).
Definition constraint_eqb (c d : string * string * string) : bool :=
  match c, d with (a, o, b), (a', o', b') => String.eqb a a' && String.eqb o o' && String.eqb b b' end.
Fixpoint drop_first (l : list (string * string * string)) (c : string * string * string) : list (string * string * string) :=
  match l with [] => [] | d :: r => if constraint_eqb c d then r else d :: drop_first r c end.
Definition remove_constraint (s : pset) (c : string * string * string) : pset := mkPS (ps_params s) (drop_first (ps_constraints s) c).
(** PA:1106-1117: the test of one constraint; None and numbers do not compare. *)
Definition operator_in (o : string) (l : list string) : bool := existsb (String.eqb o) l.
Definition violated (o : string) (v1 v2 : option pvalue) : outcome bool :=
  let lt a b := match a, b with Some (PNum x), Some (PNum y) => Ok (Rltb x y) | _, _ => Throw end in
  let le a b := match a, b with Some (PNum x), Some (PNum y) => Ok (Rleb x y) | _, _ => Throw end in
  if operator_in o [">"; "gt"]%string then le v1 v2
  else if operator_in o [">="; "ge"]%string then lt v1 v2
  else if operator_in o ["<"; "lt"]%string then le v2 v1
  else if operator_in o ["<="; "le"]%string then lt v2 v1
  else Ok false.
(** PA:1080-1117 [constraints_satisfied]. *)
Fixpoint constraints_hold (s : pset) (l : list (string * string * string)) : outcome bool :=
  match l with
  | [] => Ok true
  | (a, o, b) :: r =>
      match param_index s a, param_index s b with
      | Some i, Some j =>
          let v1 := pa_value (row s i) in let v2 := pa_value (row s j) in
          if is_list v1 || is_list v2 then Throw
          else bind (violated o v1 v2) (fun bad => if bad then Ok false else constraints_hold s r)
      | _, _ => constraints_hold s r
      end
  end.
Definition constraints_satisfied (s : pset) : outcome bool := constraints_hold s (ps_constraints s).
(** PA:1142-1148. *)
Fixpoint list_in_range (mn mx v : list R) : bool :=
  match mn, mx, v with
  | a :: mn', b :: mx', x :: v' => if Rltb b x then false else if Rltb x a then false else list_in_range mn' mx' v'
  | _, _, _ => true
  end.
(** PA:1129-1148: one row. *)
Definition row_in_range (p : param) : outcome bool :=
  match pa_value p with
  | None => Ok false
  | Some v =>
      match pa_min p with
      | Some (PList mn) => match pa_max p, v with Some (PList mx), PList l => Ok (list_in_range mn mx l) | _, _ => Throw end
      | mn => bind (match pa_max p with None => Ok false | Some b => py_lt b v end) (fun above =>
              if above then Ok false else bind (match mn with None => Ok false | Some a => py_lt v a end) (fun below => Ok (negb below)))
      end
  end.
(** PA:1119-1150 [range_satisfied]. *)
Fixpoint rows_in_range (l : list param) : outcome bool :=
  match l with [] => Ok true | p :: r => bind (row_in_range p) (fun b => if b then rows_in_range r else Ok false) end.
Definition range_satisfied (s : pset) : outcome bool := rows_in_range (ps_params s).

(** *** Random values.  [u k]: the k-th number of the generator; random.uniform(a, b) = a + (b - a) * u. *)
Definition uniform (a b t : R) : R := a + (b - a) * t.
(** PA:1422-1427: the elements of a list, in place; an index past the end is an IndexError. *)
Fixpoint draw_list (mn mx v : list R) (u : nat -> R) (k : nat) : outcome (list R * nat) :=
  match mn, mx with
  | a :: mn', b :: mx' => match v with
                          | [] => Throw
                          | _ :: v' => bind (draw_list mn' mx' v' u (S k)) (fun q => Ok (uniform a b (u k) :: fst q, snd q))
                          end
  | _, _ => Ok (v, k)
  end.
(** PA:1414-1439: one parameter. *)
Definition draw_one (s : pset) (key : string) (u : nat -> R) (k : nat) : outcome (pset * nat) :=
  match param_index s key with
  | None => Throw
  | Some i =>
      let p := row s i in
      match pa_min p, pa_max p with
      | Some (PList mn), Some (PList mx) =>
          match (match pa_value p with None => Some (repeat 0 (List.length mn)) | Some (PList l) => Some l | Some (PNum _) => None end) with
          | None => Throw
          | Some l => bind (draw_list mn mx l u k) (fun q => Ok (with_row s i (put_value (PList (fst q))), snd q))
          end
      | Some (PNum a), Some (PNum b) => Ok (with_row s i (put_value (PNum (uniform a b (u k)))), S k)
      | _, _ => Throw
      end
  end.
Fixpoint draw_all (s : pset) (keys : list string) (u : nat -> R) (k : nat) : outcome (pset * nat) :=
  match keys with [] => Ok (s, k) | key :: r => bind (draw_one s key u k) (fun q => draw_all (fst q) r u (snd q)) end.
(** PA:1413-1445 [set_random_values]: attempts 0 .. 1000, then an exception; the set is changed in place. *)
Fixpoint draw_until (fuel : nat) (s : pset) (keys : list string) (u : nat -> R) (k : nat) : outcome (pset * nat) :=
  match fuel with
  | O => Throw
  | S f => bind (draw_all s keys u k) (fun q => bind (constraints_satisfied (fst q)) (fun ok => if ok then Ok q else draw_until f (fst q) keys u (snd q)))
  end.
Definition set_random_values (s : pset) (keys : list string) (u : nat -> R) (k : nat) : outcome (pset * nat) := draw_until 1001 s keys u k.

(** *** Calibration *)
(** PA:1466-1504 [get_for_spotpy]: what the optimizer searches for one parameter; spotpy needs numbers for the bounds of a uniform law. *)
Inductive searched := Prior | Between (low high : R).
Definition spotpy_param (s : pset) (name : string) : outcome searched :=
  match param_index s name with
  | None => Throw
  | Some i =>
      let p := row s i in
      if pa_prior p then Ok Prior
      else match pa_min p, pa_max p with
           | Some (PNum a), Some (PNum b) =>
               match pa_transform p with
               | None => Ok (Between a b)
               | Some t => bind (to_transformed t a) (fun x => bind (to_transformed t b) (fun y => Ok (if Rleb x y then Between x y else Between y x)))
               end
           | _, _ => Throw
           end
  end.
(** TR:934-964 [SpotpySetup.parameters]: at most 1000 draws; [gen i] is the i-th draw of spotpy.  Returns the last draw. *)
Definition numbers (x : list (string * R)) : list (string * pvalue) := map (fun q => (fst q, PNum (snd q))) x.
Fixpoint sample (fuel : nat) (s : pset) (gen : nat -> list (string * R)) (i : nat) (last : list (string * R)) : outcome (pset * list (string * R)) :=
  match fuel with
  | O => Ok (s, last)
  | S f =>
      match set_values s false false true (numbers (gen i)) with
      | Raised _ => Throw
      | Returned s' =>
          bind (constraints_satisfied s') (fun c =>
          bind (if c then range_satisfied s' else Ok false) (fun r => if r then Ok (s', gen i) else sample f s' gen (S i) (gen i)))
      end
  end.
Definition spotpy_parameters (s : pset) (gen : nat -> list (string * R)) : outcome (pset * list (string * R)) := sample 1000 s gen 0 [].
(** TR:966-1055 [SpotpySetup.simulation] for one model; [run] is the model run with the values of the set (None: it failed or gave no
    discharge); the set is changed in place. *)
Definition simulation {S : Type} (s : pset) (x : list (string * R)) (run : pset -> option S) : outcome (pset * option S) :=
  match set_values s false false true (numbers x) with
  | Raised _ => Throw
  | Returned s' =>
      bind (constraints_satisfied s') (fun c => if c then bind (range_satisfied s') (fun r => Ok (s', if r then run s' else None)) else Ok (s', None))
  end.
(** TR:30, 1091-1141, 1143-1154: the score given to the optimizer for a run of one model, [skill] of its discharge (higher is better). *)
Definition WORST : R := 1000000000000.
Definition score (minimize : bool) (skill : option R) : R :=
  match skill with None => if minimize then WORST else - WORST | Some x => if minimize then - x else x end.
(** TR:1607-1672 [get_best] (finite scores): the first row with the highest skill. *)
Fixpoint argmax_from (l : list R) (i best : nat) (v : R) : nat :=
  match l with [] => best | x :: r => if Rltb v x then argmax_from r (S i) i x else argmax_from r (S i) best v end.
Definition argmax (l : list R) : option nat := match l with [] => None | x :: r => Some (argmax_from r 1 0 x) end.
Definition real_value (s : pset) (q : string * R) : outcome (string * R) :=
  match param_index s (fst q) with
  | Some i => match pa_transform (row s i) with Some t => bind (to_real t (snd q)) (fun y => Ok (fst q, y)) | None => Ok q end
  | None => Ok q
  end.
Fixpoint real_values (s : pset) (l : list (string * R)) : outcome (list (string * R)) :=
  match l with [] => Ok [] | q :: r => bind (real_value s q) (fun q' => bind (real_values s r) (fun r' => Ok (q' :: r'))) end.
Record best_run := mkBest { b_score : R; b_params : list (string * R); b_index : nat }.
Definition get_best (minimize : bool) (s : pset) (data : list (list (string * R) * R)) : outcome best_run :=
  let skills := map (fun d => if minimize then - snd d else snd d) data in
  match argmax skills with
  | None => Throw
  | Some i => bind (real_values s (fst (nth i data ([], 0)))) (fun q => Ok (mkBest (nth i skills 0) q i))
  end.
(** ME:10-38 and TR:1156-1170 [_discharge_skill]: metrics where a lower value is better are negated. *)
Definition error_metrics : list string :=
  ["me"; "mae"; "mse"; "rmse"; "rmsle"; "mase"; "mape"; "mapd"; "smape1"; "smape2"; "mad"; "ed"; "ned"; "nrmse_range"; "nrmse_mean"; "nrmse_iqr"; "irmse"; "mle"; "mdae"; "g_mean_diff"]%string.
Definition is_error_metric (m : string) : bool := existsb (String.eqb (lower m)) error_metrics.
Definition discharge_skill (metric : string) (evaluate : string -> list R -> list R -> R) (sim obs : list R) : R :=
  let v := evaluate metric sim obs in if is_error_metric metric then - v else v.

(** *** The transforms of the models (models/gr4j.py:312-335, models/gr6j.py:114-120, models/socont.py:314-323); math.log fails unless its
    argument is positive. *)
Definition py_log (x : R) : outcome R := if Rltb 0 x then Ok (ln x) else Throw.
Definition log_transform : transform := mkTr py_log (fun t => Ok (exp t)).
Definition asinh_transform : transform := mkTr (fun x => Ok (arcsinh x)) (fun t => Ok (sinh t)).
Definition uh_transform : transform := mkTr (fun x => py_log (x - 5 / 10)) (fun t => Ok (exp t + 5 / 10)).
Definition response_transform : transform := mkTr (fun x => py_log (x / 24)) (fun t => Ok (24 * exp t)).
