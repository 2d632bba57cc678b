(** Vocabulary of the theorems about parameter sets (C79 - C81). *)
From Coq Require Export String Ascii.
From Verif Require Export Base ParamSet.
Open Scope R_scope.

(** Equality of texts whatever the case of the letters. *)
Definition same_letter (c d : ascii) : Prop :=
  c = d \/ exists k, (k < 26)%nat /\ (c = ascii_of_nat (65 + k) /\ d = ascii_of_nat (97 + k) \/ c = ascii_of_nat (97 + k) /\ d = ascii_of_nat (65 + k)).
Inductive same_text : string -> string -> Prop :=
| same_empty : same_text EmptyString EmptyString
| same_string c d s t : same_letter c d -> same_text s t -> same_text (String c s) (String d t).

(** The aliases a user gave, as texts; the full name. *)
Definition alias_texts (p : param) : list string := match pa_alias p with NoAlias => [] | OneText s => [s] | Names l => l end.
Definition full_name (p : param) : string := pa_component p ++ ":" ++ pa_name p.
(** [name] is a name of the parameter: one of its aliases or its full name. *)
Definition called (name : string) (p : param) : Prop := (exists a, In a (alias_texts p) /\ same_text name a) \/ same_text name (full_name p).
Definition aliases_as_lists (s : pset) : Prop := forall p, In p (ps_params s) -> match pa_alias p with OneText _ => False | _ => True end.
Definition parameters (s : pset) : nat := List.length (ps_params s).

(** The states of a set over its definition and use, aliases being given with the definition, as a list. *)
Inductive history : pset -> Prop :=
| h_new : history empty_set
| h_define s c n a mn mx d m s' : history s -> (forall t, a <> OneText t) -> define_parameter s c n a mn mx d m = Ok s' -> history s'
| h_data s n v mn mx s' : history s -> add_data_parameter s n v mn mx = Ok s' -> history s'
| h_range s n mn mx s' : history s -> change_range s n mn mx = Ok s' -> history s'
| h_transform s n t s' : history s -> set_transform s n t = Ok s' -> history s'
| h_constraint s c : history s -> history (define_constraint s c)
| h_remove s c : history s -> history (remove_constraint s c)
| h_set s check adapt tr l s' : history s -> set_values s check adapt tr l = Returned s' \/ set_values s check adapt tr l = Raised s' -> history s'
| h_random s keys u k s' k' : history s -> set_random_values s keys u k = Ok (s', k') -> history s'.
(** An alias has no colon, so that it cannot be a full name. *)
Definition no_colon_in (t : string) : Prop := ~ In ":"%char (list_ascii_of_string t).
Definition plain_aliases (s : pset) : Prop := forall p a, In p (ps_params s) -> In a (alias_texts p) -> no_colon_in a.
Definition distinct_full_names (s : pset) : Prop :=
  forall i j, (i < parameters s)%nat -> (j < parameters s)%nat -> same_text (full_name (row s i)) (full_name (row s j)) -> i = j.

(** The range of a parameter: for a number, for a list (element by element). *)
Definition number_range (p : param) (low high : option R) : Prop := pa_min p = option_map PNum low /\ pa_max p = option_map PNum high.
Definition list_range (p : param) (low high : list R) : Prop := pa_min p = Some (PList low) /\ pa_max p = Some (PList high).
Definition ranged (p : param) : Prop := (exists low high, number_range p low high) \/ exists low high, list_range p low high.
Definition between (low high : option R) (x : R) : Prop := (forall a, low = Some a -> a <= x) /\ (forall b, high = Some b -> x <= b).
Definition fits (p : param) (v : pvalue) : Prop :=
  (exists low high x, number_range p low high /\ v = PNum x /\ between low high x) \/
  (exists low high l, list_range p low high /\ v = PList l /\
     forall k a b x, nth_error low k = Some a -> nth_error high k = Some b -> nth_error l k = Some x -> a <= x <= b).
(** The range is not empty. *)
Definition range_open (p : param) : Prop :=
  (forall a b, number_range p (Some a) (Some b) -> a <= b) /\
  (forall low high, list_range p low high -> forall k a b, nth_error low k = Some a -> nth_error high k = Some b -> a <= b).
(** The value in the range that is nearest to [x]. *)
Definition nearest (low high : option R) (x y : R) : Prop :=
  between low high y /\ forall z, between low high z -> Rabs (y - x) <= Rabs (z - x).

(** [v] is the last value that [l] gives to the i-th parameter; no value is given to it. *)
Definition last_given (s : pset) (l : list (string * pvalue)) (i : nat) (v : pvalue) : Prop :=
  exists l1 k l2, l = l1 ++ (k, v) :: l2 /\ param_index s k = Some i /\ forall q, In q l2 -> param_index s (fst q) <> Some i.
Definition not_given (s : pset) (l : list (string * pvalue)) (i : nat) : Prop := forall q, In q l -> param_index s (fst q) <> Some i.
(** All of a parameter but its value. *)
Definition same_definition (p q : param) : Prop :=
  pa_component q = pa_component p /\ pa_name q = pa_name p /\ pa_alias q = pa_alias p /\ pa_min q = pa_min p /\ pa_max q = pa_max p /\
  pa_prior q = pa_prior p /\ pa_transform q = pa_transform p.

(** What the operators of the constraints mean. *)
Definition meaning (o : string) : option (R -> R -> Prop) :=
  (if String.eqb o ">" then Some Rgt else if String.eqb o "gt" then Some Rgt else
   if String.eqb o ">=" then Some Rge else if String.eqb o "ge" then Some Rge else
   if String.eqb o "<" then Some Rlt else if String.eqb o "lt" then Some Rlt else
   if String.eqb o "<=" then Some Rle else if String.eqb o "le" then Some Rle else None)%string.
(** The value of a named parameter is the number [x]. *)
Definition valued (s : pset) (name : string) (x : R) : Prop := exists i, param_index s name = Some i /\ pa_value (row s i) = Some (PNum x).
(** All constraints with a known operator hold, as far as their parameters are in the set. *)
Definition constraints_met (s : pset) : Prop :=
  forall a o b rel x y, In (a, o, b) (ps_constraints s) -> meaning o = Some rel -> valued s a x -> valued s b y -> rel x y.
(** The constrained parameters of the set have numbers for values. *)
Definition constraints_apply (s : pset) : Prop :=
  forall a o b, In (a, o, b) (ps_constraints s) -> has s a = true -> has s b = true -> (exists x, valued s a x) /\ exists y, valued s b y.
(** All values are there and in range. *)
Definition in_ranges (s : pset) : Prop := forall p, In p (ps_params s) -> exists v, pa_value p = Some v /\ fits p v.

(** The transform of a parameter between [a] and [b]: [to_real] undoes [to_transformed] on the range, and is monotonic. *)
Definition undoes (t : transform) (a b : R) : Prop := forall y, a <= y <= b -> exists x, to_transformed t y = Ok x /\ to_real t x = Ok y.
Definition rising (t : transform) : Prop :=
  forall x x' y y', to_real t x = Ok y -> to_real t x' = Ok y' -> x <= x' -> y <= y'.
Definition falling (t : transform) : Prop :=
  forall x x' y y', to_real t x = Ok y -> to_real t x' = Ok y' -> x <= x' -> y' <= y.
Definition always_real (t : transform) : Prop := forall x, exists y, to_real t x = Ok y.

(** The calibration runs: the samples of the optimizer, and the skill of each run (None if it was rejected). *)
Definition stored (minimize : bool) (runs : list (list (string * R) * option R)) : list (list (string * R) * R) :=
  map (fun r => (fst r, score minimize (snd r))) runs.
(** Mean error of a simulation. *)
Definition mean_error (sim obs : list R) : R := Rsum (fun q => fst q - snd q) (combine sim obs) / INR (List.length obs).
(** The keys, each with a number range, were drawn with the numbers [t] of the generator: the rest of the set is as before. *)
Definition drawn (s : pset) (keys : list string) (t : nat -> R) (s' : pset) : Prop :=
  parameters s' = parameters s /\ ps_constraints s' = ps_constraints s /\ forall i, (i < parameters s)%nat -> same_definition (row s i) (row s' i) /\
    ((forall key, In key keys -> param_index s key <> Some i) -> row s' i = row s i) /\
    forall j key a b, nth_error keys j = Some key -> param_index s key = Some i -> number_range (row s i) (Some a) (Some b) ->
      (forall j' key', (j < j')%nat -> nth_error keys j' = Some key' -> param_index s key' <> Some i) -> pa_value (row s' i) = Some (PNum (a + (b - a) * t j)).

(** No alias is shared by two parameters. *)
Definition no_shared_alias (s : pset) : Prop :=
  forall i j a b, (i < parameters s)%nat -> (j < parameters s)%nat -> i <> j -> In a (alias_texts (row s i)) -> In b (alias_texts (row s j)) -> ~ same_text a b.
(** The parameter has a limit at least. *)
Definition bounded (p : param) : Prop := ~ number_range p None None.
(** The value, if there is one, is a number for a number range and a list for a list range. *)
Definition right_kind (p : param) : Prop :=
  match pa_value p with None => True | Some (PNum _) => exists low high, number_range p low high | Some (PList _) => exists low high, list_range p low high end.
(** The name is known and the value is in the range. *)
Definition acceptable (s : pset) (kv : string * pvalue) : Prop := exists i, param_index s (fst kv) = Some i /\ fits (row s i) (snd kv).
Definition given_ranged (s : pset) (l : list (string * pvalue)) : Prop := forall q i, In q l -> param_index s (fst q) = Some i -> ranged (row s i) /\ bounded (row s i).
(** The keys are parameters with a number range; the parameters of the constraints are drawn or have a number. *)
Definition number_keys (s : pset) (keys : list string) : Prop := forall key, In key keys -> exists i a b, param_index s key = Some i /\ number_range (row s i) (Some a) (Some b).
Definition constrained_numbers (s : pset) (keys : list string) : Prop :=
  forall a o b, In (a, o, b) (ps_constraints s) -> forall c i, c = a \/ c = b -> param_index s c = Some i -> (exists key, In key keys /\ param_index s key = Some i) \/ exists x, pa_value (row s i) = Some (PNum x).
(** Mean squared error of the logarithms of 1 + discharge. *)
Definition mean_squared_log_error (sim obs : list R) : R := Rsum (fun q => (ln (1 + fst q) - ln (1 + snd q)) * (ln (1 + fst q) - ln (1 + snd q))) (combine sim obs) / INR (List.length obs).
(** The real value of a number given in the space of the optimizer. *)
Definition real_of (p : param) (x y : R) : Prop := match pa_transform p with None => y = x | Some t => to_real t x = Ok y end.
(** The set [s'] is [s] with the real values of the sample [x]. *)
Definition sampled (s : pset) (x : list (string * R)) (s' : pset) : Prop :=
  parameters s' = parameters s /\ ps_constraints s' = ps_constraints s /\ forall i, (i < parameters s)%nat -> same_definition (row s i) (row s' i) /\
    (not_given s (numbers x) i -> row s' i = row s i) /\
    forall v, last_given s (numbers x) i (PNum v) -> exists y, real_of (row s i) v y /\ pa_value (row s' i) = Some (PNum y).
(** The parameters of a sample have number ranges, those of the set values of the right kind. *)
Definition searchable (s : pset) (x : list (string * R)) : Prop :=
  (forall p, In p (ps_params s) -> right_kind p) /\
  forall q i, In q x -> param_index s (fst q) = Some i -> exists low high, number_range (row s i) low high.
