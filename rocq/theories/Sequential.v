(** Sequential solvers: core/src/base/SolverSequential.cpp and the four schemes built on it. *)
From Verif Require Import Base Container Network.

(** State with the dynamic change of [b] set to [x] ([*contentDelta = offset], SolverSequential.cpp:23). *)
Definition set_dyn (s : state) (b : nat) (x : R) : state :=
  mkState (s_content s) (upd (s_dyn s) b x) (s_stat s) (s_amount s).

(** SolverSequential.cpp:22-32 [TotalRateAt] and :34-40 [StoreRatesAtCurrentContent]: rates of the
    processes of [b] when its dynamic change is [x].  Simplifications: a process returns one rate per
    connection, and evaluating it several times in one step gives the same law [f] each time. *)
Definition rates_at (N : net) (f : law) (s : state) (b : nat) (x : R) : nat -> R :=
  evaluate N f (set_dyn s b x).
Definition total_rate_at (N : net) (f : law) (s : state) (b : nat) (x : R) : R :=
  Rsum (rates_at N f s b x) (outs N b).

(** The four schemes.  [Analytic lin]: [lin k = Some c] when connection [k] belongs to a process with a
    linear response of coefficient [c] and a single connection (ProcessOutflowLinear.h:36-45). *)
Inductive scheme := Analytic (lin : nat -> option R) | ImplicitEuler | CrankNicolson | ExponentialEuler.

(** SolverAnalyticLinear.cpp:12-59 *)
Definition coef (lin : nat -> option R) (k : nat) : R := match lin k with Some c => c | None => 0 end.
Definition is_linear (lin : nat -> option R) (k : nat) : bool :=
  match lin k with Some _ => true | None => false end.
Definition analytic_rates (N : net) (lin : nat -> option R) (f : law) (s : state) (b : nat)
    (content inflow h : R) : nat -> R :=
  let total := Rsum (coef lin) (outs N b) in
  let frozen := Rsum (evaluate N f s) (filter (fun k => negb (is_linear lin k)) (outs N b)) in
  let net_inflow := inflow - frozen in
  let decay := exp (- total * h) in
  let new_content := content * decay + net_inflow / total * (1 - decay) in
  let outflow := Rmax ((net_inflow * h - (new_content - content)) / h) 0 in
  fun k =>
    match lin k with
    | Some c => if Rleb total 0 then 0 else outflow * c / total
    | None => evaluate N f s k
    end.

(** The bisection loop shared by SolverImplicitEuler.cpp:31-42 and SolverCrankNicolson.cpp:35-47:
    at most [fuel] (100) halvings, stopping when the bracket is narrower than 1e-12. *)
Definition BISECT_TOL : R := / 1000000000000.
Fixpoint bisect (fuel : nat) (g : R -> R) (lo hi : R) : R * R :=
  match fuel with
  | O => (lo, hi)
  | S n =>
      let m := (lo + hi) / 2 in
      let lo' := if Rltb 0 (g m) then lo else m in
      let hi' := if Rltb 0 (g m) then m else hi in
      if Rltb (hi' - lo') BISECT_TOL then (lo', hi') else bisect n g lo' hi'
  end.
(** SolverImplicitEuler.cpp:29-46, SolverCrankNicolson.cpp:33-51: end-of-step content from the bracket. *)
Definition end_of_bracket (g : R -> R) (lo hi : R) : R :=
  if Rltb lo hi then let p := bisect 100 g lo hi in (fst p + snd p) / 2 else lo.

(** SolverImplicitEuler.cpp:18-46; [q S]: total outflow rate at content [S]. *)
Definition implicit_g (q : R -> R) (content inflow h x : R) : R := x - content - h * (inflow - q x).
Definition upper_bound (content inflow h : R) : R := content + h * Rmax inflow 0.
Definition implicit_lower (allowneg : bool) (q : R -> R) (content inflow h : R) : R :=
  let lo := content + h * (inflow - q (upper_bound content inflow h)) in
  if allowneg then lo else Rmax lo 0.
Definition implicit_end (allowneg : bool) (q : R -> R) (content inflow h : R) : R :=
  end_of_bracket (implicit_g q content inflow h)
    (implicit_lower allowneg q content inflow h) (upper_bound content inflow h).

(** SolverCrankNicolson.cpp:18-51; [q0]: total outflow rate at the start. *)
Definition trapezoidal_g (q : R -> R) (q0 content inflow h x : R) : R :=
  x - content - h * (inflow - (q0 + q x) / 2).
Definition trapezoidal_lower (allowneg : bool) (q : R -> R) (q0 content inflow h : R) : R :=
  let lo := content + h * (inflow - (q0 + q (upper_bound content inflow h)) / 2) in
  if allowneg then lo else Rmax lo 0.
Definition trapezoidal_end (allowneg : bool) (q : R -> R) (q0 content inflow h : R) : R :=
  end_of_bracket (trapezoidal_g q q0 content inflow h)
    (trapezoidal_lower allowneg q q0 content inflow h) (upper_bound content inflow h).

(** SolverExponentialEuler.cpp:22-43 *)
Definition exponential_slope (q : R -> R) (content inflow h : R) : R :=
  let eps := Rmax (/ 1000) (/ 1000 * Rmax content (content + h * inflow)) in
  (q (content + eps) - q content) / eps.
Definition SLOPE_MIN : R := / 10000000000.
Definition exponential_end (allowneg : bool) (q : R -> R) (content inflow h : R) : R :=
  let slope := exponential_slope q content inflow h in
  let x := content + (inflow - q content) / slope * (1 - exp (- slope * h)) in
  if allowneg then x else Rmax x 0.

(** ComputeBrickRates of each scheme: the average rates over the step of the connections of [b].
    SolverAnalyticLinear.cpp:12-59; SolverImplicitEuler.cpp:48-57; SolverCrankNicolson.cpp:53-59;
    SolverExponentialEuler.cpp:29-59. *)
Definition brick_rates (N : net) (sch : scheme) (f : law) (s : state) (b : nat)
    (content inflow h : R) : nat -> R :=
  let an := b_allowneg (brick_at N b) in
  let q := fun x => total_rate_at N f s b (x - content) in
  match sch with
  | Analytic lin => analytic_rates N lin f s b content inflow h
  | ImplicitEuler => rates_at N f s b (implicit_end an q content inflow h - content)
  | CrankNicolson =>
      let q0 := total_rate_at N f s b 0 in
      fun k => (rates_at N f s b 0 k
                + rates_at N f s b (trapezoidal_end an q q0 content inflow h - content) k) / 2
  | ExponentialEuler =>
      let start := rates_at N f s b 0 in
      if Rleb (exponential_slope q content inflow h) SLOPE_MIN then start
      else
        let x := exponential_end an q content inflow h in
        let total := Rmax (inflow - (x - content) / h) 0 in
        let fin := rates_at N f s b (x - content) in
        let weights := Rsum (fun k => start k + fin k) (outs N b) in
        fun k => total * (if Rltb 0 weights then (start k + fin k) / weights else 0)
  end.

(** One brick of SolverSequential.cpp:46-83 ([r]: the _rates vector, kept from one step to the next).
    Simplification: solved bricks are not null. *)
Definition seq_brick (N : net) (dt : R) (e : external) (sch : scheme) (f : law)
    (p : state * (nat -> R)) (b : nat) : outcome (state * (nat -> R)) :=
  let '(s, r) := p in
  let content := content_changes s b in
  let inflow := sum_incoming N e s b / dt in
  let r1 := fun k => if mem k (outs N b) then brick_rates N sch f s b content inflow dt k else r k in
  bind (constrain_brick N dt e s b r1) (fun r2 => Ok (apply_brick N dt e r2 s b, r2)).

Fixpoint seq_bricks (N : net) (dt : R) (e : external) (sch : scheme) (f : law) (l : list nat)
    (p : state * (nat -> R)) : outcome (state * (nat -> R)) :=
  match l with
  | [] => Ok p
  | b :: l' => bind (seq_brick N dt e sch f p b) (seq_bricks N dt e sch f l')
  end.

(** SolverSequential.cpp:42-88 [Solve]. *)
Definition seq_step (N : net) (dt : R) (e : external) (sch : scheme) (f : law)
    (s0 : state) (r0 : nat -> R) : outcome (state * (nat -> R)) :=
  bind (seq_bricks N dt e sch f (brick_ids N) (deposit e s0, r0))
    (fun p => Ok (finalize_step N (fst p), snd p)).
