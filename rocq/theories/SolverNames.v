(** Solver names: core/src/base/Solver.cpp. *)
From Coq Require Import String.
From Verif Require Import Base.
Open Scope string_scope.

Inductive solver_kind := SolverRK4 | SolverEulerExplicit | SolverHeunExplicit | SolverAnalyticLinear
  | SolverImplicitEuler | SolverCrankNicolson | SolverExponentialEuler.

(** Solver.cpp:20-31: the names listed in the error message. *)
Definition valid_solver_names : list string :=
  ["rk4"; "runge_kutta"; "euler_explicit"; "heun_explicit"; "analytic_linear"; "analytic";
   "implicit_euler"; "euler_implicit"; "crank_nicolson"; "trapezoidal"; "exponential_euler"].

(** Solver.cpp:45-56: the factory map. *)
Definition factory_map : list (string * solver_kind) :=
  [("rk4", SolverRK4); ("runge_kutta", SolverRK4); ("euler_explicit", SolverEulerExplicit);
   ("heun_explicit", SolverHeunExplicit); ("analytic_linear", SolverAnalyticLinear);
   ("analytic", SolverAnalyticLinear); ("implicit_euler", SolverImplicitEuler);
   ("euler_implicit", SolverImplicitEuler); ("crank_nicolson", SolverCrankNicolson);
   ("trapezoidal", SolverCrankNicolson); ("exponential_euler", SolverExponentialEuler)].

(** Solver.cpp:42-64 [Solver::Factory]: lookup, otherwise throw ModelConfigError. *)
Fixpoint lookup (m : list (string * solver_kind)) (name : string) : outcome solver_kind :=
  match m with
  | [] => Throw
  | (n, k) :: m' => if String.eqb n name then Ok k else lookup m' name
  end.
Definition solver_factory (name : string) : outcome solver_kind := lookup factory_map name.
