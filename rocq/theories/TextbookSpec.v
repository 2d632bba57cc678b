(** The textbook explicit methods for the system of reservoirs, and what it means that no limit is met.  Nothing here
    refers to how the solvers of the code proceed. *)
From Verif Require Import Base Network NetworkSpec.

(** Flow of each connection as a function of the contents of the storages. *)
Definition flows := (nat -> R) -> nat -> R.

(** The differential equation: inflow from outside (spread over the step) plus what the other storages deliver, minus what
    leaves. *)
Definition balance_of (N : net) (dt : R) (e : external) (flow : nat -> R) (b : nat) : R :=
  (e_seen e b + e_hidden e b) / dt + received N flow b - withdrawn N flow b.
Definition slope (N : net) (dt : R) (e : external) (q : flows) (x : nat -> R) (b : nat) : R := balance_of N dt e (q x) b.

(** One step of a method from [x]: [F] gives the derivative. *)
Definition euler_method (F : (nat -> R) -> nat -> R) (h : R) (x : nat -> R) : nat -> R := fun b => x b + h * F x b.
Definition heun_method (F : (nat -> R) -> nat -> R) (h : R) (x : nat -> R) : nat -> R :=
  fun b => x b + h * ((F x b + F (euler_method F h x) b) / 2).
Definition rk4_k2 (F : (nat -> R) -> nat -> R) (h : R) (x : nat -> R) : nat -> R := fun b => x b + h / 2 * F x b.
Definition rk4_k3 (F : (nat -> R) -> nat -> R) (h : R) (x : nat -> R) : nat -> R := fun b => x b + h / 2 * F (rk4_k2 F h x) b.
Definition rk4_k4 (F : (nat -> R) -> nat -> R) (h : R) (x : nat -> R) : nat -> R := fun b => x b + h * F (rk4_k3 F h x) b.
Definition rk4_method (F : (nat -> R) -> nat -> R) (h : R) (x : nat -> R) : nat -> R :=
  fun b => x b + h / 6 * (F x b + 2 * F (rk4_k2 F h x) b + 2 * F (rk4_k3 F h x) b + F (rk4_k4 F h x) b).

(** The processes see the contents only, an empty storage releases nothing, an overflow asks for nothing by itself. *)
Record reservoir_flows (N : net) (q : flows) : Prop := {
  rf_local : forall x y k, (forall b, (b < length (n_bricks N))%nat -> x b = y b) -> (k < length (n_conns N))%nat -> q x k = q y k;
  rf_dry : forall x k, (k < length (n_conns N))%nat -> x (k_src (conn_at N k)) <= PRECISION -> q x k = 0;
  rf_overflow : forall x k, (k < length (n_conns N))%nat -> k_overflow (conn_at N k) = true -> q x k = 0 }.

(** Rates applied during [dt] to storages that start at [x] meet no limit: each is zero or above the threshold of
    1e-8 mm/d (and at most 10000 mm/d), no storage is emptied and none is filled above its capacity.  Inflow that the
    limiter does not see is not counted. *)
Record unlimited (N : net) (dt : R) (e : external) (x : nat -> R) (r : nat -> R) : Prop := {
  un_rate : forall k, (k < length (n_conns N))%nat -> r k = 0 \/ PRECISION < r k <= 10000;
  un_store : forall b, (b < length (n_bricks N))%nat ->
    let level := x b + e_seen e b + (received N r b - withdrawn N r b) * dt in
    (b_allowneg (brick_at N b) = true \/ 0 <= level) /\ forall c, b_cap (brick_at N b) = Some c -> level <= c }.

(** The content reported for a level [x]. *)
Definition reported (N : net) (b : nat) (x : R) : R := if b_allowneg (brick_at N b) then x else kept x.

(** Processes that look at the contents only. *)
Definition sees_contents (q : flows) : law := fun u k => q (content_changes u) k.

(** ** The linear reservoir *)
(** One storage without inflow that empties to the outlet at the rate [a] times its content. *)
Definition reservoir : net := mkNet [mkBrick None false] [mkConn 0 ToOutlet Regular 1 false].
Definition linear_outflow (a : R) : flows := fun x _ => if Rle_dec (x 0%nat) PRECISION then 0 else a * x 0%nat.
Definition nothing_enters : external := mkExt (fun _ => 0) (fun _ => 0) (fun _ => 0).
Inductive explicit_method := Euler | Heun | RungeKutta4.
(** One step with the solver of that name, and [n] steps. *)
Definition one_step (m : explicit_method) (N : net) (dt : R) (e : external) (f : law) (s : state) : outcome state :=
  match m with Euler => euler_step N dt e f s | Heun => heun_step N dt e f f s | RungeKutta4 => rk4_step N dt e f f f f s end.
Fixpoint many_steps (n : nat) (m : explicit_method) (N : net) (dt : R) (e : external) (f : law) (s : state) : outcome state :=
  match n with O => Ok s | S j => bind (one_step m N dt e f s) (many_steps j m N dt e f) end.
(** The order of the method, and the polynomial of that degree that approximates exp (-z). *)
Definition order (m : explicit_method) : nat := match m with Euler => 1 | Heun => 2 | RungeKutta4 => 4 end.
Definition exp_poly (n : nat) (z : R) : R := Rsum (fun i => (- z) ^ i / INR (fact i)) (seq 0 (S n)).
