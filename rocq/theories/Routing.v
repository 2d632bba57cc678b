(** Routing processes: GR unit hydrographs, GR4J and GR6J routing, HBV transformation function.
    Sources: core/src/processes/helpers/GRUnitHydrograph.h, ProcessRoutingGR4J.cpp, ProcessRoutingGR6J.cpp,
    ProcessRoutingHBV.cpp.  No proofs here.  Simplifications: reals instead of doubles; [static_cast<int>] of a
    ceiling does not overflow; the parameter pointers are set (SetParameters ran). *)
From Verif Require Import Base Container Processes.

(** [std::ceil]. *)
Definition ceilZ (x : R) : Z := (1 - up (- x))%Z.
Definition ceil_size (x : R) : nat := Z.to_nat (ceilZ x).

(** GRUnitHydrograph.h:18-26 [SH1], ProcessRoutingGR4J.cpp:205-209 [_sh1].
    [std::pow] with a positive base is [Rpower]; the base is positive under the guards. *)
Definition sh1 (x4 t : R) : R :=
  if Rleb t 0 then 0 else if Rleb x4 t then 1 else Rpower (t / x4) (5 / 2).

(** GRUnitHydrograph.h:31-42 [SH2], ProcessRoutingGR4J.cpp:211-216 [_sh2]. *)
Definition sh2 (x4 t : R) : R :=
  if Rleb t 0 then 0 else
  if Rleb (2 * x4) t then 1 else
  if Rltb t x4 then 1 / 2 * Rpower (t / x4) (5 / 2)
  else 1 - 1 / 2 * Rpower (2 - t / x4) (5 / 2).

(** The loops [for j = 1 .. n: ord[j-1] = S(j) - S(j-1)]. *)
Definition ordinates (S_curve : R -> R) (n : nat) : list R :=
  map (fun j => S_curve (INR (S j)) - S_curve (INR j)) (seq 0 n).

(** GRUnitHydrograph.h:54-56, ProcessRoutingGR4J.cpp:182-185. *)
Definition base_time (x4 : R) : R := if Rleb x4 0 then 1 / 2 else x4.

(** [std::vector::resize(n, 0.0)]. *)
Definition resize (n : nat) (l : list R) : list R := firstn n l ++ repeat 0 (n - length l).

(** The ordinates and buffers _uh1Ord, _uh2Ord, _stuh1, _stuh2. *)
Record uhs := mkUH { ord1 : list R; ord2 : list R; st1 : list R; st2 : list R }.

(** ProcessRoutingGR4J.cpp:177-203 [_recomputeUH]; ProcessRoutingGR6J.cpp:220-230 with ComputeOrdinates
    (GRUnitHydrograph.h:53-69): same ordinates, buffers resized keeping their beginning. *)
Definition recompute (x4 : R) (u : uhs) : uhs :=
  let n1 := ceil_size (base_time x4) in
  let n2 := ceil_size (2 * base_time x4) in
  mkUH (ordinates (sh1 (base_time x4)) n1) (ordinates (sh2 (base_time x4)) n2)
       (resize n1 (st1 u)) (resize n2 (st2 u)).

(** State after SetParameters on a new process (vectors initially empty), ProcessRoutingGR4J.cpp:28-34. *)
Definition fresh (x4 : R) : uhs := recompute x4 (mkUH [] [] [] []).

(** ProcessRoutingGR4J.cpp:36-45, ProcessRoutingGR6J.cpp:52-63 [Reset], for the buffers. *)
Definition reset_uh (x4 : R) (u : uhs) : uhs :=
  let v := recompute x4 u in
  mkUH (ord1 v) (ord2 v) (map (fun _ => 0) (st1 v)) (map (fun _ => 0) (st2 v)).

(** ProcessRoutingGR4J.cpp:75-79: the test made at each evaluation of the rates. *)
Definition gr4_refresh (x4 : R) (u : uhs) : uhs :=
  if Z.eqb (ceilZ x4 + 1) (Z.of_nat (length (ord1 u))) then u else recompute x4 u.
(** ProcessRoutingGR6J.cpp:109-114. *)
Definition gr6_refresh (x4 : R) (u : uhs) : uhs :=
  if Z.eqb (ceilZ (base_time x4)) (Z.of_nat (length (ord1 u))) then u else recompute x4 u.

(** ProcessRoutingGR4J.cpp:145-155, ProcessRoutingGR6J.cpp:173-187: the buffer is shifted and the input spread
    over it, in place ([st[j]] is written after [st[j+1]] was read in the previous iterations only, so the loop
    reads old values).  [back()] of an empty vector and reading beyond the ordinates are undefined.
    (GR6J skips an empty buffer; the buffers are never empty after [recompute].) *)
Definition advance (ord st : list R) (x : R) : outcome (list R) :=
  if Nat.eqb (length st) 0 then UB
  else if Nat.ltb (length ord) (length st - 1) then UB
  else if Nat.eqb (length ord) 0 then UB
  else Ok (map (fun j => nth (S j) st 0 + nth j ord 0 * x) (seq 0 (length st - 1)) ++ [last ord 0 * x]).

(** ProcessRoutingGR4J.cpp:89-94, ProcessRoutingGR6J.cpp:121-123: output after a hypothetical advance. *)
Definition peek (ord st : list R) (x : R) : R := nth 1 st 0 + nth 0 ord 0 * x.

(** *** GR4J *)
Record gr4 := mkG4 { g_uh : uhs; g_r : R }.
Record gr4_par := mkP4 { X2 : R; X3 : R; X4 : R }.

(** ProcessRoutingGR4J.cpp:97-101, 158-162. *)
Definition gr4_exchange (p : gr4_par) (r : R) : R :=
  if Rltb 0 (X3 p) then
    let rr := r / X3 p in X2 p * rr * rr * rr * sqrt rr
  else 0.
(** ProcessRoutingGR4J.cpp:105-110, 164-169: [_qr] from the filled store. *)
Definition store_release (x3 r : R) : R :=
  let rr4 := if Rltb 0 x3 then (r / x3) * (r / x3) * (r / x3) * (r / x3) else 0 in
  r * (1 - Rpower (1 + rr4) (- (1 / 4))).

(** ProcessRoutingGR4J.cpp:67-128 [GetRates]: (refreshed hydrographs, net exchange injected, rate).
    [pr] is SumIncomingFluxes(). Reading ord[0] of an empty vector would be undefined; it is never empty. *)
Definition gr4_rates (p : gr4_par) (g : gr4) (pr : R) : uhs * R * R :=
  let u := gr4_refresh (X4 p) (g_uh g) in
  let o1 := peek (ord1 u) (st1 u) (9 / 10 * pr) in
  let o2 := peek (ord2 u) (st2 u) (1 / 10 * pr) in
  let F := gr4_exchange p (g_r g) in
  let rp := Rmax 0 (g_r g + o1 + F) in
  let qr := store_release (X3 p) rp in
  let qd := Rmax 0 (o2 + F) in
  (u, (rp - (g_r g + o1)) + (qd - o2), qr + qd).

(** ProcessRoutingGR4J.cpp:130-175 [Finalize]. *)
Definition gr4_finalize (p : gr4_par) (g : gr4) (pr : R) : outcome gr4 :=
  bind (advance (ord1 (g_uh g)) (st1 (g_uh g)) (9 / 10 * pr)) (fun s1 =>
  bind (advance (ord2 (g_uh g)) (st2 (g_uh g)) (1 / 10 * pr)) (fun s2 =>
  let F := gr4_exchange p (g_r g) in
  let rp := Rmax 0 (g_r g + nth 0 s1 0 + F) in
  Ok (mkG4 (mkUH (ord1 (g_uh g)) (ord2 (g_uh g)) s1 s2) (rp - store_release (X3 p) rp)))).

(** ProcessRoutingGR4J.cpp:173-175: the logged "internal_storage". *)
Definition gr4_internal_storage (g : gr4) : R :=
  g_r g + Rsum (fun x => x) (st1 (g_uh g)) + Rsum (fun x => x) (st2 (g_uh g)).

(** One step of the uh_input brick computed directly (Processor.cpp:278-323) holding [c], with inflow [pr] in
    ordinary fluxes (their linked rates are zero, no static input, no capacity):
    UpdateContentFromInputs; GetChangeRates (Process.cpp:480-487); ApplyConstraints; ApplyChange
    (Process.cpp:495-508); Brick::Finalize (container, then process).  The net exchange is a static change
    (ProcessRoutingGR4J.cpp:117-125), which the limiter does not see.  The result is the new content, the new
    process state and the amount that left. *)
Definition gr4_step (dt : R) (p : gr4_par) (c : R) (g : gr4) (pr : R) : outcome (R * gr4 * R) :=
  let c1 := c + pr in
  let '(u, inj, rate) :=
    if LessThanOrEqual c1 0 PRECISION then (g_uh g, 0, 0) else gr4_rates p g pr in
  bind (apply_constraints dt c1 0 None None false [0%nat] [] (fun _ => rate)) (fun r =>
  let q := if Rltb (r 0%nat) 0 then 0 else r 0%nat in
  let moved := if GreaterThan q 0 PRECISION then q * dt else 0 in
  bind (gr4_finalize p (mkG4 u (g_r g)) pr) (fun g' =>
  Ok (finalize_value false (c1 + (- moved + inj * dt)), g', moved))).

(** A run: the process state and content after a list of inflows (oldest first). *)
Fixpoint gr4_run (dt : R) (p : gr4_par) (c : R) (g : gr4) (prs : list R) : outcome (R * gr4) :=
  match prs with
  | [] => Ok (c, g)
  | pr :: l => bind (gr4_step dt p c g pr) (fun '(c', g', _) => gr4_run dt p c' g' l)
  end.

(** *** GR6J *)
Record gr6 := mkG6 { h_uh : uhs; h_r : R; h_rexp : R }.
Record gr6_par := mkP6 { Y2 : R; Y3 : R; Y4 : R; Y5 : R; Y6 : R }.

(** ProcessRoutingGR6J.cpp:126-129, 190-193. *)
Definition gr6_exchange (p : gr6_par) (r : R) : R :=
  if Rltb 0 (Y3 p) then Y2 p * (r / Y3 p - Y5 p) else 0.

(** ProcessRoutingGR6J.cpp:98-153 [GetRates]: (refreshed hydrographs, rate).  [GetChangeRates] (lines 91-96)
    skips the test for an empty container. [gr6j_exponential_outflow]: Processes.v. *)
Definition gr6_rates (p : gr6_par) (h : gr6) (pr : R) : uhs * R :=
  let u := gr6_refresh (Y4 p) (h_uh h) in
  let o1 := peek (ord1 u) (st1 u) (9 / 10 * pr) in
  let o2 := peek (ord2 u) (st2 u) (1 / 10 * pr) in
  let F := gr6_exchange p (h_r h) in
  let rp := Rmax 0 (h_r h + 3 / 5 * o1 + F) in
  let xp := h_rexp h + 2 / 5 * o1 + F in
  (u, Rmax 0 (store_release (Y3 p) rp + gr6j_exponential_outflow xp (Y6 p) + Rmax 0 (o2 + F))).

(** ProcessRoutingGR6J.cpp:155-218 [Finalize]. *)
Definition gr6_finalize (p : gr6_par) (h : gr6) (pr : R) : outcome gr6 :=
  bind (advance (ord1 (h_uh h)) (st1 (h_uh h)) (9 / 10 * pr)) (fun s1 =>
  bind (advance (ord2 (h_uh h)) (st2 (h_uh h)) (1 / 10 * pr)) (fun s2 =>
  let F := gr6_exchange p (h_r h) in
  let rp := Rmax 0 (h_r h + 3 / 5 * nth 0 s1 0 + F) in
  let xp := h_rexp h + 2 / 5 * nth 0 s1 0 + F in
  Ok (mkG6 (mkUH (ord1 (h_uh h)) (ord2 (h_uh h)) s1 s2)
           (rp - store_release (Y3 p) rp) (xp - gr6j_exponential_outflow xp (Y6 p))))).

(** As [gr4_step]; the container accepts negative content (ProcessRoutingGR6J.cpp:24-28). *)
Definition gr6_step (dt : R) (p : gr6_par) (c : R) (h : gr6) (pr : R) : outcome (R * gr6 * R) :=
  let c1 := c + pr in
  let '(u, rate) := gr6_rates p h pr in
  bind (apply_constraints dt c1 0 None None true [0%nat] [] (fun _ => rate)) (fun r =>
  let q := if Rltb (r 0%nat) 0 then 0 else r 0%nat in
  let moved := if GreaterThan q 0 PRECISION then q * dt else 0 in
  bind (gr6_finalize p (mkG6 u (h_r h) (h_rexp h)) pr) (fun h' =>
  Ok (finalize_value true (c1 - moved), h', moved))).

Fixpoint gr6_run (dt : R) (p : gr6_par) (c : R) (h : gr6) (prs : list R) : outcome (R * gr6) :=
  match prs with
  | [] => Ok (c, h)
  | pr :: l => bind (gr6_step dt p c h pr) (fun '(c', h', _) => gr6_run dt p c' h' l)
  end.

(** *** HBV *)
(** ProcessRoutingHBV.cpp:130-138 [_cumulativeWeight]. *)
Definition cumulative_weight (maxbas t : R) : R :=
  if Rleb t 0 then 0 else if Rleb maxbas t then 1 else
  let ratio := t / maxbas in
  if Rleb ratio (1 / 2) then 2 * ratio * ratio else 1 - 2 * (1 - ratio) * (1 - ratio).

Record hbv := mkH { hb_ord : list R; hb_st : list R; hb_prev : R; hb_last : R (* _lastMaxbas *) }.

(** ProcessRoutingHBV.cpp:108-128 [_recomputeUH]. *)
Definition hbv_base (maxbas : R) : R := if Rltb maxbas 1 then 1 else maxbas.
Definition hbv_recompute (maxbas : R) (h : hbv) : hbv :=
  let n := ceil_size (hbv_base maxbas) in
  mkH (ordinates (cumulative_weight (hbv_base maxbas)) n) (resize n (hb_st h)) (hb_prev h) maxbas.

(** ProcessRoutingHBV.cpp:9-14, 35-39: a new process after SetParameters. *)
Definition hbv_fresh (maxbas : R) : hbv := hbv_recompute maxbas (mkH [] [] 0 0).

(** ProcessRoutingHBV.cpp:41-47 [Reset]. *)
Definition hbv_reset (maxbas : R) (h : hbv) : hbv :=
  let v := hbv_recompute maxbas h in
  mkH (hb_ord v) (map (fun _ => 0) (hb_st v)) 0 (hb_last v).

(** ProcessRoutingHBV.cpp:60-75 [GetRates]; [inflow] is SumIncomingFluxes() at the time of the evaluation. *)
Definition hbv_refresh (maxbas : R) (h : hbv) : hbv :=
  if Reqb maxbas (hb_last h) then h else hbv_recompute maxbas h.
Definition hbv_rate (h : hbv) (inflow : R) : R := Rmax 0 (nth 0 (hb_st h) 0) + nth 0 (hb_ord h) 0 * inflow.

(** ProcessRoutingHBV.cpp:77-106 [Finalize]: [delivered] is the amount stored in the output flux, [content] the
    committed content of the container. *)
Definition add_head (x : R) (l : list R) : list R :=
  match l with [] => [] | a :: r => (a + x) :: r end.
Definition hbv_schedule (ord st : list R) (inflow delivered : R) : outcome (list R) :=
  if Nat.eqb (length st) 0 || negb (Nat.eqb (length ord) (length st)) then UB else
  let carry := nth 0 st 0 + nth 0 ord 0 * inflow - delivered in
  Ok (add_head carry
       (map (fun j => nth (S j) st 0 + nth (S j) ord 0 * inflow) (seq 0 (length st - 1)) ++ [0])).
Definition hbv_finalize (content delivered : R) (h : hbv) : outcome hbv :=
  bind (hbv_schedule (hb_ord h) (hb_st h) (content - hb_prev h + delivered) delivered) (fun st =>
  Ok (mkH (hb_ord h) st content (hb_last h))).

(** Flux.cpp:20-26: the amount stored in the flux to the outlet is the amount released times the share of the
    unit in the catchment area (ModelBuilder.cpp:471), if smaller than one. *)
Definition outlet_amount (share x : R) : R := if Rltb share 1 then x * share else x.
