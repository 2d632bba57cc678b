(** Vocabulary of the routing properties, independent of the model's functions. *)
From Verif Require Import Base Routing.

Definition total (l : list R) : R := Rsum (fun x => x) l.

(** Discrete convolution: what leaves at step [k] (counted from 0) if share [nth i shares 0] of every input leaves
    [i] steps after it entered. *)
Definition convolution (shares inputs : list R) (k : nat) : R :=
  Rsum (fun i => nth i shares 0 * nth (k - i) inputs 0) (seq 0 (S k)).

(** Shares of one: non-negative and summing to one. *)
Definition shares_of_one (l : list R) : Prop := (forall x, In x l -> 0 <= x) /\ total l = 1.

(** Water still in a buffer whose first slot was released at the last step. *)
Definition in_transit (buffer : list R) : R := total (tl buffer).

(** A buffer fed with a list of inputs, oldest first. *)
Fixpoint feed (ord st : list R) (xs : list R) : outcome (list R) :=
  match xs with [] => Ok st | x :: l => bind (advance ord st x) (fun st' => feed ord st' l) end.


(** Water in the two hydrographs, and in the routing stores, of a GR4J or GR6J process. *)
Definition uh_water (u : uhs) : R := in_transit (st1 u) + in_transit (st2 u).
Definition gr4_water (g : gr4) : R := g_r g + uh_water (g_uh g).
Definition gr6_water (h : gr6) : R := h_r h + h_rexp h + uh_water (h_uh h).

(** The hydrographs are those of base time [x4]. *)
Definition uh_of (x4 : R) (u : uhs) : Prop :=
  ord1 u = ordinates (sh1 (base_time x4)) (ceil_size (base_time x4)) /\
  ord2 u = ordinates (sh2 (base_time x4)) (ceil_size (2 * base_time x4)) /\
  length (st1 u) = length (ord1 u) /\ length (st2 u) = length (ord2 u).

(** An HBV routing process in working order (as SetParameters, Reset and every step leave it). *)
Definition hbv_ok (h : hbv) : Prop :=
  length (hb_st h) = length (hb_ord h) /\ (0 < length (hb_ord h))%nat /\ shares_of_one (hb_ord h).

(** A history of (content at the end of the step, amount stored in the outlet flux). *)
Fixpoint hbv_history (h : hbv) (l : list (R * R)) : outcome hbv :=
  match l with [] => Ok h | (c, d) :: l' => bind (hbv_finalize c d h) (fun h' => hbv_history h' l') end.

(** HBV routing of a list of inflows into a storage holding [c] of a unit covering [share] of the catchment: every
    step what the process asks for leaves, and the output flux stores it times [share]
    (result: final process, final content, deliveries). *)
Fixpoint hbv_routing (share : R) (h : hbv) (c : R) (inflows : list R) : outcome (hbv * R * list R) :=
  match inflows with
  | [] => Ok (h, c, [])
  | i :: l =>
      let d := hbv_rate h i in
      bind (hbv_finalize (c + i - d) (outlet_amount share d) h) (fun h' =>
      bind (hbv_routing share h' (c + i - d) l) (fun '(h2, c2, ds) => Ok (h2, c2, d :: ds)))
  end.
