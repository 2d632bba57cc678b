(** Water containers: core/src/containers/WaterContainer.{h,cpp}. *)
From Verif Require Import Base.

(** Membership test of a connection index. *)
Definition mem (k : nat) (l : list nat) : bool := existsb (Nat.eqb k) l.

(** core/src/containers/WaterContainer.cpp:55-175 [WaterContainer::ApplyConstraints].
    [rates] is the shared vector of change rates (per day); [outs] are the indices of the rates of the
    fluxes leaving this container, [ins] those of the non-static, non-instantaneous fluxes entering it;
    [content] is GetContentWithDynamicChanges(); [inputsStatic] is the sum of the amounts of the forcing,
    static and instantaneous inputs (lines 97-105); [cap] the maximum capacity; [ov] the index of the
    rate of the linked overflow process.
    Simplification: all change-rate pointers are linked (a null pointer is represented by leaving the
    index out of [outs]/[ins]); infinite storage (line 56) is handled by the caller. *)

(** Lines 76-88: a negative outgoing rate is set to zero, a rate above 10000 throws. *)
Definition outgoing_too_high (rates : nat -> R) (outs : list nat) : bool :=
  existsb (fun k => Rltb 10000 (rates k)) outs.
Definition clamp_rates (rates : nat -> R) (l : list nat) : nat -> R :=
  fun k => if mem k l then (if Rltb (rates k) 0 then 0 else rates k) else rates k.

(** Lines 127-143: proportional limitation of the outgoing rates. *)
Definition limit_outgoing (dt content inputsStatic inputs outputs : R) (outs : list nat)
    (rates : nat -> R) : nat -> R :=
  let change := inputs - outputs in
  let diff := (content + inputsStatic + change * dt) / dt in
  fun k =>
    if mem k outs then
      if NearlyZero (rates k) EPSILON_D then rates k
      else if NearlyEqual diff change PRECISION then 0
      else rates k + diff * Rabs (rates k / outputs)
    else rates k.

(** Lines 163-172: proportional limitation of the incoming rates. *)
Definition limit_incoming (diff inputs : R) (ins : list nat) (rates : nat -> R) : nat -> R :=
  fun k =>
    if mem k ins then
      if NearlyZero (rates k) EPSILON_D then rates k
      else rates k - diff * Rabs (rates k / inputs)
    else rates k.

Definition apply_constraints (dt content inputsStatic : R) (cap : option R) (ov : option nat)
    (allowNegative : bool) (outs ins : list nat) (rates : nat -> R) : outcome (nat -> R) :=
  if outgoing_too_high rates outs then Throw else
  let r := clamp_rates (clamp_rates rates outs) ins in
  let outputs := Rsum r outs in
  let inputs := Rsum r ins in
  let change := inputs - outputs in
  let r2 :=
    if negb allowNegative && Rltb change 0 && Rltb (content + inputsStatic + change * dt) 0
    then limit_outgoing dt content inputsStatic inputs outputs outs r
    else r in
  match cap with
  | None => Ok r2
  | Some c =>
      if Rltb c (content + inputsStatic + change * dt) then
        let diff := (content + inputsStatic + change * dt - c) / dt in
        match ov with
        | Some k => Ok (upd r2 k diff)
        | None =>
            if Rltb c (content + inputsStatic) then Throw
            else Ok (limit_incoming diff inputs ins r2)
        end
      else Ok r2
  end.

(** core/src/containers/WaterContainer.cpp:196-216 [WaterContainer::Finalize]: value committed for a
    container whose content plus dynamic and static changes is [x]. *)
Definition finalize_value (allowNegative : bool) (x : R) : R :=
  if allowNegative then x
  else if NearlyZero x PRECISION then 0
  else if LessThan x 0 PRECISION then 0
  else x.

(** A container with its pending changes (WaterContainer.h:342-348). *)
Record container := mkC {
  c_content : R;
  c_dyn : R;          (* _contentChangeDynamic *)
  c_stat : R;         (* _contentChangeStatic *)
  c_init : R;         (* _initialState *)
  c_infinite : bool;
  c_allowneg : bool }.

(** WaterContainer.cpp:40-53: changes are ignored by an infinite storage. *)
Definition sub_dyn (x : R) (c : container) : container :=
  if c_infinite c then c else
  mkC (c_content c) (c_dyn c - x) (c_stat c) (c_init c) (c_infinite c) (c_allowneg c).
Definition add_dyn (x : R) (c : container) : container :=
  if c_infinite c then c else
  mkC (c_content c) (c_dyn c + x) (c_stat c) (c_init c) (c_infinite c) (c_allowneg c).
Definition add_stat (x : R) (c : container) : container :=
  if c_infinite c then c else
  mkC (c_content c) (c_dyn c) (c_stat c + x) (c_init c) (c_infinite c) (c_allowneg c).

(** WaterContainer.cpp:196-216. *)
Definition finalize (c : container) : container :=
  if c_infinite c then c else
  mkC (finalize_value (c_allowneg c) (c_content c + (c_dyn c + c_stat c))) 0 0
      (c_init c) (c_infinite c) (c_allowneg c).

(** WaterContainer.cpp:218-226 [Reset], [SaveAsInitialState]. *)
Definition reset (c : container) : container :=
  mkC (c_init c) 0 0 (c_init c) (c_infinite c) (c_allowneg c).
Definition save_initial (c : container) : container :=
  mkC (c_content c) (c_dyn c) (c_stat c) (c_content c) (c_infinite c) (c_allowneg c).

(** WaterContainer.h:208-214 [UpdateContent]: throws for an infinite storage. *)
Definition update_content (v : R) (c : container) : outcome container :=
  if c_infinite c then Throw else
  Ok (mkC v (c_dyn c) (c_stat c) (c_init c) (c_infinite c) (c_allowneg c)).

(** WaterContainer.h:151-183: the three readings of the content; [None] stands for INFINITY. *)
Definition content_with_changes (c : container) : option R :=
  if c_infinite c then None else Some (c_content c + c_dyn c + c_stat c).
Definition content_with_dynamic (c : container) : option R :=
  if c_infinite c then None else Some (c_content c + c_dyn c).
Definition content_without_changes (c : container) : option R :=
  if c_infinite c then None else Some (c_content c).
