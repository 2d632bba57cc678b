(** Model of the search in arrays.  Sources: core/src/base/Utils.cpp:130-209, core/src/base/Enums.h:9-10. *)
From Verif Require Export Base.
Open Scope R_scope.

(** std::lower_bound (not in /repo), as implemented by libstdc++ and libc++: halving the range; [before x] tells that the element x is placed
    before the value.  [fuel] bounds the number of halvings (the length is enough). *)
Fixpoint lower_bound (fuel : nat) (before : R -> bool) (l : list R) (first len : nat) : nat :=
  match fuel with
  | O => first
  | S f =>
    if Nat.eqb len 0 then first
    else let half := Nat.div2 len in
         if before (nth (first + half) l 0) then lower_bound f before l (first + half + 1) (len - half - 1)
         else lower_bound f before l first half
  end.

Inductive found := Found (i : nat) | NotFound | OutOfRange.

(** Utils.cpp:142-209 [FindT] on the array [l]; an empty array is outside its preconditions (the pointers are those of front() and back()). *)
Definition find_value (l : list R) (value tol : R) : outcome found :=
  match l with
  | [] => UB
  | [x] => Ok (if NearlyEqual value x tol then Found 0 else NotFound)
  | x :: _ =>
    let last := nth (length l - 1) l 0 in
    let ascending := Rltb x last in
    let it := lower_bound (length l) (fun a => if ascending then Rltb a value else Rltb value a) l 0 (length l) in
    Ok (if (it <? length l)%nat && NearlyEqual value (nth it l 0) tol then Found it
        else if (0 <? it)%nat && NearlyEqual value (nth (it - 1) l 0) tol then Found (it - 1)
        else if ascending then (if Rltb value x || Rltb last value then OutOfRange else NotFound)
        else (if Rltb x value || Rltb value last then OutOfRange else NotFound))
  end.
