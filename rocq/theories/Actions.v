(** Model of the schedule of actions.  Sources: core/src/actions/Action.cpp, ActionsManager.cpp, ActionLandCoverChange.cpp.
    A change is any value of type [A] (unit, cover and area for ActionLandCoverChange).  An application that returns false stops the
    run with an exception (ActionsManager.cpp:98-100); only successful applications are modelled here. *)
From Verif Require Export Base.
Open Scope R_scope.

Definition insert_at {X} (i : nat) (x : X) (l : list X) : list X := firstn i l ++ x :: skipn i l.

(** Action.cpp:59-69 [GetIndexForInsertion]; also the search loop of ActionsManager.cpp:52-57. *)
Fixpoint insert_index (date : R) (l : list R) : nat :=
  match l with
  | [] => 0%nat
  | d :: l' => if Rleb date d then 0%nat else S (insert_index date l')
  end.

(** ActionLandCoverChange.cpp:8-17 [AddChange]: the parallel vectors are one list of (date, change). *)
Definition add_change {A} (x : R * A) (l : list (R * A)) : list (R * A) := insert_at (insert_index (fst x) (map fst l)) x l.
Definition build_action {A} (changes : list (R * A)) : list (R * A) := fold_left (fun l x => add_change x l) changes [].

(** ActionsManager.h:114-119: the actions, the cursor of each, the schedule (date, index of the action) and its cursor. *)
Record manager (A : Type) := mkM {
  m_actions : list (list (R * A));
  m_cursors : nat -> nat;
  m_sched : list (R * nat);
  m_cursor : nat }.
Arguments mkM {A}.
Arguments m_actions {A}.
Arguments m_cursors {A}.
Arguments m_sched {A}.
Arguments m_cursor {A}.

Definition new_manager {A} : manager A := mkM [] (fun _ => 0%nat) [] 0.

(** ActionsManager.cpp:44-63: insertion of one date; [index] is kept from one date to the next. *)
Definition schedule_one (a : nat) (st : nat * list (R * nat)) (date : R) : outcome (nat * list (R * nat)) :=
  let '(index, l) := st in
  bind (match l with
        | [] => Ok index
        | _ => match nth_error l index with
               | None => UB
               | Some x => Ok (if Rltb date (fst x) then 0%nat else index)
               end
        end) (fun index =>
  let index := (index + insert_index date (map fst (skipn index l)))%nat in
  Ok (index, insert_at index (date, a) l)).
Fixpoint schedule_dates (a : nat) (dates : list R) (st : nat * list (R * nat)) : outcome (nat * list (R * nat)) :=
  match dates with
  | [] => Ok st
  | d :: l => bind (schedule_one a st d) (schedule_dates a l)
  end.

(** ActionsManager.cpp:24-66 [AddAction] for an action with given dates. *)
Definition add_action {A} (changes : list (R * A)) (m : manager A) : outcome (manager A) :=
  let a := length (m_actions m) in
  bind (schedule_dates a (map fst changes) (0%nat, m_sched m)) (fun st =>
  Ok (mkM (m_actions m ++ [changes]) (m_cursors m) (snd st) (m_cursor m))).

(** Registration of a sequence of actions, each given by its changes in the order of the calls of AddChange. *)
Fixpoint register {A} (actions : list (list (R * A))) (m : manager A) : outcome (manager A) :=
  match actions with
  | [] => Ok m
  | x :: l => bind (add_action (build_action x) m) (register l)
  end.

(** ActionsManager.cpp:97-103: while the next entry of the schedule is due, apply the change at the cursor of its action. The log
    records the simulated date and the change with its own date. *)
Fixpoint fire {A} (date : R) (due : list (R * nat)) (m : manager A) : outcome (list (R * (R * A)) * manager A) :=
  match due with
  | [] => Ok ([], m)
  | (d, a) :: l =>
    if Rleb d date then
      match nth_error (m_actions m) a with
      | None => UB
      | Some changes =>
        match nth_error changes (m_cursors m a) with
        | None => UB
        | Some x =>
          bind (fire date l (mkM (m_actions m) (upd (m_cursors m) a (S (m_cursors m a))) (m_sched m) (S (m_cursor m)))) (fun '(log, m') =>
          Ok ((date, x) :: log, m'))
        end
      end
    else Ok ([], m)
  end.
(** ActionsManager.cpp:80-104 [DateUpdate], dated part. *)
Definition date_update {A} (date : R) (m : manager A) : outcome (list (R * (R * A)) * manager A) :=
  fire date (skipn (m_cursor m) (m_sched m)) m.
(** ModelHydro.cpp: DateUpdate is called with the date of each step. *)
Fixpoint run_dates {A} (dates : list R) (m : manager A) : outcome (list (R * (R * A)) * manager A) :=
  match dates with
  | [] => Ok ([], m)
  | d :: l => bind (date_update d m) (fun '(log, m') => bind (run_dates l m') (fun '(log', m'') => Ok (log ++ log', m'')))
  end.

(** ActionsManager.cpp:16-22 [Reset], Action.cpp:14-16. *)
Definition reset_manager {A} (m : manager A) : manager A := mkM (m_actions m) (fun _ => 0%nat) (m_sched m) 0.

(** A recurring action: Action.cpp:18-32 [AddRecursiveDate].  GlobVars.h:11. *)
Definition days_in_month : list Z := [31; 28; 31; 30; 31; 30; 31; 31; 30; 31; 30; 31]%Z.
Definition recursive_date (month day : Z) : Z * Z :=
  let m := if (month <? 1)%Z || (12 <? month)%Z then 1%Z else month in
  (m, Z.max (Z.min day (nth (Z.to_nat (m - 1)) days_in_month 0%Z)) 1%Z).
Definition build_recurring (l : list (Z * Z)) : list Z * list Z :=
  let k := map (fun '(m, d) => recursive_date m d) l in (map fst k, map snd k).
(** Action.cpp:42-57 [ApplyIfRecursive]: whether Apply is called for a date of this month and day. *)
Definition fires_on (r : list Z * list Z) (month day : Z) : bool :=
  existsb (Z.eqb month) (fst r) && existsb (Z.eqb day) (snd r).
(** ActionsManager.cpp:82-89: one test per call of DateUpdate; [days] are the (month, day) of the successive simulated dates; the
    result is the number of applications at each. *)
Definition recurring_run (r : list Z * list Z) (days : list (Z * Z)) : list nat :=
  map (fun '(m, d) => if fires_on r m d then 1%nat else 0%nat) days.
