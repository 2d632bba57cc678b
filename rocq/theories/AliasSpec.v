(** Vocabulary of the property on process aliases: the same declaration with processes declared under another of their names. *)
From Verif Require Import Base Build.
Open Scope string_scope.

(** The names of a same process, as documented by the aliases of core/src/processes/Process.cpp:60-68; the overflow is apart. *)
Inductive same_process : string -> string -> Prop :=
| same_refl t : same_process t t
| same_percolation : same_process "outflow:percolation" "percolation:constant"
| same_ice_constant : same_process "transform:snow_ice_constant" "transformation:snow_ice_constant"
| same_ice_swat : same_process "transform:snow_ice_swat" "transformation:snow_ice_swat"
| same_sym t t' : same_process t t' -> same_process t' t.

(** The declaration with every process [p] declared with the type [rn p]. *)
Section Rename.
Variable rn : process -> string.
Definition rename_process (p : process) : process := mkPr (pr_name p) (rn p) (pr_outputs p).
Definition rename_brick (b : bset) : bset :=
  mkBs (bs_name b) (bs_type b) (bs_parent b) (bs_directly b) (bs_capacity b) (map rename_process (bs_processes b)).
Definition rename_structure (st : structure) : structure :=
  mkStr (map rename_brick (st_bricks st)) (map rename_brick (st_basin st)) (st_covers st) (st_components st) (st_splitters st).
Definition rename_unit (U : hunit) : hunit := mkUnit (un_area U) (rename_structure (un_str U)) (un_fraction U) (un_receivers U).
Definition rename (M : domain) : domain := mkDom (map rename_unit (dm_units M)) (map rename_brick (dm_basin M)).
End Rename.
