(** Tactics to compute the model on concrete cases. *)
From Coq Require Export FunctionalExtensionality.
From Verif Require Export Base BaseFacts.

(** A finite vector of rates (or contents) as a map. *)
Definition vec (l : list R) : nat -> R := fun k => nth k l 0.


Ltac consts := unfold EPSILON_D, EPSILON_F, PRECISION in *.
Ltac num := first [lra | consts; lra | (field_simplify; consts; lra)].

(** Decide the closed comparisons of the goal. *)
Ltac rtest :=
  match goal with
  | |- context[Rltb ?a ?b] => first [ rewrite (proj2 (Rltb_true a b)) by num | rewrite (proj2 (Rltb_false a b)) by num ]
  | |- context[Rleb ?a ?b] => first [ rewrite (proj2 (Rleb_true a b)) by num | rewrite (proj2 (Rleb_false a b)) by num ]
  | |- context[Reqb ?a ?b] => first [ rewrite (proj2 (Reqb_true a b)) by num | rewrite (proj2 (Reqb_false a b)) by num ]
  | |- context[Rabs ?x] => first [ rewrite (Rabs_right x) by num | rewrite (Rabs_left x) by num ]
  end.
Ltac rtests := repeat (rtest; cbn [negb andb orb]).
Ltac rcbn := cbn -[Rltb Rleb Reqb Rabs Rplus Rmult Rminus Rdiv Rinv Ropp EPSILON_D EPSILON_F PRECISION IZR].
