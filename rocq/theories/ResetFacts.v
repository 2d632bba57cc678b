(** Lemmas on reset. *)
From Verif Require Import Base BaseFacts Container Lateral Reset ResetSpec.
Open Scope R_scope.

Lemma zeros_unique (a b : list R) : length a = length b -> (forall x, In x a -> x = 0) -> map (fun _ => 0) b = a.
Proof.
  revert b. induction a as [|x a IH]; intros [|y b] H Hx; cbn in *; try discriminate; [reflexivity|]. rewrite (Hx x) by auto. f_equal. apply IH; auto.
Qed.
Lemma container_restored a b : same_container a b -> container_ready a -> reset b = a.
Proof. intros (H1 & H2 & H3) (C1 & C2 & C3). destruct a, b. cbn in *. unfold reset. cbn. subst. reflexivity. Qed.
Lemma process_restored a b : same_process a b -> process_ready a -> reset_process b = a.
Proof.
  destruct a as [o m], b as [o' m']. intros (H1 & H2) (R1 & R2). cbn [pr_outputs pr_memory] in *. unfold reset_process. cbn [pr_outputs pr_memory]. f_equal.
  - apply zeros_unique; assumption.
  - destruct m, m'; cbn in *; try contradiction; try reflexivity.
    + subst; reflexivity.
    + subst; reflexivity.
    + destruct H2, R2. f_equal; apply zeros_unique; assumption.
Qed.
Lemma processes_restored a b : Forall2 same_process a b -> Forall process_ready a -> map reset_process b = a.
Proof. induction 1 as [|x y a b Hx Hl IH]; intros H; [reflexivity|]. inversion H; subst. cbn. f_equal; [apply process_restored; assumption|auto]. Qed.
Lemma brick_restored a b : same_brick a b -> brick_ready a -> not_snow a -> reset_brick b = a.
Proof.
  intros H R N. destruct H; inversion R; subst; cbn in *; try contradiction; f_equal; auto using container_restored, processes_restored.
Qed.
Lemma bricks_restored a b : Forall2 same_brick a b -> Forall brick_ready a -> Forall not_snow a -> map reset_brick b = a.
Proof. induction 1 as [|x y a b Hx Hl IH]; intros H N; [reflexivity|]. inversion H; inversion N; subst. cbn. f_equal; [apply brick_restored; assumption|auto]. Qed.
Lemma basin_restored a b : same_basin a b -> basin_ready a -> no_snowpack a -> reset_basin b = a.
Proof.
  destruct a as [x y], b as [x' y']. intros (H1 & H2) (R1 & R2) (N1 & N2). cbn [ba_bricks ba_units] in *. unfold reset_basin. cbn [ba_bricks ba_units]. f_equal.
  - apply bricks_restored; assumption.
  - clear H1 R1 N1. induction H2 as [|u v y y' Hu Hl IH]; [reflexivity|]. inversion R2; inversion N2; subst. cbn. f_equal; [apply bricks_restored; assumption|auto].
Qed.
(** Resetting a state with the same frame twice gives the same state, snowpacks included except for their processes. *)
Lemma snow_reset w s p : reset_brick (SnowBrick w s p) = SnowBrick (reset w) (reset s) p.
Proof. reflexivity. Qed.
