(** Tactics to compute the network model on concrete cases. *)
From Verif Require Export WitnessTools Container Network NetworkSpec NetworkFacts.

Ltac indices n k :=
  lazymatch n with
  | O => idtac
  | S ?m => destruct k as [|k]; [rcbn; rtests; try reflexivity; try num|indices m k]
  end.
Ltac by_index n :=
  let k := fresh "k" in
  extensionality k; indices n k; rcbn; try (destruct k; rcbn; rtests; reflexivity).

(** [null_overflow N (evaluate N f s) = vec l] with [n] connections. *)
Ltac eval_rates n :=
  unfold null_overflow, evaluate, content_changes, LessThanOrEqual; by_index n.
(** [constrain_brick N dt e s b (vec l) = Ok (vec l')]. *)
Ltac eval_constrain n :=
  unfold constrain_brick, apply_constraints; rcbn; unfold clamp_rates, inputs_static; rcbn; rtests;
  try (f_equal; unfold limit_outgoing, limit_incoming, NearlyZero, NearlyEqual, upd; by_index n).
(** A committed content, from the effect of [apply_rates]. *)
Lemma content_after N dt e r s b : well_formed N -> In b (brick_ids N) ->
  s_content (finalize_step N (apply_rates N dt e r s)) b =
  finalize_value (b_allowneg (brick_at N b))
    (s_content s b
     + (s_dyn s b + (e_seen e b + e_hidden e b + Rsum (early N dt r s b) (noninst N b)
                     - Rsum (applied dt r) (outs N b))
        + (s_stat s b + Rsum (delivered N dt r) (inst N b)))).
Proof.
  intros Hwf Hb. destruct (apply_rates_effect N dt e r s Hwf) as (H1 & H2 & H3 & _).
  cbn [finalize_step s_content]. rewrite H1, H2, H3 by exact Hb. reflexivity.
Qed.
Ltac rdecs := repeat match goal with
  | |- context[Rlt_dec ?a ?b] => destruct (Rlt_dec a b); [try (exfalso; num)|try (exfalso; num)]
  | |- context[Rle_dec ?a ?b] => destruct (Rle_dec a b); [try (exfalso; num)|try (exfalso; num)]
  end.
Ltac well_formed_tac :=
  let c := fresh in let H := fresh in let b := fresh in let E := fresh in
  intros c H; cbn in H;
  repeat (destruct H as [<-|H]; [cbn; split; [lia|intros b E; try discriminate; injection E as <-; lia]|]);
  destruct H.
Ltac eval_content :=
  rewrite content_after by (first [well_formed_tac | cbn; tauto]);
  unfold early, delivered, applied, weighted; rcbn; rdecs; rtests;
  unfold finalize_value, NearlyZero, LessThan; rcbn; rtests; try num.

Lemma enforce_stop n N dt e s r r' :
  sweep N dt e s (brick_ids N) r = Ok r' -> stable N r r' = true -> enforce_n (S n) N dt e s r = Ok r'.
Proof. intros H1 H2. cbn [enforce_n]. rewrite H1. cbn [bind]. rewrite H2. reflexivity. Qed.
Lemma enforce_go n N dt e s r r' :
  sweep N dt e s (brick_ids N) r = Ok r' -> stable N r r' = false ->
  enforce_n (S n) N dt e s r = enforce_n n N dt e s r'.
Proof. intros H1 H2. cbn [enforce_n]. rewrite H1. cbn [bind]. rewrite H2. reflexivity. Qed.
Lemma sweep_cons N dt e s b l r r' :
  constrain_brick N dt e s b r = Ok r' -> sweep N dt e s (b :: l) r = sweep N dt e s l r'.
Proof. intros H. cbn [sweep]. rewrite H. reflexivity. Qed.
Ltac eval_stable := unfold stable; rcbn; rtests; reflexivity.
