(** Lemmas on the search. *)
From Coq Require Import Sorted.
From Verif Require Import Base BaseFacts Search.
Open Scope R_scope.

Lemma div2_lt n : (0 < n)%nat -> (Nat.div2 n < n)%nat.
Proof. intros H. apply Nat.lt_div2. exact H. Qed.
(** On a partitioned array, the result separates the elements placed before from the others. *)
Lemma lower_bound_spec before l : forall fuel first len, (len <= fuel)%nat -> (first + len <= length l)%nat ->
  (forall i j, (i <= j < length l)%nat -> before (nth j l 0) = true -> before (nth i l 0) = true) ->
  (forall i, (i < first)%nat -> before (nth i l 0) = true) -> (forall i, (first + len <= i < length l)%nat -> before (nth i l 0) = false) ->
  let k := lower_bound fuel before l first len in
  (k <= length l)%nat /\ (forall i, (i < k)%nat -> before (nth i l 0) = true) /\ (forall i, (k <= i < length l)%nat -> before (nth i l 0) = false).
Proof.
  induction fuel as [|fuel IH]; intros first len Hf Hl Hp H1 H2; cbn [lower_bound].
  - assert (len = 0%nat) by lia. subst len. cbv zeta. split; [lia|]. split; [exact H1|]. intros i Hi. apply H2. lia.
  - destruct (Nat.eqb_spec len 0) as [->|Hn].
    + cbv zeta. split; [lia|]. split; [exact H1|]. intros i Hi. apply H2. lia.
    + set (half := Nat.div2 len). assert (Hh : (half < len)%nat) by (apply div2_lt; lia). cbv zeta.
      destruct (before (nth (first + half) l 0)) eqn:E.
      * apply IH; [lia|lia|exact Hp| |intros i Hi; apply H2; lia]. intros i Hi. apply (Hp i (first + half)%nat); [lia|exact E].
      * apply IH; [lia|lia|exact Hp|exact H1|]. intros i Hi. destruct (before (nth i l 0)) eqn:Ei; [|reflexivity].
        rewrite (Hp (first + half)%nat i) in E; [discriminate|lia|exact Ei].
Qed.

Lemma sorted_nth (P : R -> R -> Prop) l : StronglySorted P l -> forall i j, (i < j < length l)%nat -> P (nth i l 0) (nth j l 0).
Proof.
  induction 1 as [|a l Hs IH Hf]; intros i j Hij; cbn [length] in Hij; [lia|]. destruct j as [|j]; [lia|]. destruct i as [|i]; cbn [nth].
  - rewrite Forall_forall in Hf. apply Hf. apply nth_In. lia.
  - apply IH. lia.
Qed.

Lemma near_spec v x tol : NearlyEqual v x tol = true <-> Rabs (v - x) <= tol.
Proof. unfold NearlyEqual. apply Rleb_true. Qed.
Lemma near_false v x tol : NearlyEqual v x tol = false <-> ~ Rabs (v - x) <= tol.
Proof. rewrite <- near_spec. destruct (NearlyEqual v x tol); split; congruence. Qed.

(** The unfolded search for two elements or more. *)
Lemma find_long l v tol : (2 <= length l)%nat -> let first := nth 0 l 0 in let last := nth (length l - 1) l 0 in let ascending := Rltb first last in
  let it := lower_bound (length l) (fun a => if ascending then Rltb a v else Rltb v a) l 0 (length l) in
  find_value l v tol = Ok (if (it <? length l)%nat && NearlyEqual v (nth it l 0) tol then Found it
        else if (0 <? it)%nat && NearlyEqual v (nth (it - 1) l 0) tol then Found (it - 1)
        else if ascending then (if Rltb v first || Rltb last v then OutOfRange else NotFound)
        else (if Rltb first v || Rltb v last then OutOfRange else NotFound)).
Proof. intros H. destruct l as [|x [|y l]]; cbn [length] in H; try lia. reflexivity. Qed.

Lemma lower_bound_le before l : forall fuel first len, (lower_bound fuel before l first len <= first + len)%nat.
Proof.
  induction fuel as [|fuel IH]; intros first len; cbn [lower_bound]; [lia|]. destruct (Nat.eqb_spec len 0) as [->|Hn]; [lia|].
  set (half := Nat.div2 len). assert (Hh : (half < len)%nat) by (apply div2_lt; lia). cbv zeta. destruct (before _).
  - specialize (IH (first + half + 1)%nat (len - half - 1)%nat). lia.
  - specialize (IH first half). lia.
Qed.
Lemma find_sound l v tol i : find_value l v tol = Ok (Found i) -> exists x, nth_error l i = Some x /\ Rabs (v - x) <= tol.
Proof.
  destruct l as [|x [|y l]]; [discriminate| |].
  - cbn [find_value]. destruct (NearlyEqual v x tol) eqn:E; [|discriminate]. intros [= <-]. exists x. split; [reflexivity|]. apply near_spec. exact E.
  - rewrite find_long by (cbn; lia). cbv zeta. set (l0 := x :: y :: l) in *. set (it := lower_bound _ _ l0 0 _).
    assert (Hle : (it <= length l0)%nat) by (pose proof (lower_bound_le (fun a => if Rltb (nth 0 l0 0) (nth (length l0 - 1) l0 0) then Rltb a v else Rltb v a) l0 (length l0) 0 (length l0)); unfold it; lia).
    clearbody it. assert (Hpos : (0 < length l0)%nat) by (cbn; lia). clearbody l0.
    assert (G : forall k, NearlyEqual v (nth k l0 0) tol = true -> (k < length l0)%nat -> exists z, nth_error l0 k = Some z /\ Rabs (v - z) <= tol).
    { intros k E Hk. exists (nth k l0 0). split; [apply nth_error_nth'; exact Hk|apply near_spec; exact E]. }
    destruct (Nat.ltb_spec it (length l0)) as [Hi|Hi]; cbn [andb].
    + destruct (NearlyEqual v (nth it l0 0) tol) eqn:E; [intros [= <-]; apply G; assumption|].
      destruct (Nat.ltb_spec 0 it); cbn [andb]; [|destruct (Rltb (nth 0 l0 0) _), (Rltb _ _ || Rltb _ _); discriminate].
      destruct (NearlyEqual v (nth (it - 1) l0 0) tol) eqn:E2; [intros [= <-]; apply G; [assumption|lia]|].
      destruct (Rltb (nth 0 l0 0) _), (Rltb _ _ || Rltb _ _); discriminate.
    + destruct (Nat.ltb_spec 0 it); cbn [andb]; [|lia].
      destruct (NearlyEqual v (nth (it - 1) l0 0) tol) eqn:E2; [intros [= <-]; apply G; [assumption|lia]|destruct (Rltb (nth 0 l0 0) _), (Rltb _ _ || Rltb _ _); discriminate].
Qed.

(** Sorted arrays: what is reported when nothing is found. *)
Lemma find_sorted l v tol : l <> [] -> StronglySorted Rle l \/ StronglySorted Rge l ->
  exists r, find_value l v tol = Ok r /\
    match r with
    | Found i => exists x, nth_error l i = Some x /\ Rabs (v - x) <= tol
    | NotFound => (forall x, In x l -> ~ Rabs (v - x) <= tol) /\ (length l = 1%nat \/ exists a b, In a l /\ In b l /\ a <= v <= b)
    | OutOfRange => (forall x, In x l -> ~ Rabs (v - x) <= tol) /\ ((forall x, In x l -> v < x) \/ (forall x, In x l -> x < v))
    end.
Proof.
  intros Hn Hs. destruct l as [|x0 [|y0 l0]]; [congruence| |].
  { cbn [find_value]. eexists. split; [reflexivity|]. destruct (NearlyEqual v x0 tol) eqn:E.
    - exists x0. split; [reflexivity|]. apply near_spec. exact E.
    - apply near_false in E. split; [intros x [<-|[]]; exact E|left; reflexivity]. }
  remember (x0 :: y0 :: l0) as l eqn:El. assert (Hlen : (2 <= length l)%nat) by (rewrite El; cbn; lia). clear El x0 y0 l0.
  pose proof (find_long l v tol Hlen) as F. cbv zeta in F. destruct (find_value l v tol) as [r| |] eqn:Ef; try discriminate. exists r. split; [reflexivity|].
  destruct r as [i| |]; [apply (find_sound l v tol i Ef)| |].
  all: set (first := nth 0 l 0) in *; set (last := nth (length l - 1) l 0) in *.
  all: assert (Asc : Rltb first last = true -> forall i j, (i <= j < length l)%nat -> nth i l 0 <= nth j l 0).
  1,3: intros Ha i j Hij; destruct (Nat.eq_dec i j) as [->|Hne]; [lra|]; destruct Hs as [Hs|Hs]; [apply (sorted_nth Rle); [exact Hs|lia]|];
    exfalso; apply Rltb_true in Ha; pose proof (sorted_nth Rge l Hs 0 (length l - 1) ltac:(lia)); unfold first, last in *; lra.
  all: assert (Desc : Rltb first last = false -> forall i j, (i <= j < length l)%nat -> nth j l 0 <= nth i l 0).
  1,3: intros Ha i j Hij; destruct (Nat.eq_dec i j) as [->|Hne]; [lra|]; destruct Hs as [Hs|Hs]; [|apply Rge_le; apply (sorted_nth Rge); [exact Hs|lia]];
    apply Rltb_false in Ha; unfold first, last in *;
    assert (nth 0 l 0 <= nth i l 0) by (destruct (Nat.eq_dec 0 i) as [<-|]; [lra|apply (sorted_nth Rle); [exact Hs|lia]]);
    assert (nth j l 0 <= nth (length l - 1) l 0) by (destruct (Nat.eq_dec j (length l - 1)) as [->|]; [lra|apply (sorted_nth Rle); [exact Hs|lia]]);
    pose proof (sorted_nth Rle l Hs i j ltac:(lia)); lra.
  all: assert (LB : let it := lower_bound (length l) (fun a => if Rltb first last then Rltb a v else Rltb v a) l 0 (length l) in
    (it <= length l)%nat /\ (forall i, (i < it)%nat -> (if Rltb first last then Rltb (nth i l 0) v else Rltb v (nth i l 0)) = true) /\
    (forall i, (it <= i < length l)%nat -> (if Rltb first last then Rltb (nth i l 0) v else Rltb v (nth i l 0)) = false)).
  1,3: apply lower_bound_spec; [lia|lia| |lia|lia]; intros i j Hij; destruct (Rltb first last) eqn:Ea;
    [specialize (Asc eq_refl i j Hij); rewrite !Rltb_true; lra|specialize (Desc eq_refl i j Hij); rewrite !Rltb_true; lra].
  all: cbv zeta in LB; set (it := lower_bound (length l) _ l 0 (length l)) in *; clearbody it; destruct LB as (L0 & L1 & L2).
  all: assert (In0 : In first l) by (apply nth_In; lia); assert (In1 : In last l) by (apply nth_In; lia).
  all: assert (None : forall x, In x l -> ~ Rabs (v - x) <= tol).
  1,3: intros x Hx Hab; destruct (In_nth l x 0 Hx) as (k & Hk & Ek);
    assert (N1 : (it < length l)%nat -> ~ Rabs (v - nth it l 0) <= tol) by
      (intros Hi; apply near_false; destruct (NearlyEqual v (nth it l 0) tol) eqn:E; [|reflexivity]; rewrite (proj2 (Nat.ltb_lt it (length l)) Hi) in F; discriminate F);
    assert (N2 : (0 < it)%nat -> ~ Rabs (v - nth (it - 1) l 0) <= tol) by
      (intros Hi; apply near_false; destruct (NearlyEqual v (nth (it - 1) l 0) tol) eqn:E; [|reflexivity]; rewrite (proj2 (Nat.ltb_lt 0 it) Hi) in F;
       destruct ((it <? length l)%nat && NearlyEqual v (nth it l 0) tol); discriminate F);
    destruct (Nat.lt_ge_cases k it) as [Hki|Hki];
    [ specialize (N2 ltac:(lia)); pose proof (L1 k Hki) as A1; pose proof (L1 (it - 1)%nat ltac:(lia)) as A2; apply N2; eapply Rle_trans; [|exact Hab]; rewrite <- Ek;
      destruct (Rltb first last) eqn:Ea; apply Rltb_true in A1; apply Rltb_true in A2;
      [ specialize (Asc eq_refl k (it - 1)%nat ltac:(lia)); rewrite !Rabs_right by lra; lra
      | specialize (Desc eq_refl k (it - 1)%nat ltac:(lia)); rewrite !Rabs_left by lra; lra ]
    | specialize (N1 ltac:(lia)); pose proof (L2 k ltac:(lia)) as A1; pose proof (L2 it ltac:(lia)) as A2; apply N1; eapply Rle_trans; [|exact Hab]; rewrite <- Ek;
      destruct (Rltb first last) eqn:Ea; apply Rltb_false in A1; apply Rltb_false in A2;
      [ specialize (Asc eq_refl it k ltac:(lia)); rewrite !Rabs_left1 by lra; lra
      | specialize (Desc eq_refl it k ltac:(lia)); rewrite !Rabs_right by lra; lra ] ].
  all: split; [exact None|].
  all: destruct ((it <? length l)%nat && NearlyEqual v (nth it l 0) tol); [discriminate F|]; destruct ((0 <? it)%nat && NearlyEqual v (nth (it - 1) l 0) tol); [discriminate F|].
  - right. destruct (Rltb first last) eqn:Ea.
    + destruct (Rltb v first || Rltb last v) eqn:Eo; [discriminate F|]. apply orb_false_iff in Eo. rewrite !Rltb_false in Eo. exists first, last. repeat split; tauto.
    + destruct (Rltb first v || Rltb v last) eqn:Eo; [discriminate F|]. apply orb_false_iff in Eo. rewrite !Rltb_false in Eo. exists last, first. repeat split; tauto.
  - destruct (Rltb first last) eqn:Ea.
    + destruct (Rltb v first || Rltb last v) eqn:Eo; [|discriminate F]. apply orb_true_iff in Eo. rewrite !Rltb_true in Eo. destruct Eo as [Eo|Eo]; [left|right]; intros x Hx; destruct (In_nth l x 0 Hx) as (k & Hk & <-).
      * specialize (Asc eq_refl 0%nat k ltac:(lia)). unfold first in Eo. lra.
      * specialize (Asc eq_refl k (length l - 1)%nat ltac:(lia)). unfold last in Eo. lra.
    + destruct (Rltb first v || Rltb v last) eqn:Eo; [|discriminate F]. apply orb_true_iff in Eo. rewrite !Rltb_true in Eo. destruct Eo as [Eo|Eo]; [right|left]; intros x Hx; destruct (In_nth l x 0 Hx) as (k & Hk & <-).
      * specialize (Desc eq_refl 0%nat k ltac:(lia)). unfold first in Eo. lra.
      * specialize (Desc eq_refl k (length l - 1)%nat ltac:(lia)). unfold last in Eo. lra.
Qed.
