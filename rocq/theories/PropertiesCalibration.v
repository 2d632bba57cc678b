(** C80: constraints, ranges and random values of parameter sets.  C81: calibration. *)
From Coq Require Import Rpower Ranalysis4.
From Verif Require Import BaseFacts WitnessTools ParamSetSpec ParamSetFacts ParamSetRange ParamSetUse ParamSetDraws ParamSetSearch PropertiesParamSet.
Open Scope R_scope.

(** *** C80 *)
(** The constraints are satisfied exactly when each of them holds for the values. *)
Theorem c80_constraints s : constraints_apply s -> exists r, constraints_satisfied s = Ok r /\ (r = true <-> constraints_met s).
Proof. intro H. exact (constraints_hold_iff s (ps_constraints s) H). Qed.
Example c80_constraints_case : constraints_apply (set_of (Some (PNum 8)) (Some (PNum 3)) None) /\ ~ constraints_met (set_of (Some (PNum 6)) (Some (PNum 6)) None).
Proof.
  split.
  - intros a o b [E|[]] _ _. injection E as <- <- <-. split; [exists 3, 1%nat|exists 8, 0%nat]; split; reflexivity.
  - intro H. specialize (H "a_snow"%string "<"%string "a_ice"%string Rlt 6 6). assert (6 < 6); [|lra]. apply H; [left; reflexivity|reflexivity| |]; [exists 1%nat|exists 0%nat]; split; reflexivity.
Qed.
(** An operator that is not one of the eight is accepted and never checked. *)
Theorem c80_operator_refuted : exists s, ps_constraints s = [("a_snow", "==", "a_ice")%string] /\ valued s "a_snow" 3 /\ valued s "a_ice" 8 /\ constraints_satisfied s = Ok true.
Proof.
  exists (define_constraint (mkPS [p_ice (Some (PNum 8)); p_snow (Some (PNum 3))] []) ("a_snow", "==", "a_ice")%string).
  split; [reflexivity|]. split; [exists 1%nat; split; reflexivity|]. split; [exists 0%nat; split; reflexivity|]. reflexivity.
Qed.
(** A constraint on a parameter without value raises. *)
Theorem c80_undefined_refuted : exists s, history s /\ constraints_satisfied s = Throw.
Proof. exists (set_of None None (Some (PNum 1))). split; [exact c79_case|reflexivity]. Qed.
(** A constraint is there until it is removed; removing it takes away its first occurrence and nothing else, and nothing if it is not there. *)
Theorem c80_removed s c : In c (ps_constraints (define_constraint s c)) /\ (~ In c (ps_constraints s) -> remove_constraint (define_constraint s c) c = s) /\
  (~ In c (ps_constraints s) -> remove_constraint s c = s) /\
  forall l1 l2, ps_constraints s = l1 ++ c :: l2 -> ~ In c l1 -> ps_constraints (remove_constraint s c) = l1 ++ l2 /\ ps_params (remove_constraint s c) = ps_params s.
Proof.
  assert (R : forall c0 d, constraint_eqb c0 d = true <-> c0 = d).
  { intros ((a, o), b) ((a', o'), b'). unfold constraint_eqb. rewrite !andb_true_iff, !String.eqb_eq. split; [intros ((-> & ->) & ->); reflexivity|intros [= -> -> ->]; auto]. }
  assert (D : forall l2 l1, ~ In c l1 -> drop_first (l1 ++ c :: l2) c = l1 ++ l2).
  { intro l2. induction l1 as [|d l1 IH]; intro H; cbn [app drop_first].
    - rewrite (proj2 (R c c) eq_refl). reflexivity.
    - destruct (constraint_eqb c d) eqn:E; [apply R in E; subst d; elim H; left; reflexivity|]. rewrite IH; [reflexivity|]. intro K. apply H. right. exact K. }
  assert (N : forall l, ~ In c l -> drop_first l c = l).
  { induction l as [|d l IH]; intro H; cbn [drop_first]; [reflexivity|]. destruct (constraint_eqb c d) eqn:E; [apply R in E; subst d; elim H; left; reflexivity|]. rewrite IH; [reflexivity|]. intro K. apply H. right. exact K. }
  split; [apply in_or_app; right; left; reflexivity|]. split; [|split].
  - intro H. unfold remove_constraint, define_constraint. cbn [ps_params ps_constraints]. destruct s as [ps cs]. cbn [ps_params ps_constraints] in *. rewrite D, app_nil_r by exact H. reflexivity.
  - intro H. unfold remove_constraint. rewrite (N _ H). destruct s; reflexivity.
  - intros l1 l2 E H. unfold remove_constraint. cbn [ps_params ps_constraints]. rewrite E, D by exact H. auto.
Qed.
(** The ranges are satisfied exactly when each parameter has a value and it is in its range. *)
Theorem c80_ranges s : (forall p, In p (ps_params s) -> right_kind p) -> exists r, range_satisfied s = Ok r /\ (r = true <-> in_ranges s).
Proof. intro H. exact (rows_in_range_iff (ps_params s) H). Qed.
(** Random values: on success the named parameters have values in their ranges, the others are as before, and the constraints hold. *)
Theorem c80_random u s keys k s' k' : (forall n, 0 <= u n <= 1) -> set_random_values s keys u k = Ok (s', k') ->
  constraints_met s' /\ parameters s' = parameters s /\ ps_constraints s' = ps_constraints s /\
  forall i, (i < parameters s)%nat -> same_definition (row s i) (row s' i) /\
    ((forall key, In key keys -> param_index s key <> Some i) -> row s' i = row s i) /\
    forall key, In key keys -> param_index s key = Some i -> range_open (row s i) -> exists v, pa_value (row s' i) = Some v /\ fits (row s i) v.
Proof.
  intros Hu E. destruct (draw_until_spec u Hu keys _ _ _ _ _ E) as ((A & B & C) & D). split; [apply constraints_hold_true; exact D|]. split; [exact A|]. split; [exact B|exact C].
Qed.
(** If it gives up, then the first 1001 draws all violate the constraints. *)
Theorem c80_given_up u s keys k : number_keys s keys -> constrained_numbers s keys -> set_random_values s keys u k = Throw ->
  forall n, (n < 1001)%nat -> exists s', drawn s keys (fun j => u (k + n * List.length keys + j)%nat) s' /\ ~ constraints_met s'.
Proof. intros A B C n Hn. unfold set_random_values in C. apply (draw_until_fails u keys _ s k A B C). lia. Qed.
Lemma case_keys a b : number_keys (set_of a b (Some (PNum 1))) ["a_ice"; "a_snow"]%string /\ constrained_numbers (set_of a b (Some (PNum 1))) ["a_ice"; "a_snow"]%string.
Proof.
  split.
  - intros key [<-|[<-|[]]]; [exists 0%nat, 5, 20|exists 1%nat, 2, 12]; (split; [reflexivity|split; reflexivity]).
  - intros x o y [E|[]] c i Hc Ic. injection E as <- <- <-. left. destruct Hc as [-> | ->]; vm_compute in Ic; injection Ic as <-; [exists "a_snow"%string|exists "a_ice"%string]; (split; [cbn; tauto|reflexivity]).
Qed.
Lemma random_step s keys u k : set_random_values s keys u k =
  bind (draw_all s keys u k) (fun q => bind (constraints_satisfied (fst q)) (fun ok => if ok then Ok q else draw_until 1000 (fst q) keys u (snd q))).
Proof. unfold set_random_values. match goal with |- draw_until ?n _ _ _ _ = _ => change n with (S 1000) end. cbn [draw_until]. reflexivity. Qed.
Example c80_random_case : exists s s' k', history s /\ set_random_values s ["a_ice"; "a_snow"]%string (fun n => 1/2) 0 = Ok (s', k') /\ valued s' "a_ice" (25/2) /\ valued s' "a_snow" 7.
Proof.
  exists (set_of None None (Some (PNum 1))). 
  destruct (case_keys None None) as (Nk & Cn). destruct (draw_all_numbers (fun _ => 1/2) _ _ 0 Nk) as (s' & E & D). pose proof (drawn_applies _ _ _ _ Nk Cn D) as Ca. pose proof (drawn_names _ _ _ _ D) as Nn.
  assert (Vi : valued s' "a_ice" (25/2)).
  { exists 0%nat. rewrite (same_names_index _ _ _ Nn). split; [reflexivity|]. destruct D as (_ & _ & D). destruct (D 0%nat) as (_ & _ & F); [cbn; lia|]. rewrite (F 0%nat "a_ice"%string 5 20); [do 2 f_equal; lra|reflexivity|reflexivity|split; reflexivity|].
    intros [|[|j]] key Hj; [lia| |destruct j; discriminate]. intros [= <-]. vm_compute. discriminate. }
  assert (Vs : valued s' "a_snow" 7).
  { exists 1%nat. rewrite (same_names_index _ _ _ Nn). split; [reflexivity|]. destruct D as (_ & _ & D). destruct (D 1%nat) as (_ & _ & F); [cbn; lia|]. rewrite (F 1%nat "a_snow"%string 2 12); [do 2 f_equal; lra|reflexivity|reflexivity|split; reflexivity|].
    intros [|[|j]] key Hj; [lia|lia|destruct j; discriminate]. }
  destruct (c80_constraints s' Ca) as (r & R1 & R2).
  assert (r = true).
  { apply R2. intros a o b rel x y Hin M Va Vb. destruct D as (_ & Cs & _). rewrite Cs in Hin. destruct Hin as [H|[]]. injection H as <- <- <-. injection M as <-.
    destruct Va as (i & I1 & I2), Vs as (i' & I1' & I2'), Vb as (j & J1 & J2), Vi as (j' & J1' & J2'). rewrite I1 in I1'. injection I1' as <-. rewrite J1 in J1'. injection J1' as <-. rewrite I2 in I2'. rewrite J2 in J2'. injection I2' as ->. injection J2' as ->. lra. }
  subst r. exists s'. eexists. split; [exact c79_case|]. split; [|split; [exact Vi|exact Vs]]. rewrite random_step, E. cbn [bind fst snd]. rewrite R1. reflexivity.
Qed.
Example c80_given_up_case : exists s, history s /\ number_keys s ["a_ice"; "a_snow"]%string /\ constrained_numbers s ["a_ice"; "a_snow"]%string /\ set_random_values s ["a_ice"; "a_snow"]%string (fun _ => 1/2) 0 = Throw.
Proof.
  set (s := define_constraint (set_of None None (Some (PNum 1))) ("cf", ">", "a_ice")%string). exists s. split; [apply h_constraint; exact c79_case|].
  assert (A : number_keys s ["a_ice"; "a_snow"]%string) by (intros key [<-|[<-|[]]]; [exists 0%nat, 5, 20|exists 1%nat, 2, 12]; (split; [reflexivity|split; reflexivity])).
  assert (B : constrained_numbers s ["a_ice"; "a_snow"]%string).
  { intros x o y [E|[E|[]]] c i Hc Ic; injection E as <- <- <-; destruct Hc as [-> | ->]; vm_compute in Ic; injection Ic as <-; try (left; exists "a_snow"%string; split; [cbn; tauto|reflexivity]); try (left; exists "a_ice"%string; split; [cbn; tauto|reflexivity]).
    right. exists 1. reflexivity. }
  split; [exact A|]. split; [exact B|]. destruct (set_random_values s ["a_ice"; "a_snow"]%string (fun _ => 1/2) 0) as [(s', k')| |] eqn:E; [|reflexivity|elim (draw_until_no_ub _ _ _ _ _ A B E)].
  exfalso. assert (Hu : forall n : nat, 0 <= (fun _ => 1/2) n <= 1) by (intros; lra). destruct (c80_random _ _ _ _ _ _ Hu E) as (M & P & Cs & Q).
  destruct (Q 0%nat) as (_ & _ & F); [cbn; lia|]. destruct (F "a_ice"%string) as (v & V & Fv); [left; reflexivity|reflexivity| |].
  { split; [intros a b (X & Y); cbn in X, Y; injection X as <-; injection Y as <-; lra|intros low high (X & _); discriminate]. }
  assert (N : same_names s s') by (apply definition_names; [exact P|intros i Hi; apply (Q i Hi)]).
  destruct Fv as [(low & high & x & (X & Y) & -> & Bt)|(low & high & l & (X & _) & _)]; [|discriminate]. cbn in X, Y. destruct low as [a|]; [|discriminate]. injection X as <-. pose proof (proj1 Bt 5 eq_refl) as Hx.
  assert (Hgt : Rgt 1 x); [|lra]. apply (M "cf"%string ">"%string "a_ice"%string Rgt 1 x); [rewrite Cs; right; left; reflexivity|reflexivity| |].
  - exists 2%nat. rewrite (same_names_index _ _ _ N). split; [reflexivity|]. destruct (Q 2%nat) as (_ & R & _); [cbn; lia|]. rewrite R; [reflexivity|]. intros key [<-|[<-|[]]]; discriminate.
  - exists 0%nat. rewrite (same_names_index _ _ _ N). split; [reflexivity|exact V].
Qed.
(** Parameters without limits cannot be drawn. *)
Theorem c80_no_limits u s key keys k i : param_index s key = Some i -> pa_min (row s i) = None \/ pa_max (row s i) = None -> set_random_values s (key :: keys) u k = Throw.
Proof.
  intros E H. rewrite random_step. cbn [draw_all]. unfold draw_one. rewrite E. destruct H as [-> | ->]; [reflexivity|]. destruct (pa_min (row s i)) as [[|]|]; reflexivity.
Qed.

(** *** C81 *)
(** The search box of the optimizer is the range of the parameter, seen through its transform. *)
Theorem c81_search_box s name i a b : param_index s name = Some i -> pa_prior (row s i) = false -> number_range (row s i) (Some a) (Some b) -> a <= b ->
  match pa_transform (row s i) with
  | None => spotpy_param s name = Ok (Between a b)
  | Some t => undoes t a b -> rising t \/ falling t -> always_real t ->
      exists lo hi, spotpy_param s name = Ok (Between lo hi) /\ lo <= hi /\
        (forall y, a <= y <= b -> exists x, lo <= x <= hi /\ to_transformed t y = Ok x /\ to_real t x = Ok y) /\
        (forall x, lo <= x <= hi -> exists y, to_real t x = Ok y /\ a <= y <= b)
  end.
Proof.
  intros E P (Mn & Mx) Hab. unfold spotpy_param. rewrite E, P, Mn, Mx. cbn [option_map]. destruct (pa_transform (row s i)) as [t|]; [|reflexivity]. intros U M Ar.
  destruct (U a) as (xa & A1 & A2); [lra|]. destruct (U b) as (xb & B1 & B2); [lra|]. rewrite A1, B1. cbn [bind].
  destruct (Rleb xa xb) eqn:L.
  - apply Rleb_true in L. exists xa, xb. split; [reflexivity|]. split; [exact L|]. apply (box t a b xa xb Hab U M Ar A1 B1); [left; auto|exact L].
  - apply Rleb_false in L. exists xb, xa. split; [reflexivity|]. split; [lra|]. apply (box t a b xa xb Hab U M Ar A1 B1); [right; auto|lra].
Qed.
(** The transforms of the models meet this on their ranges. *)
Theorem c81_transforms a b :
  (0 < a -> undoes log_transform a b) /\ rising log_transform /\ always_real log_transform /\
  undoes asinh_transform a b /\ rising asinh_transform /\ always_real asinh_transform /\
  (1/2 < a -> undoes uh_transform a b) /\ rising uh_transform /\ always_real uh_transform /\
  (0 < a -> undoes response_transform a b) /\ rising response_transform /\ always_real response_transform.
Proof.
  assert (Ex : forall x y, x <= y -> exp x <= exp y) by (intros x y [H| ->]; [left; apply exp_increasing; exact H|right; reflexivity]).
  assert (Lg : forall z, 0 < z -> py_log z = Ok (ln z)) by (intros z Hz; unfold py_log; rewrite (proj2 (Rltb_true 0 z) Hz); reflexivity).
  assert (C : forall (A B C D E F G H I J K L : Prop), A -> B -> C -> D -> E -> F -> G -> H -> I -> J -> K -> L -> A /\ B /\ C /\ D /\ E /\ F /\ G /\ H /\ I /\ J /\ K /\ L) by tauto.
  apply C.
  - intros Ha y Hy. exists (ln y). cbn. split; [apply Lg; lra|]. rewrite exp_ln by lra. reflexivity.
  - intros x x' y y' [= <-] [= <-] H. apply Ex. exact H.
  - intro x. eexists. reflexivity.
  - intros y _. exists (arcsinh y). cbn. split; [reflexivity|]. rewrite sinh_arcsinh. reflexivity.
  - intros x x' y y' [= <-] [= <-] [H| ->]; [left; apply sinh_lt; exact H|right; reflexivity].
  - intro x. eexists. reflexivity.
  - intros Ha y Hy. exists (ln (y - 5 / 10)). cbn. split; [apply Lg; lra|]. rewrite exp_ln by lra. f_equal. lra.
  - intros x x' y y' [= <-] [= <-] H. specialize (Ex x x' H). lra.
  - intro x. eexists. reflexivity.
  - intros Ha y Hy. exists (ln (y / 24)). cbn. split; [apply Lg; lra|]. rewrite exp_ln by lra. f_equal. lra.
  - intros x x' y y' [= <-] [= <-] H. specialize (Ex x x' H). lra.
  - intro x. eexists. reflexivity.
Qed.
Example c81_search_case : exists s, set_transform (set_of None None (Some (PNum 1))) "a_ice" log_transform = Ok s /\ history s /\ pa_transform (row s 0) = Some log_transform /\
  number_range (row s 0) (Some 5) (Some 20) /\ undoes log_transform 5 20.
Proof.
  eexists. split; [reflexivity|]. split; [apply (h_transform (set_of None None (Some (PNum 1))) "a_ice" log_transform); [exact c79_case|reflexivity]|]. split; [reflexivity|]. split; [split; reflexivity|]. apply (proj1 (c81_transforms 5 20)). lra.
Qed.
(** A run of the optimizer: the set holds the real values of the sample; the model is run exactly when the constraints hold and all values
    are in their ranges. *)
Theorem c81_run {S : Type} s x (run : pset -> option S) s' res : searchable s x -> simulation s x run = Ok (s', res) ->
  sampled s x s' /\ (constraints_met s' /\ in_ranges s' -> res = run s') /\ (~ (constraints_met s' /\ in_ranges s') -> res = None).
Proof.
  intros K. unfold simulation. destruct (set_values s false false true (numbers x)) as [s1|s1] eqn:E; [|discriminate]. pose proof (set_numbers _ _ _ E) as Sp. pose proof (set_numbers_kind _ _ _ Sp K) as Rk.
  destruct (constraints_satisfied s1) as [c| |] eqn:C; cbn [bind]; try discriminate. destruct (rows_in_range_iff _ Rk) as (r & R1 & R2). destruct c.
  - unfold range_satisfied. rewrite R1. cbn [bind]. intros [= <- <-]. split; [exact Sp|]. apply constraints_hold_true in C. destruct r.
    + split; [reflexivity|]. intro H. elim H. split; [exact C|]. exact (proj1 R2 eq_refl).
    + split; [|reflexivity]. intros (_ & I). apply R2 in I. discriminate.
  - intros [= <- <-]. split; [exact Sp|]. apply constraints_hold_false in C. split; [|reflexivity]. intros (M & _). elim (C M).
Qed.
Example c81_run_case : searchable (set_of None None (Some (PNum 1))) [("a_ice", 8); ("a_snow", 3)]%string /\
  simulation (set_of None None (Some (PNum 1))) [("a_ice", 8); ("a_snow", 3)]%string (fun s => Some (parameters s)) = Ok (set_of (Some (PNum 8)) (Some (PNum 3)) (Some (PNum 1)), Some 3%nat).
Proof.
  split.
  - split.
    + intros p Hp. cbn in Hp. destruct Hp as [<-|[<-|[<-|[]]]]; cbn; try exact I. exists (Some (1/2)), (Some 2). split; reflexivity.
    + intros q i Hq Iq. cbn in Hq. destruct Hq as [<-|[<-|[]]]; vm_compute in Iq; injection Iq as <-; [exists (Some 5), (Some 20)|exists (Some 2), (Some 12)]; split; reflexivity.
  - unfold simulation. change (set_values _ _ _ _ _) with (Returned (set_of (Some (PNum 8)) (Some (PNum 3)) (Some (PNum 1)))).
    assert (C : constraints_satisfied (set_of (Some (PNum 8)) (Some (PNum 3)) (Some (PNum 1))) = Ok true) by (lazy -[Rltb Rleb Reqb IZR Rdiv]; rtests; reflexivity).
    assert (D : range_satisfied (set_of (Some (PNum 8)) (Some (PNum 3)) (Some (PNum 1))) = Ok true) by (unfold range_satisfied, rows_in_range, row_in_range; pgo).
    cbv beta iota. rewrite C. cbn [bind]. rewrite D. reflexivity.
Qed.
(** A sample of the optimizer that comes back is one that meets the constraints and the ranges, or 1000 samples did not. *)
Theorem c81_sample s gen s' x : (forall n, searchable s (gen n)) -> (forall n, map fst (gen n) = map fst (gen 0%nat)) -> spotpy_parameters s gen = Ok (s', x) ->
  (exists n, (n < 1000)%nat /\ x = gen n /\ sampled s x s' /\ constraints_met s' /\ in_ranges s') \/
  (x = gen 999%nat /\ forall n, (n < 1000)%nat -> exists s1, sampled s (gen n) s1 /\ ~ (constraints_met s1 /\ in_ranges s1)).
Proof.
  intros K Ks. unfold spotpy_parameters.
  assert (Cov : forall n m q i, In q (gen n) -> param_index s (fst q) = Some i -> exists q', In q' (gen m) /\ param_index s (fst q') = Some i).
  { intros n m q i Hq Iq. assert (Hk : In (fst q) (map fst (gen m))) by (rewrite (Ks m), <- (Ks n); apply in_map; exact Hq). apply in_map_iff in Hk. destruct Hk as (q' & F & Hq'). exists q'. rewrite F. auto. }
  assert (G : forall f i s0 last s' x, (s0 = s \/ exists m, sampled s (gen m) s0) -> sample f s0 gen i last = Ok (s', x) ->
    (exists n, (n < i + f)%nat /\ x = gen n /\ sampled s x s' /\ constraints_met s' /\ in_ranges s') \/
    (x = match f with O => last | S _ => gen (i + f - 1)%nat end /\ forall n, (n < f)%nat -> exists s1, sampled s (gen (i + n)%nat) s1 /\ ~ (constraints_met s1 /\ in_ranges s1))).
  { induction f as [|f IH]; intros i s0 last s2 y H; cbn [sample].
    - intros [= <- <-]. right. split; [reflexivity|]. intros n Hn. lia.
    - destruct (set_values s0 false false true (numbers (gen i))) as [s1|s1] eqn:E; [|discriminate]. pose proof (set_numbers _ _ _ E) as Sp0.
      assert (Sp : sampled s (gen i) s1) by (destruct H as [->|(m & H)]; [exact Sp0|exact (sampled_trans _ _ _ _ _ H Sp0 (Cov m i))]).
      pose proof (set_numbers_kind _ _ _ Sp (K i)) as Rk. destruct (rows_in_range_iff _ Rk) as (r & R1 & R2).
      assert (Next : ~ (constraints_met s1 /\ in_ranges s1) -> sample f s1 gen (S i) (gen i) = Ok (s2, y) ->
        (exists n, (n < i + S f)%nat /\ y = gen n /\ sampled s y s2 /\ constraints_met s2 /\ in_ranges s2) \/
        (y = gen (i + S f - 1)%nat /\ forall n, (n < S f)%nat -> exists s1, sampled s (gen (i + n)%nat) s1 /\ ~ (constraints_met s1 /\ in_ranges s1))).
      { intros Bad Hs. destruct (IH (S i) s1 (gen i) s2 y (or_intror (ex_intro _ i Sp)) Hs) as [(n & A & B)|(A & B)].
        - left. exists n. split; [lia|exact B].
        - right. split; [rewrite A; destruct f; f_equal; lia|]. intros [|n] Hn; [exists s1; replace (i + 0)%nat with i by lia; auto|]. destruct (B n) as (t & T1 & T2); [lia|]. exists t. replace (i + S n)%nat with (S i + n)%nat by lia. auto. }
      destruct (constraints_satisfied s1) as [c| |] eqn:C; cbn [bind]; try discriminate. destruct c; cbn [bind].
      + unfold range_satisfied. rewrite R1. cbn [bind]. destruct r.
        * intros [= <- <-]. left. exists i. split; [lia|]. split; [reflexivity|]. split; [exact Sp|]. split; [apply constraints_hold_true; exact C|exact (proj1 R2 eq_refl)].
        * apply Next. intros (_ & I). apply R2 in I. discriminate.
      + apply Next. intros (M & _). exact (constraints_hold_false _ _ C M). }
  intro H. destruct (G 1000%nat 0%nat s [] s' x (or_introl eq_refl) H) as [(n & A & B)|(A & B)]; [left; exists n; split; [lia|exact B]|right; split; [exact A|exact B]].
Qed.
(** After 1000 unsuited samples the last one is returned: the exception announced for it cannot be reached. *)
Theorem c81_sample_refuted : exists s gen s' x, history s /\ (forall n, searchable s (gen n)) /\ spotpy_parameters s gen = Ok (s', x) /\ ~ constraints_met s'.
Proof.
  set (g := [("a_ice", 6); ("a_snow", 8)]%string : list (string * R)). set (s2 := set_of (Some (PNum 6)) (Some (PNum 8)) (Some (PNum 1))).
  exists (set_of None None (Some (PNum 1))), (fun _ => g), s2, g. split; [exact c79_case|]. split; [|split].
  - intros _. split.
    + intros p Hp. cbn in Hp. destruct Hp as [<-|[<-|[<-|[]]]]; cbn; try exact I. exists (Some (1/2)), (Some 2). split; reflexivity.
    + intros q i Hq Iq. cbn in Hq. destruct Hq as [<-|[<-|[]]]; vm_compute in Iq; injection Iq as <-; [exists (Some 5), (Some 20)|exists (Some 2), (Some 12)]; split; reflexivity.
  - unfold spotpy_parameters.
    assert (C : constraints_satisfied s2 = Ok false).
    { unfold constraints_satisfied, s2. lazy -[Rltb Rleb Reqb IZR]. rtests. reflexivity. }
    assert (S1 : forall a b, set_values (set_of a b (Some (PNum 1))) false false true (numbers g) = Returned s2) by reflexivity.
    assert (G : forall f i a b last, sample f (set_of a b (Some (PNum 1))) (fun _ => g) i last = Ok (match f with O => set_of a b (Some (PNum 1)) | S _ => s2 end, match f with O => last | S _ => g end)).
    { induction f as [|f IH]; intros i a b last; [reflexivity|]. cbn [sample]. rewrite S1, C. cbn [bind]. unfold s2 at 1. rewrite IH. destruct f; reflexivity. }
    apply (G 1000%nat).
  - intro H. assert (8 < 6); [|lra]. apply (H "a_snow"%string "<"%string "a_ice"%string Rlt 8 6); [left; reflexivity|reflexivity|exists 1%nat; split; reflexivity|exists 0%nat; split; reflexivity].
Qed.
(** The best run: the first accepted run with the highest skill, reported with its skill whatever the direction of the optimizer.  (Skills
    above the score of a rejected run.) *)
Theorem c81_best minimize s runs best : get_best minimize s (stored minimize runs) = Ok best ->
  (exists r v, In r runs /\ snd r = Some v /\ - WORST < v) ->
  exists x v, nth_error runs (b_index best) = Some (x, Some v) /\ b_score best = v /\ real_values s x = Ok (b_params best) /\
    (forall r w, In r runs -> snd r = Some w -> w <= v) /\
    forall n r w, (n < b_index best)%nat -> nth_error runs n = Some r -> snd r = Some w -> w < v.
Proof.
  unfold get_best. rewrite skills_are. set (sk := map (fun r : list (string * R) * option R => match snd r with Some v => v | None => - WORST end) runs).
  destruct (argmax sk) as [i|] eqn:E; [|discriminate]. intros H (r0 & v0 & H0 & S0 & L0). destruct (argmax_spec sk i E) as (Hi & Mx & Fst). unfold sk in Hi. rewrite map_length in Hi.
  destruct (real_values s (fst (nth i (stored minimize runs) ([], 0)))) as [q| |] eqn:Q; cbn [bind] in H; try discriminate. injection H as <-. cbn [b_index b_score b_params].
  assert (Nth : forall n r, nth_error runs n = Some r -> nth n sk 0 = match snd r with Some v => v | None => - WORST end).
  { intros n r Hn. unfold sk. rewrite (nth_indep _ 0 ((fun r : list (string * R) * option R => match snd r with Some v => v | None => - WORST end) r)) by (rewrite map_length; apply nth_error_Some; congruence).
    rewrite (map_nth (fun r : list (string * R) * option R => match snd r with Some v => v | None => - WORST end)). rewrite (nth_error_nth _ _ _ Hn). reflexivity. }
  destruct (nth_error runs i) as [(x & o)|] eqn:Ei; [|apply nth_error_None in Ei; lia].
  assert (Le : forall r w, In r runs -> snd r = Some w -> w <= nth i sk 0).
  { intros r w Hr Hw. apply In_nth_error in Hr. destruct Hr as (n & Hn). pose proof (Nth n r Hn) as A. rewrite Hw in A. rewrite <- A. apply Mx. unfold sk. rewrite map_length. apply nth_error_Some. congruence. }
  pose proof (Nth i (x, o) Ei) as Ni. cbn [snd] in Ni. pose proof (Le r0 v0 H0 S0) as L1. destruct o as [v|]; [|lra]. exists x, v. split; [reflexivity|]. split; [exact Ni|]. split; [|split].
  - rewrite <- Q. f_equal. unfold stored. rewrite (nth_indep _ ([], 0) ((fun r : list (string * R) * option R => (fst r, score minimize (snd r))) ([], None))) by (rewrite map_length; exact Hi).
    rewrite (map_nth (fun r : list (string * R) * option R => (fst r, score minimize (snd r)))). rewrite (nth_error_nth _ _ _ Ei). reflexivity.
  - intros r w Hr Hw. rewrite <- Ni. exact (Le r w Hr Hw).
  - intros n r w Hn Hr Hw. pose proof (Nth n r Hr) as A. rewrite Hw in A. rewrite <- A, <- Ni. apply Fst. exact Hn.
Qed.
Example c81_best_case : exists best, get_best true (set_of None None None) (stored true [([("a_ice"%string, 6)], Some (1/2)); ([("a_ice"%string, 7)], Some (7/10)); ([("a_ice"%string, 1)], None)]) = Ok best /\
  b_score best = 7/10 /\ b_params best = [("a_ice"%string, 7)].
Proof.
  exists (mkBest (- - (7/10)) [("a_ice"%string, 7)] 1). split; [|split; [cbn; lra|reflexivity]]. unfold get_best, argmax, stored, score, WORST. pgo.
Qed.
(** The values of the best run can be given to the set as they are: it becomes the set of that run. *)
Theorem c81_best_values s x q s' : real_values s x = Ok q -> (forall k, In k x -> has s (fst k) = true) ->
  set_values s false false true (numbers x) = Returned s' -> set_values s false false false (numbers q) = Returned s'.
Proof. intros A B. apply (real_values_spec s x q A B s (same_names_refl s)). intros i Hi. apply same_definition_refl. Qed.
(** When all runs were rejected, a rejected set is reported as the best. *)
Theorem c81_all_rejected_refuted : exists minimize s runs best, (forall r, In r runs -> snd r = None) /\ get_best minimize s (stored minimize runs) = Ok best /\ b_score best = - 1000000000000.
Proof.
  exists false, (set_of None None None), [([("a_ice"%string, 1)], None)], (mkBest (- WORST) [("a_ice"%string, 1)] 0). split; [intros r [<-|[]]; reflexivity|]. split; [reflexivity|reflexivity].
Qed.
(** The mean error is signed, yet it is minimised: an underestimating simulation is better than a perfect one. *)
Theorem c81_mean_error_refuted : exists sim obs, sim <> obs /\ List.length sim = List.length obs /\
  discharge_skill "me" (fun _ => mean_error) obs obs < discharge_skill "me" (fun _ => mean_error) sim obs.
Proof.
  exists [0], [1]. split; [intro H; injection H; lra|]. split; [reflexivity|]. unfold discharge_skill, mean_error. change (is_error_metric "me") with true. cbn. lra.
Qed.
(** An error metric that is not in the list is maximised. *)
Theorem c81_unlisted_metric_refuted : exists sim obs, sim <> obs /\ List.length sim = List.length obs /\
  discharge_skill "msle" (fun _ => mean_squared_log_error) obs obs < discharge_skill "msle" (fun _ => mean_squared_log_error) sim obs.
Proof.
  exists [0], [1]. split; [intro H; injection H; lra|]. split; [reflexivity|]. unfold discharge_skill, mean_squared_log_error. change (is_error_metric "msle") with false. cbn -[ln].
  assert (ln (1 + 0) = 0) by (rewrite Rplus_0_r; apply ln_1). assert (0 < ln (1 + 1)) by (rewrite <- ln_1; apply ln_increasing; lra). rewrite H. set (z := ln (1 + 1)) in *. assert (0 < z * z) by (apply Rmult_lt_0_compat; assumption). lra.
Qed.
Print Assumptions c80_constraints. Print Assumptions c80_operator_refuted. Print Assumptions c80_undefined_refuted. Print Assumptions c80_removed. Print Assumptions c80_ranges. Print Assumptions c80_random.
Print Assumptions c80_given_up. Print Assumptions c80_no_limits. Print Assumptions c81_search_box. Print Assumptions c81_transforms. Print Assumptions c81_run. Print Assumptions c81_sample.
Print Assumptions c81_sample_refuted. Print Assumptions c81_best. Print Assumptions c81_best_values. Print Assumptions c81_all_rejected_refuted. Print Assumptions c81_mean_error_refuted. Print Assumptions c81_unlisted_metric_refuted.
