(** C79: parameter sets: names, values and ranges. *)
From Verif Require Import BaseFacts WitnessTools ParamSetSpec ParamSetFacts ParamSetRange ParamSetUse ParamSetDraws.
Open Scope R_scope.
Ltac pcbn := cbn -[Rltb Rleb Reqb Rabs Rplus Rmult Rminus Rdiv Rinv Ropp IZR].
Ltac pgo := repeat (pcbn; rtests); try reflexivity.
(** One step of [set_values] on a concrete set. *)
Lemma set_step (s : pset) (check adapt : bool) k v i w l : param_index s k = Some i -> (if check then check_value_range adapt (row s i) v else Ok v) = Ok w ->
  set_values s check adapt false ((k, v) :: l) = set_values (with_row s i (put_value w)) check adapt false l.
Proof. intros A B. cbn [set_values]. unfold set_value. cbn [fst snd]. rewrite A. cbn [bind]. rewrite B. reflexivity. Qed.
Lemma set_stop (s : pset) (check adapt : bool) k v i l : param_index s k = Some i -> (if check then check_value_range adapt (row s i) v else Ok v) = Throw ->
  set_values s check adapt false ((k, v) :: l) = Raised s.
Proof. intros A B. cbn [set_values]. unfold set_value. cbn [fst snd]. rewrite A. cbn [bind]. rewrite B. reflexivity. Qed.
Ltac pstep := erewrite set_step; [|reflexivity|unfold check_value_range; pgo].
Ltac pstop := erewrite set_stop; [|reflexivity|unfold check_value_range; pgo].

(** The case: two degree-day factors and a correction factor. *)
Definition p_ice (v : option pvalue) : param := mkPar "glacier" "degree_day_factor" (Names ["a_ice"]%string) v (Some (PNum 5)) (Some (PNum 20)) false None.
Definition p_snow (v : option pvalue) : param := mkPar "snowpack" "degree_day_factor" (Names ["a_snow"; "as"]%string) v (Some (PNum 2)) (Some (PNum 12)) false None.
Definition p_corr (v : option pvalue) : param := mkPar "data" "cf" (Names ["cf"]%string) v (Some (PNum (1/2))) (Some (PNum 2)) false None.
Definition set_of (a b c : option pvalue) : pset := mkPS [p_ice a; p_snow b; p_corr c] [("a_snow", "<", "a_ice")%string].
Lemma c79_case : history (set_of None None (Some (PNum 1))).
Proof.
  assert (E : define_constraint (mkPS [p_ice None; p_snow None; p_corr (Some (PNum 1))] []) ("a_snow", "<", "a_ice")%string = set_of None None (Some (PNum 1))) by reflexivity.
  rewrite <- E. apply h_constraint.
  apply (h_data (mkPS [p_ice None; p_snow None] []) "cf" (Some (PNum 1)) (Some (PNum (1/2))) (Some (PNum 2))).
  2:{ unfold add_data_parameter, check_min_max. pgo. }
  apply (h_define (mkPS [p_ice None] []) "snowpack" "degree_day_factor" (Names ["a_snow"; "as"]%string) (Some (PNum 2)) (Some (PNum 12)) None true).
  2: intros t; discriminate.
  2:{ unfold define_parameter, check_min_max. pgo. }
  apply (h_define empty_set "glacier" "degree_day_factor" (Names ["a_ice"]%string) (Some (PNum 5)) (Some (PNum 20)) None true).
  - apply h_new.
  - intros t; discriminate.
  - unfold define_parameter, check_min_max. pgo.
Qed.

(** *** Names *)
(** A name reads the first parameter that has it as an alias or as component:name, whatever the case; other names raise. *)
Theorem c79_found s name : aliases_as_lists s ->
  (forall v, get s name = Ok v <-> exists i, (i < parameters s)%nat /\ called name (row s i) /\ (forall j, (j < i)%nat -> ~ called name (row s j)) /\ v = pa_value (row s i)) /\
  (get s name = Throw <-> forall p, In p (ps_params s) -> ~ called name p).
Proof.
  intro L. assert (A : forall i, (i < parameters s)%nat -> (answers name (row s i) = true <-> called name (row s i))).
  { intros i Hi. apply answers_called. apply L. apply in_rows. eauto. }
  split.
  - intro v. unfold get. split.
    + destruct (param_index s name) as [i|] eqn:E; [|discriminate]. intros [= <-]. apply index_some in E. destruct E as (B & C & D). exists i. split; [exact B|]. split; [apply A; assumption|]. split; [|reflexivity].
      intros j Hj K. apply A in K; [|lia]. rewrite (D j Hj) in K. discriminate.
    + intros (i & B & C & D & ->). assert (E : param_index s name = Some i). { apply index_some. split; [exact B|]. split; [apply A; assumption|]. intros j Hj. destruct (answers name (row s j)) eqn:E; [|reflexivity]. apply A in E; [|lia]. elim (D j Hj E). }
      rewrite E. reflexivity.
  - unfold get. destruct (param_index s name) as [i|] eqn:E.
    + split; [discriminate|]. intro H. apply index_some in E. destruct E as (B & C & _). elim (H (row s i)); [apply in_rows; eauto|]. apply A; assumption.
    + split; [|reflexivity]. intros _ p Hp K. rewrite index_none in E. apply (answers_called name p (L p Hp)) in K. rewrite (E p Hp) in K. discriminate.
Qed.
(** In every history, two parameters share no alias, and every name of a parameter reaches it. *)
Theorem c79_reached s : history s ->
  no_shared_alias s /\
  (plain_aliases s -> distinct_full_names s -> forall i name, (i < parameters s)%nat -> called name (row s i) -> param_index s name = Some i /\ get s name = Ok (pa_value (row s i))).
Proof.
  intro H. destruct (history_unique s H) as (L & U). split; [exact U|]. intros P D i name Hi C.
  assert (A : forall i, (i < parameters s)%nat -> (answers name (row s i) = true <-> called name (row s i))).
  { intros k Hk. apply answers_called. apply L. apply in_rows. eauto. }
  assert (E : param_index s name = Some i).
  { apply index_some. split; [exact Hi|]. split; [apply A; assumption|]. intros j Hj. destruct (answers name (row s j)) eqn:E; [|reflexivity]. apply A in E; [|lia]. exfalso.
    assert (Colon : forall k a, (k < parameters s)%nat -> In a (alias_texts (row s k)) -> same_text name a -> forall q, same_text name (full_name q) -> False).
    { intros k a Hk Ha Sa q Sq. apply (P (row s k) a); [apply in_rows; eauto|exact Ha|]. apply (same_colon (full_name q)); [|apply full_name_colon]. apply (same_trans _ name); [apply same_sym; exact Sq|exact Sa]. }
    destruct C as [(a & Ha & Sa)|C], E as [(b & Hb & Sb)|E].
    - apply (U i j a b Hi); [lia|lia|exact Ha|exact Hb|]. apply (same_trans _ name); [apply same_sym; exact Sa|exact Sb].
    - exact (Colon i a Hi Ha Sa _ E).
    - refine (Colon j b _ Hb Sb _ C). lia.
    - assert (i = j) by (apply D; [exact Hi|lia|apply (same_trans _ name); [apply same_sym; exact C|exact E]]). lia. }
  split; [exact E|]. unfold get. rewrite E. reflexivity.
Qed.
Example c79_reached_case : exists s, history s /\ plain_aliases s /\ distinct_full_names s /\ (2 <= parameters s)%nat /\ get s "DATA:CF" = Ok (Some (PNum 1)).
Proof.
  exists (set_of None None (Some (PNum 1))). split; [exact c79_case|]. split.
  - intros p a Hp Ha. cbn in Hp. destruct Hp as [<-|[<-|[<-|[]]]]; cbn in Ha; repeat (destruct Ha as [<-|Ha]); try destruct Ha; unfold no_colon_in; cbn; intuition discriminate.
  - split; [|split; [cbn; lia|reflexivity]]. intros i j Hi Hj K. apply lower_same in K. cbn in Hi, Hj.
    destruct i as [|[|[|i]]]; [| | |lia]; destruct j as [|[|[|j]]]; try lia; vm_compute in K; discriminate.
Qed.
(** [add_aliases] accepts an alias that another parameter has: the second parameter is not reached by it. *)
Theorem c79_add_aliases_refuted : exists s s', history s /\ add_aliases s "snowpack:degree_day_factor" ["a_ice"%string] = Ok s' /\
  In "a_ice"%string (alias_texts (row s' 1)) /\ get s' "a_ice" = Ok (pa_value (row s' 0)).
Proof.
  exists (set_of None None (Some (PNum 1))). eexists. split; [exact c79_case|]. split; [reflexivity|]. split; [cbn; tauto|reflexivity].
Qed.
(** An alias given as a text is read letter by letter: it is not found, its letters are. *)
Theorem c79_text_alias_refuted : exists s, define_parameter empty_set "glacier" "degree_day_factor" (OneText "a_ice") None None (Some (PNum 7)) false = Ok s /\
  get s "a_ice" = Throw /\ get s "i" = Ok (Some (PNum 7)).
Proof. eexists. split; [reflexivity|]. split; reflexivity. Qed.
(** The same component:name can be defined twice: the second parameter without alias has no name that reaches it, and the set stays invalid
    for ever. *)
Theorem c79_defined_twice_refuted : exists s1 s2, define_parameter empty_set "glacier" "a" NoAlias None None None true = Ok s1 /\
  define_parameter s1 "glacier" "a" NoAlias None None None true = Ok s2 /\
  (forall name, param_index s2 name <> Some 1%nat) /\ forall check adapt tr l s3, set_values s2 check adapt tr l = Returned s3 -> is_valid s3 = false.
Proof.
  eexists. eexists. split; [reflexivity|]. split; [reflexivity|]. set (q := mkPar "glacier" "a" NoAlias None None None false None).
  change (mkPS _ _) with (mkPS [q; q] []). assert (N : forall name, param_index (mkPS [q; q] []) name <> Some 1%nat).
  { intros name H. apply index_some in H. destruct H as (_ & A & B). specialize (B 0%nat). cbn [row nth] in A, B. unfold row in A, B. cbn [ps_params nth] in A, B. rewrite A in B. specialize (B (Nat.lt_0_succ 0)). discriminate. }
  split; [exact N|].
  assert (G : forall check adapt tr l s s3, same_names (mkPS [q; q] []) s -> pa_value (row s 1) = None -> set_values s check adapt tr l = Returned s3 -> parameters s3 = 2%nat /\ pa_value (row s3 1) = None).
  { intros check adapt tr. induction l as [|kv l IH]; intros s s3 Sn V; cbn [set_values].
    - intros [= <-]. split; [exact (proj1 Sn)|exact V].
    - destruct (set_value s check adapt tr kv) as [s'| |] eqn:E; try discriminate. apply IH.
      + apply (same_names_trans _ s); [exact Sn|]. apply (set_value_names _ _ _ _ _ _ E).
      + revert E. unfold set_value. pose proof (N (fst kv)) as N1. rewrite <- (same_names_index _ _ (fst kv) Sn) in N1. destruct (param_index s (fst kv)) as [i|] eqn:Ei; [|discriminate].
        destruct (if tr then _ else _) as [v| |]; cbn [bind]; try discriminate. destruct (if check then _ else _) as [w| |]; cbn [bind]; try discriminate. intros [= <-].
        assert (P : parameters s = 2%nat) by exact (proj1 Sn). rewrite put_rows by lia. destruct (Nat.eqb_spec 1 i) as [<-|]; [congruence|exact V]. }
  intros check adapt tr l s3 E. destruct (G check adapt tr l _ _ (same_names_refl _) eq_refl E) as (A & B). unfold is_valid. apply negb_false_iff. apply existsb_exists. exists (row s3 1). split; [apply in_rows; exists 1%nat; split; [lia|reflexivity]|]. unfold no_value. rewrite B. reflexivity.
Qed.

(** *** Definitions *)
(** A definition is accepted exactly when none of its aliases is one of the set, whatever the case, and the range is in order; then the parameter is
    added after the others, without value if it is mandatory, with its default otherwise, and nothing else changes. *)
Definition alias_free (s : pset) (l : list string) : Prop := forall x p b, In x l -> In p (ps_params s) -> In b (alias_texts p) -> ~ same_text x b.
Definition range_ordered (mn mx : option pvalue) : Prop :=
  mn = None \/ mx = None \/ (exists a b, mn = Some (PNum a) /\ mx = Some (PNum b) /\ a <= b) \/ exists l m, mn = Some (PList l) /\ mx = Some (PList m) /\ Forall2 Rle l m.
Lemma check_aliases_iff s l : check_aliases s (Names l) = Ok tt <-> alias_free s l.
Proof.
  split; [intros H x p b; apply (check_aliases_ok s (Names l)); [discriminate|exact H]|]. intro H. unfold check_aliases.
  destruct (existsb _ _) eqn:K; [|reflexivity]. apply existsb_exists in K. destruct K as (x & Hx & K). apply existsb_exists in K. destruct K as (y & Hy & K).
  apply existing_in in Hy. destruct Hy as (p & b & Hp & Hb & ->). apply String.eqb_eq in K. elim (H x p b Hx Hp Hb). apply lower_same. exact K.
Qed.
Lemma check_min_max_iff mn mx : check_min_max mn mx = Ok tt <-> range_ordered mn mx.
Proof.
  unfold check_min_max, range_ordered. destruct mn as [[a|l]|]; [| |split; [auto|reflexivity]]; (destruct mx as [[b|m]|]; [| |split; [auto|reflexivity]]).
  - unfold Rltb. destruct (Rlt_dec b a); split; try discriminate; try reflexivity.
    + intros [|[|[(x & y & [= ->] & [= ->] & H)|(x & y & [=] & _)]]]; try discriminate. lra.
    + intros _. right. right. left. exists a, b. repeat split; lra.
  - split; [discriminate|]. intros [|[|[(x & y & _ & [=] & H)|(x & y & [=] & _)]]]; discriminate.
  - split; [discriminate|]. intros [|[|[(x & y & [=] & H)|(x & y & _ & [=] & _)]]]; discriminate.
  - assert (G : (if negb (List.length l =? List.length m)%nat then Throw else if existsb (fun q => Rltb (snd q) (fst q)) (combine l m) then Throw else Ok tt) = Ok tt <-> Forall2 Rle l m).
    { revert m. induction l as [|x l IH]; intros [|y m]; cbn [List.length Nat.eqb negb combine existsb fst snd].
      - split; [constructor|reflexivity].
      - split; [discriminate|intro H; inversion H].
      - split; [discriminate|intro H; inversion H].
      - specialize (IH m). destruct (negb _); [split; [discriminate|intro H; inversion H; subst; apply IH; assumption]|].
        unfold Rltb at 1. destruct (Rlt_dec y x); cbn [orb]; [split; [discriminate|intro H; inversion H; subst; lra]|].
        rewrite IH. split; [intro H; constructor; [lra|exact H]|intro H; inversion H; assumption]. }
    rewrite G. split.
    + intro H. right. right. right. exists l, m. auto.
    + intros [|[|[(x & y & [=] & H)|(x & y & [= <-] & [= <-] & H)]]]; try discriminate. exact H.
Qed.
Theorem c79_defined s s' component name aliases mn mx default mandatory :
  define_parameter s component name (Names aliases) mn mx default mandatory = Ok s' <->
  alias_free s aliases /\ range_ordered mn mx /\
  exists value, ps_params s' = ps_params s ++ [mkPar component name (Names aliases) value mn mx false None] /\ ps_constraints s' = ps_constraints s /\
    (mandatory = true -> value = None) /\ (mandatory = false -> value = default).
Proof.
  unfold define_parameter. rewrite <- check_aliases_iff, <- check_min_max_iff. split.
  - destruct (check_aliases s (Names aliases)) as [[]| |]; cbn [bind]; try discriminate. destruct (check_min_max mn mx) as [[]| |]; cbn [bind]; try discriminate. intros [= <-].
    split; [reflexivity|]. split; [reflexivity|]. eexists. split; [reflexivity|]. split; [reflexivity|]. split; intros ->; reflexivity.
  - intros (-> & -> & v & A & B & C & D). cbn [bind]. f_equal. destruct s' as [ps cs]. cbn in A, B. subst ps cs. f_equal. do 3 f_equal. destruct mandatory; [symmetry; apply C|symmetry; apply D]; reflexivity.
Qed.
Theorem c79_defined_data s s' name value mn mx :
  add_data_parameter s name value mn mx = Ok s' <->
  alias_free s [name] /\ range_ordered mn mx /\ ps_params s' = ps_params s ++ [mkPar "data" name (Names [name]) value mn mx false None] /\ ps_constraints s' = ps_constraints s.
Proof.
  unfold add_data_parameter. rewrite <- check_aliases_iff, <- check_min_max_iff. split.
  - destruct (check_aliases s (Names [name])) as [[]| |]; cbn [bind]; try discriminate. destruct (check_min_max mn mx) as [[]| |]; cbn [bind]; try discriminate. intros [= <-]. auto.
  - intros (-> & -> & A & B). cbn [bind]. f_equal. destruct s' as [ps cs]. cbn in A, B. subst ps cs. reflexivity.
Qed.
Example c79_defined_case : exists s, history s /\ alias_free s ["b_ice"]%string /\ ~ alias_free s ["b_ice"; "A_SNOW"]%string /\ range_ordered (Some (PList [1; 2])) (Some (PList [1; 3])) /\ ~ range_ordered (Some (PNum 2)) (Some (PNum 1)).
Proof.
  exists (set_of None None (Some (PNum 1))). split; [exact c79_case|]. split; [|split; [|split]].
  - apply check_aliases_iff. reflexivity.
  - rewrite <- check_aliases_iff. discriminate.
  - right. right. right. eexists. eexists. split; [reflexivity|]. split; [reflexivity|]. repeat constructor; lra.
  - intros [|[|[(x & y & [= <-] & [= <-] & H)|(x & y & [=] & _)]]]; try discriminate. lra.
Qed.

(** *** Values *)
(** Values given by names: each parameter gets the last value given to it, the others keep theirs; definitions and constraints stay. *)
Theorem c79_set s check l s' : set_values s check false false l = Returned s' ->
  parameters s' = parameters s /\ ps_constraints s' = ps_constraints s /\ forall i, (i < parameters s)%nat -> same_definition (row s i) (row s' i) /\
    (not_given s l i -> row s' i = row s i) /\ forall v, last_given s l i v -> pa_value (row s' i) = Some v.
Proof. apply set_values_rows. Qed.
(** With the range check, exactly the values of known parameters that are in the range are accepted. *)
Theorem c79_accepted s l : given_ranged s l ->
  ((forall q, In q l -> acceptable s q) <-> exists s', set_values s true false false l = Returned s').
Proof. apply set_values_iff. Qed.
Lemma c79_range_ice v : number_range (p_ice v) (Some 5) (Some 20). Proof. split; reflexivity. Qed.
Example c79_set_case : exists s s', set_values s true false false [("a_ice", PNum 7); ("AS", PNum 3); ("glacier:degree_day_factor", PNum 8)]%string = Returned s' /\
  given_ranged s [("a_ice", PNum 7); ("AS", PNum 3); ("glacier:degree_day_factor", PNum 8)]%string /\ s' = set_of (Some (PNum 8)) (Some (PNum 3)) (Some (PNum 1)) /\
  last_given s [("a_ice", PNum 7); ("AS", PNum 3); ("glacier:degree_day_factor", PNum 8)]%string 0 (PNum 8).
Proof.
  exists (set_of None None (Some (PNum 1))). exists (set_of (Some (PNum 8)) (Some (PNum 3)) (Some (PNum 1))). split; [pstep; pstep; pstep; reflexivity|].
  split; [|split; [reflexivity|]].
  - intros q i Hq. cbn in Hq. destruct Hq as [<-|[<-|[<-|[]]]]; intro E; vm_compute in E; injection E as <-; (split; [left; [> eexists (Some _), (Some _); split; reflexivity]|intros (A & _); discriminate]).
  - exists [("a_ice", PNum 7); ("AS", PNum 3)]%string, "glacier:degree_day_factor"%string, []. split; [reflexivity|]. split; [reflexivity|intros q []].
Qed.
(** A failed call is not undone: the values before the refused one are in place. *)
Theorem c79_midway_refuted : exists s l s', history s /\ set_values s true false false l = Raised s' /\ get s "a_ice" = Ok None /\ get s' "a_ice" = Ok (Some (PNum 7)).
Proof.
  exists (set_of None None (Some (PNum 1))), [("a_ice", PNum 7); ("as", PNum 20)]%string, (set_of (Some (PNum 7)) None (Some (PNum 1))).
  split; [exact c79_case|]. split; [pstep; pstop; reflexivity|]. split; reflexivity.
Qed.
(** With [adapt], a number is replaced by the nearest one in the range, a list element by element. *)
Theorem c79_adapt s name i : param_index s name = Some i -> range_open (row s i) ->
  (forall low high x, number_range (row s i) low high ->
     exists y s', set_values s true true false [(name, PNum x)] = Returned s' /\ get s' name = Ok (Some (PNum y)) /\ nearest low high x y) /\
  (forall low high l, list_range (row s i) low high ->
     exists r s', set_values s true true false [(name, PList l)] = Returned s' /\ get s' name = Ok (Some (PList r)) /\ List.length r = List.length l /\
       forall k a b x, nth_error low k = Some a -> nth_error high k = Some b -> nth_error l k = Some x -> exists y, nth_error r k = Some y /\ nearest (Some a) (Some b) x y).
Proof.
  intros E (O1 & O2). pose proof (index_lt _ _ _ E) as Hi.
  assert (G : forall v w, check_value_range true (row s i) v = Ok w -> exists s', set_values s true true false [(name, v)] = Returned s' /\ get s' name = Ok (Some w)).
  { intros v w C. exists (with_row s i (put_value w)). split.
    - cbn [set_values]. unfold set_value. cbn [fst snd]. rewrite E. cbn [bind]. rewrite C. reflexivity.
    - unfold get. rewrite (same_names_index _ _ name (put_value_names s i w)), E, put_rows, Nat.eqb_refl by exact Hi. reflexivity. }
  split.
  - intros low high x Nr.
    pose proof (clamp_nearest low high x) as Cn. pose proof (check_number (row s i) low high true x Nr) as C.
    assert (Cn' : nearest low high x (match high with
    | Some b => if Rltb b x then b else match low with Some a => if Rltb x a then a else x | None => x end
    | None => match low with Some a => if Rltb x a then a else x | None => x end end)) by (apply Cn; intros a b -> ->; apply (O1 a b Nr)).
    eexists. destruct (G (PNum x) (PNum (match high with
    | Some b => if Rltb b x then b else match low with Some a => if Rltb x a then a else x | None => x end
    | None => match low with Some a => if Rltb x a then a else x | None => x end end))) as (s' & A & B).
    { rewrite C. destruct high as [b|]; [destruct (Rltb b x); [reflexivity|]|]; (destruct low as [a|]; [destruct (Rltb x a); reflexivity|reflexivity]). }
    exists s'. split; [exact A|]. split; [exact B|exact Cn'].
  - intros low high l Lr. destruct (check_list_adapt low high l) as (r & A & B & C & _). destruct (G (PList l) (PList r)) as (s' & D & F).
    { rewrite (check_lists (row s i) low high true (PList l) Lr), A. reflexivity. }
    exists r, s'. split; [exact D|]. split; [exact F|]. split; [exact B|]. intros k a b x Ha Hb Hx. pose proof (O2 low high Lr k a b Ha Hb) as Hab. exists (Rmax a (Rmin b x)). split; [apply C; assumption|apply max_min_nearest; exact Hab].
Qed.
Example c79_adapt_case : exists s, history s /\ param_index s "as" = Some 1%nat /\ range_open (row s 1) /\ number_range (row s 1) (Some 2) (Some 12).
Proof.
  exists (set_of None None (Some (PNum 1))). split; [exact c79_case|]. split; [reflexivity|]. split; [|split; reflexivity]. split.
  - intros a b (A & B). cbn in A, B. injection A as <-. injection B as <-. lra.
  - intros low high (A & _). discriminate.
Qed.
(** [change_range] does not check that the minimum is below the maximum: then [adapt] leaves values out of the range. *)
Theorem c79_adapt_refuted : exists s s1 s2, history s /\ change_range s "a_ice" (Some 30) None = Ok s1 /\
  set_values s1 true true false [("a_ice"%string, PNum 25)] = Returned s2 /\ get s2 "a_ice" = Ok (Some (PNum 20)) /\ number_range (row s2 0) (Some 30) (Some 20).
Proof.
  exists (set_of None None (Some (PNum 1))). eexists. eexists. split; [exact c79_case|]. split; [reflexivity|]. split; [pstep; reflexivity|]. split; [reflexivity|split; reflexivity].
Qed.
(** The default of a definition is not checked against its range. *)
Theorem c79_default_refuted : exists s, define_parameter empty_set "glacier" "a" NoAlias (Some (PNum 5)) (Some (PNum 20)) (Some (PNum 1)) false = Ok s /\
  is_valid s = true /\ range_satisfied s = Ok false.
Proof.
  eexists. split; [unfold define_parameter, check_min_max; pgo|]. split; [reflexivity|]. unfold range_satisfied, rows_in_range, row_in_range. pgo.
Qed.
(** A list that is longer or shorter than the limits is accepted; the elements past the limits are not checked. *)
Theorem c79_length_refuted : exists s s', define_parameter empty_set "glacier" "a" NoAlias (Some (PList [1; 1])) (Some (PList [2; 2])) None true = Ok s /\
  set_values s true false false [("glacier:a"%string, PList [1; 2; 100])] = Returned s'.
Proof. eexists. eexists. split; [unfold define_parameter, check_min_max; pgo|]. pstep. reflexivity. Qed.
(** A value given in the space of the optimizer is read back from there, and the model gets its real value. *)
Theorem c79_transformed s name i t x y : param_index s name = Some i -> pa_transform (row s i) = Some t -> to_real t x = Ok y -> to_transformed t y = Ok x ->
  exists s', set_values s false false true [(name, PNum x)] = Returned s' /\ get s' name = Ok (Some (PNum y)) /\ get_transformed s' name = Ok (Some (PNum x)).
Proof.
  intros E T A B. pose proof (index_lt _ _ _ E) as Hi. exists (with_row s i (put_value (PNum y))). split; [|].
  - cbn [set_values]. unfold set_value, from_transformed. cbn [fst snd]. rewrite E, T. cbn [bind]. rewrite A. reflexivity.
  - unfold get, get_transformed. rewrite (same_names_index _ _ name (put_value_names s i (PNum y))), E, put_rows, Nat.eqb_refl by exact Hi. cbn [put_value pa_value pa_transform]. rewrite T, B. split; reflexivity.
Qed.
(** A set is ready exactly when the values given complete it; the names of the missing parameters are listed. *)
Theorem c79_ready s check l s' : set_values s check false false l = Returned s' ->
  (is_valid s' = true <-> forall i, (i < parameters s)%nat -> pa_value (row s i) = None -> exists v, last_given s l i v) /\
  (is_valid s' = true <-> get_undefined s' = []).
Proof.
  intro E. destruct (set_values_rows check l s s' E) as (P & _ & Q). split.
  - unfold is_valid. rewrite negb_true_iff. split.
    + intros H i Hi V. destruct (given_or_not s l i) as [N|G]; [|exact G]. destruct (Q i Hi) as (_ & R & _). specialize (R N). exfalso.
      enough (existsb no_value (ps_params s') = true) by congruence. apply existsb_exists. exists (row s' i). split; [apply in_rows; exists i; split; [lia|reflexivity]|]. unfold no_value. rewrite R, V. reflexivity.
    + intro H. destruct (existsb no_value (ps_params s')) eqn:Ex; [|reflexivity]. apply existsb_exists in Ex. destruct Ex as (p & Hp & Np). apply in_rows in Hp. destruct Hp as (i & Hi & <-). rewrite P in Hi.
      destruct (Q i Hi) as (_ & R & G). unfold no_value in Np. destruct (given_or_not s l i) as [N|(v & Lv)].
      * specialize (R N). rewrite R in Np. destruct (pa_value (row s i)) eqn:V; [discriminate|]. destruct (H i Hi V) as (v & l1 & k & l2 & A & B & _). exfalso. apply (N (k, v)); [rewrite A; apply in_or_app; right; left; reflexivity|exact B].
      * rewrite (G v Lv) in Np. discriminate.
  - unfold is_valid, get_undefined. rewrite negb_true_iff. split.
    + intro H. replace (filter no_value (ps_params s')) with (@nil param); [reflexivity|]. symmetry. induction (ps_params s') as [|p r IH]; [reflexivity|]. cbn in H |- *. apply orb_false_iff in H. destruct H as (-> & H). apply IH. exact H.
    + intro H. apply map_eq_nil in H. induction (ps_params s') as [|p r IH]; [reflexivity|]. cbn in H |- *. destruct (no_value p); [discriminate|]. apply IH. exact H.
Qed.
Print Assumptions c79_found. Print Assumptions c79_reached. Print Assumptions c79_add_aliases_refuted. Print Assumptions c79_text_alias_refuted. Print Assumptions c79_defined_twice_refuted.
Print Assumptions c79_set. Print Assumptions c79_accepted. Print Assumptions c79_midway_refuted. Print Assumptions c79_adapt. Print Assumptions c79_adapt_refuted. Print Assumptions c79_default_refuted.
Print Assumptions c79_length_refuted. Print Assumptions c79_transformed. Print Assumptions c79_ready. Print Assumptions c79_defined. Print Assumptions c79_defined_data.
