(** C83: the forcing of the units from the data of a station. *)
From Coq Require Import String.
From Verif Require Import BaseFacts WitnessTools ForcingFile ForcingOpsSpec ForcingOpsFacts.
Open Scope string_scope.
Open Scope R_scope.

(** *** Spatialisation *)
(** The series of every unit follows the law of the method in every time step, with the gradient of its month; nothing else changes. *)
Theorem c83_values f name method ref g g1 g2 th f' v : spatialize f name method ref g g1 g2 th = Ok f' -> get_variable name = Ok v ->
  (exists m', method_of v method = Some m' /\
     forall i p k x mo, nth_error (fo_units f) i = Some p -> station f v k = Some x -> nth_error (fo_months f) k = Some mo -> (1 <= mo <= 12)%nat ->
       exists y, law ref (match g with ANone => g1 | _ => g end) g2 th mo (pl_elevation p) x m' y /\ cell f' v i k = Some (physical v y)) /\
  (forall w i k, w <> v -> cell f' w i k = cell f w i k) /\
  fo_units f' = fo_units f /\ fo_months f' = fo_months f /\ fo_1d f' = fo_1d f /\ fo_ops f' = fo_ops f /\ fo_init f' = fo_init f.
Proof.
  intros E V. destruct (spatialize_written _ _ _ _ _ _ _ _ _ E) as (v' & vals & V' & W & ->). rewrite V in V'. injection V' as <-. split; [|split].
  - unfold written in W. rewrite V in W. cbn [bind] in W. destruct (look (fo_1d f) v) as [data| |] eqn:D; cbn [bind] in W; try discriminate.
    destruct (default_method v method) as [m'| |] eqn:M; cbn [bind] in W; try discriminate. exists m'. split.
    { unfold default_method in M. unfold method_of. destruct (String.eqb method "default"); [destruct v; try discriminate; injection M as <-; reflexivity|injection M as <-; reflexivity]. }
    intros i p k x mo Hp Hx Hm Hr. set (g0 := match g with ANone => g1 | _ => g end) in *. destruct (match g0 with AList l => _ | _ => false end); [discriminate|].
    destruct (Nat.eqb_spec (List.length data) (List.length (fo_months f))) as [Hl|]; cbn [negb] in W; [|discriminate].
    destruct (all_units_nth _ _ _ _ _ W Hp) as (s & S & Sn). destruct (unit_series m' ref g0 g2 th (fo_months f) data (pl_elevation p)) as [s0| |] eqn:U; cbn [bind] in S; try discriminate. injection S as <-.
    unfold station in Hx. rewrite D in Hx. destruct (unit_series_law _ _ _ _ _ _ _ _ _ _ _ _ U Hl Hm Hx Hr) as (y & L & Y). exists y. split; [exact L|].
    unfold cell. cbn [with_2d fo_2d]. rewrite look_store, var_eqb_refl, Sn. apply clip_nth. exact Y.
  - intros w i k Hw. unfold cell. cbn [with_2d fo_2d]. rewrite look_store, var_eqb_neq by (intro K; apply Hw; symmetry; exact K). reflexivity.
  - repeat split; reflexivity.
Qed.
(** *** Names *)
(** Every name stands for one variable; other names raise. *)
Theorem c83_names n : (forall v, get_variable n = Ok v <-> In n (names_of v)) /\ (get_variable n = Throw <-> forall v, ~ In n (names_of v)).
Proof.
  assert (A : forall v, get_variable n = Ok v <-> In n (names_of v)).
  { intro v. split.
    - unfold get_variable. destruct (find _ variable_names) as [q|] eqn:F; [|discriminate]. intros [= <-]. apply find_some in F. destruct F as (F & E). apply String.eqb_eq in E. subst n.
      cbn in F. repeat (destruct F as [<-|F]; [cbn; tauto|]). destruct F.
    - destruct v; cbn [names_of]; intro H; cbn in H; repeat (destruct H as [<-|H]; [reflexivity|]); destruct H. }
  split; [exact A|]. split.
  - intros T v H. apply A in H. congruence.
  - intro H. destruct (get_variable n) as [v| |] eqn:E; [elim (H v); apply A; exact eq_refl|reflexivity|]. unfold get_variable in E. destruct (find _ _); discriminate.
Qed.
Print Assumptions c83_names.
Print Assumptions c83_values.
(** At the elevation of the station every gradient method gives the data of the station (with the negative values removed where they cannot be), if
    the station is not above the threshold where the gradients change. *)
Theorem c83_reference ref g g2 th m z x method y : law ref g g2 th m z x method y -> number ref = Ok z -> y = x.
Proof.
  intros L R. destruct L as [|z0 a A B|z0 a A B|z0 a b h A B C D]; try reflexivity; rewrite R in A; injection A as <-; [field|field|].
  assert (F : threshold_factor z a b h z = 1).
  { unfold threshold_factor. destruct (Rltb_spec z h); [field|]. destruct (Rltb_spec h z); [field|]. assert (h = z) as -> by lra. field. }
  rewrite F. ring.
Qed.
Print Assumptions c83_reference.
(** The factor of the method with two gradients is continuous in the elevation if the station is not above the threshold. *)
Theorem c83_threshold_continuous z0 a b h z z' : z0 <= h ->
  Rabs (threshold_factor z0 a b h z - threshold_factor z0 a b h z') <= (Rabs a + Rabs (1 + a * (h - z0) / 100) * Rabs b) / 100 * Rabs (z - z').
Proof.
  intro H0. pose (c := 1 + a * (h - z0) / 100). 
  assert (E : forall z, threshold_factor z0 a b h z = c + a / 100 * Rmin 0 (z - h) + c * b / 100 * Rmax 0 (z - h)).
  { intro u. unfold threshold_factor, c. destruct (Rltb_spec u h).
    - rewrite Rmin_right by lra. rewrite Rmax_left by lra. field.
    - destruct (Rltb_spec h z0); [lra|]. rewrite Rmin_left by lra. rewrite Rmax_right by lra. field. }
  rewrite !E. fold c. set (d := Rmin 0 (z - h) - Rmin 0 (z' - h)). set (e := Rmax 0 (z - h) - Rmax 0 (z' - h)).
  replace (_ - _) with (a / 100 * d + c * b / 100 * e) by (unfold d, e; ring).
  assert (D : Rabs d <= Rabs (z - z')) by (unfold d, Rmin; destruct (Rle_dec _ _), (Rle_dec _ _); unfold Rabs; destruct (Rcase_abs _), (Rcase_abs _); lra).
  assert (F : Rabs e <= Rabs (z - z')) by (unfold e, Rmax; destruct (Rle_dec _ _), (Rle_dec _ _); unfold Rabs; destruct (Rcase_abs _), (Rcase_abs _); lra).
  eapply Rle_trans; [apply Rabs_triang|]. replace (c * b / 100) with (c * b * / 100) by reflexivity. unfold Rdiv. rewrite !Rabs_mult, (Rabs_right (/ 100)) by lra.
  pose proof (Rabs_pos a). pose proof (Rmult_le_pos _ _ (Rabs_pos c) (Rabs_pos b)).
  assert (Rabs a * / 100 * Rabs d <= Rabs a * / 100 * Rabs (z - z')) by (apply Rmult_le_compat_l; [lra|exact D]).
  assert (Rabs c * Rabs b * / 100 * Rabs e <= Rabs c * Rabs b * / 100 * Rabs (z - z')) by (apply Rmult_le_compat_l; [lra|exact F]). lra.
Qed.
Print Assumptions c83_threshold_continuous.
(** Above the threshold it jumps there: with 5 % per 100 m below 1500 m, none above and a station at 2000 m, a unit at 1500 m gets the precipitation of
    the station and every unit just below less than four fifths of it. *)
Theorem c83_threshold_refuted : threshold_factor 2000 (1/20) 0 1500 1500 = 1 /\ forall z, z < 1500 -> threshold_factor 2000 (1/20) 0 1500 z < 4/5.
Proof.
  split.
  - unfold threshold_factor. rtests. lra.
  - intros z H. unfold threshold_factor. destruct (Rltb_spec z 1500); lra.
Qed.
Print Assumptions c83_threshold_refuted.
(** Gradients that are whole numbers raise: "Wrong gradient format", with any unit. *)
Theorem c83_integer_refuted f name method ref n g1 g2 th v m : get_variable name = Ok v -> method_of v method = Some m ->
  m = "additive_elevation_gradient" \/ m = "multiplicative_elevation_gradient" -> fo_units f <> [] -> spatialize f name method ref (AInt n) g1 g2 th = Throw.
Proof.
  intros V M Hm U. unfold spatialize. rewrite V. cbn [bind]. destruct (look (fo_1d f) v) as [data| |] eqn:L; cbn [bind].
  - assert (E : default_method v method = Ok m) by (unfold default_method; unfold method_of in M; destruct (String.eqb method "default"); [destruct v; try discriminate; injection M as <-; reflexivity|injection M as <-; reflexivity]).
    rewrite E. cbn [bind]. destruct (negb _); [reflexivity|]. destruct (fo_units f) as [|p r]; [contradiction|]. cbn [all_units].
    assert (T : unit_series m ref (AInt n) g2 th (fo_months f) data (pl_elevation p) = Throw).
    { unfold unit_series. destruct Hm as [-> | ->]; cbn [String.eqb Ascii.eqb Bool.eqb]; destruct ref as [|x|k|[|x [|y l]]]; reflexivity. }
    rewrite T. reflexivity.
  - reflexivity.
  - unfold look in L. destruct (find _ _); discriminate.
Qed.
Print Assumptions c83_integer_refuted.

(** The case: two units, at 1000 and 2000 m, and two time steps in January and July. *)
Definition two_units : list place := [mkPl 1000 46; mkPl 2000 47].
Definition free : opt := Given ANone.
Definition case_f (ops : list operation) : forcing := mkFo two_units [1; 7]%nat [(VP, [10; 20]); (VT, [-1; 15])] [] ops false.
Definition monthly_gradients : arg := AList [-1/2; 0; 0; 0; 0; 0; -1; 0; 0; 0; 0; 0].
Example c83_case : exists f', spatialize (case_f []) "temperature" "default" (AInt 1000) monthly_gradients ANone ANone ANone = Ok f' /\
  cell f' VT 1 0 = Some (-1 + (-1/2) * (2000 - 1000) / 100) /\ cell f' VT 1 1 = Some (15 + (-1) * (2000 - 1000) / 100).
Proof. eexists. split; [reflexivity|]. split; reflexivity. Qed.
Example c83_threshold_case : exists f', spatialize (case_f []) "precipitation" "multiplicative_elevation_threshold_gradients" (AFloat 1000) ANone (AFloat (1/20)) (AFloat (1/50)) (AFloat 1500) = Ok f' /\
  exists y, cell f' VP 1 0 = Some y /\ y = 10 * (5/4) * (11/10).
Proof.
  unfold spatialize. cbn [get_variable]. lazy -[Rltb Rplus Rmult Rminus Rdiv Rinv Ropp IZR]. rtests. eexists. split; [reflexivity|]. eexists. split; [reflexivity|]. rtests. lra.
Qed.

(** *** Corrections and their order *)
(** A correction multiplies the data of the station by its factor, or adds it, in every time step, and touches nothing else. *)
Theorem c83_correction f name method a f' v : prior_correction f name method a = Ok f' -> get_variable name = Ok v ->
  exists c, number a = Ok c /\ (method = "multiplicative" \/ method = "additive") /\
    (forall k, station f' v k = match station f v k with Some x => Some (if String.eqb method "multiplicative" then x * c else x + c) | None => None end) /\
    (forall w k, w <> v -> station f' w k = station f w k) /\ fo_2d f' = fo_2d f /\ fo_units f' = fo_units f /\ fo_months f' = fo_months f /\ fo_ops f' = fo_ops f /\ fo_init f' = fo_init f.
Proof.
  intros E V. unfold prior_correction in E. rewrite V in E. cbn [bind] in E. destruct (look (fo_1d f) v) as [data| |] eqn:L; cbn [bind] in E; try discriminate. destruct (number a) as [c| |] eqn:N; cbn [bind] in E; try discriminate.
  exists c. split; [reflexivity|].
  assert (K : forall g, f' = with_1d f (store (fo_1d f) v (map g data)) ->
    (forall k, station f' v k = match station f v k with Some x => Some (g x) | None => None end) /\ (forall w k, w <> v -> station f' w k = station f w k) /\
    fo_2d f' = fo_2d f /\ fo_units f' = fo_units f /\ fo_months f' = fo_months f /\ fo_ops f' = fo_ops f /\ fo_init f' = fo_init f).
  { intros g ->. split; [|split; [|repeat split; reflexivity]].
    - intro k. unfold station. cbn [with_1d fo_1d]. rewrite look_store, var_eqb_refl, L. rewrite nth_error_map. destruct (nth_error data k); reflexivity.
    - intros w k H. unfold station. cbn [with_1d fo_1d]. rewrite look_store, var_eqb_neq by congruence. reflexivity. }
  destruct (String.eqb_spec method "multiplicative") as [->|].
  - split; [left; reflexivity|]. injection E as <-. apply (K (fun x => x * c)). reflexivity.
  - destruct (String.eqb_spec method "additive") as [->|]; [|discriminate]. split; [right; reflexivity|]. injection E as <-. apply (K (fun x => x + c)). reflexivity.
Qed.
Print Assumptions c83_correction.
