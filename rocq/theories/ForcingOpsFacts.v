(** Lemmas: preparation of the forcing. *)
From Coq Require Import String.
From Verif Require Import BaseFacts ForcingOpsSpec.
Open Scope string_scope.
Open Scope R_scope.

Lemma var_eqb_eq a b : var_eqb a b = true <-> a = b.
Proof. unfold var_eqb. rewrite Nat.eqb_eq. split; [|intros ->; reflexivity]. destruct a, b; cbn; intro H; congruence || discriminate H. Qed.
Lemma var_eqb_refl a : var_eqb a a = true.
Proof. apply var_eqb_eq. reflexivity. Qed.
Lemma var_eqb_neq a b : a <> b -> var_eqb a b = false.
Proof. intro H. destruct (var_eqb a b) eqn:E; [|reflexivity]. apply var_eqb_eq in E. contradiction. Qed.
Lemma var_dec (a b : variable) : a = b \/ a <> b.
Proof. destruct (var_eqb a b) eqn:E; [left; apply var_eqb_eq; exact E|right; intros ->; rewrite var_eqb_refl in E; discriminate]. Qed.
Lemma look_store {A} (l : list (variable * A)) v x w : look (store l v x) w = if var_eqb v w then Ok x else look l w.
Proof.
  unfold look. induction l as [|(u, y) l IH]; cbn [store find fst snd].
  - destruct (var_eqb v w); reflexivity.
  - destruct (var_eqb u v) eqn:E; cbn [find fst snd].
    + apply var_eqb_eq in E. subst u. destruct (var_eqb v w) eqn:F; reflexivity.
    + destruct (var_eqb u w) eqn:F; [|exact IH]. destruct (var_eqb v w) eqn:G; [|reflexivity]. apply var_eqb_eq in F, G. subst. rewrite var_eqb_refl in E. discriminate.
Qed.

(** *** Months *)
Lemma set_month_length m f : forall months data acc, List.length data = List.length months -> List.length acc = List.length months -> List.length (set_month m f months data acc) = List.length months.
Proof. induction months as [|mo months IH]; intros [|x data] [|a acc] H K; try discriminate; [reflexivity|]. cbn in *. rewrite IH; lia. Qed.
Lemma set_month_nth m f : forall months data acc k mo x a, nth_error months k = Some mo -> nth_error data k = Some x -> nth_error acc k = Some a ->
  nth_error (set_month m f months data acc) k = Some (if Nat.eqb mo m then f x else a).
Proof.
  induction months as [|mo' months IH]; intros data acc k mo x a H K L; [destruct k; discriminate|]. destruct data as [|x' data]; [destruct k; discriminate|]. destruct acc as [|a' acc]; [destruct k; discriminate|].
  destruct k as [|k]; cbn in *; [injection H as ->; injection K as ->; injection L as ->; reflexivity|apply (IH data acc k mo x a H K L)].
Qed.
Lemma months_fold f months data k mo x : List.length data = List.length months -> nth_error months k = Some mo -> nth_error data k = Some x ->
  forall ms acc, List.length acc = List.length months -> let r := fold_left (fun acc m => set_month (m + 1) (f m) months data acc) ms acc in
  List.length r = List.length months /\ (NoDup ms -> nth_error r k = if existsb (fun m => Nat.eqb mo (m + 1)) ms then Some (f (mo - 1)%nat x) else nth_error acc k).
Proof.
  intros Hl Hm Hx. induction ms as [|m ms IH]; intros acc Ha; cbn [fold_left existsb]; [split; [exact Ha|reflexivity]|].
  destruct (IH (set_month (m + 1) (f m) months data acc)) as (A & B); [apply set_month_length; assumption|]. cbv zeta in *. split; [exact A|]. intro N. inversion N as [|? ? N1 N2]; subst. rewrite (B N2).
  assert (Ea : exists a, nth_error acc k = Some a) by (destruct (nth_error acc k) eqn:E; [eauto|apply nth_error_None in E; assert (k < List.length months)%nat by (apply nth_error_Some; congruence); lia]).
  destruct Ea as (a & Ea). rewrite (set_month_nth _ _ _ _ _ k mo x a Hm Hx Ea). destruct (Nat.eqb_spec mo (m + 1)) as [->|Hne]; cbn [orb].
  - destruct (existsb _ ms) eqn:E; [exfalso; apply existsb_exists in E; destruct E as (m' & I & J); apply Nat.eqb_eq in J; assert (m' = m) by lia; subst; contradiction|]. rewrite Nat.add_sub. reflexivity.
  - rewrite Ea. reflexivity.
Qed.
Lemma monthly_nth f months data k mo x : List.length data = List.length months -> nth_error months k = Some mo -> nth_error data k = Some x -> (1 <= mo <= 12)%nat ->
  nth_error (monthly f months data) k = Some (f (mo - 1)%nat x).
Proof.
  intros Hl Hm Hx Hr. unfold monthly. destruct (months_fold f months data k mo x Hl Hm Hx (seq 0 12) (map (fun _ => 0) months)) as (_ & B); [apply map_length|]. cbv zeta in B. rewrite B by apply seq_NoDup.
  destruct (existsb _ (seq 0 12)) eqn:E; [reflexivity|]. exfalso. assert (X : existsb (fun m => Nat.eqb mo (m + 1)) (seq 0 12) = true); [|congruence]. apply existsb_exists. exists (mo - 1)%nat. split; [apply in_seq; lia|apply Nat.eqb_eq; lia].
Qed.

(** *** One unit *)
Lemma with_gradient_nth L g months data r k mo x : with_gradient L g months data = Ok r -> List.length data = List.length months -> nth_error months k = Some mo -> nth_error data k = Some x -> (1 <= mo <= 12)%nat ->
  exists a, gradient_in g mo = Some a /\ nth_error r k = Some (L a x).
Proof.
  intros E Hl Hm Hx Hr. assert (Mp : forall a, nth_error (map (L a) data) k = Some (L a x)) by (intro a; apply map_nth_error; exact Hx).
  destruct g as [|a|n|l]; cbn [with_gradient gradient_in] in *; try discriminate; [injection E as <-; exists a; auto|].
  destruct l as [|a [|b l]]; [discriminate| |]; [injection E as <-; exists a; auto|]. set (l0 := a :: b :: l) in *. destruct (Nat.eqb_spec (List.length l0) 12) as [E12|]; [|discriminate]. injection E as <-.
  exists (nth (mo - 1) l0 0). split; [apply nth_error_nth'; lia|]. rewrite (monthly_nth _ _ _ _ _ _ Hl Hm Hx Hr). reflexivity.
Qed.
Lemma unit_series_law method ref g g2 th months data z s k mo x : unit_series method ref g g2 th months data z = Ok s -> List.length data = List.length months ->
  nth_error months k = Some mo -> nth_error data k = Some x -> (1 <= mo <= 12)%nat -> exists y, law ref g g2 th mo z x method y /\ nth_error s k = Some y.
Proof.
  intros E Hl Hm Hx Hr. unfold unit_series in E.
  destruct (String.eqb_spec method "constant") as [->|_]; [injection E as <-; exists x; split; [constructor|exact Hx]|].
  destruct (String.eqb_spec method "additive_elevation_gradient") as [->|_].
  { destruct (number ref) as [z0| |] eqn:R; destruct ref; try discriminate; cbn [bind] in E; destruct (with_gradient_nth _ _ _ _ _ _ _ _ E Hl Hm Hx Hr) as (a & A & B); eexists; (split; [apply (law_additive _ _ _ _ _ _ _ z0 a R A)|exact B]). }
  destruct (String.eqb_spec method "multiplicative_elevation_gradient") as [->|_].
  { destruct (number ref) as [z0| |] eqn:R; destruct ref; try discriminate; cbn [bind] in E; destruct (with_gradient_nth _ _ _ _ _ _ _ _ E Hl Hm Hx Hr) as (a & A & B); eexists; (split; [apply (law_multiplicative _ _ _ _ _ _ _ z0 a R A)|exact B]). }
  destruct (String.eqb_spec method "multiplicative_elevation_threshold_gradients") as [->|_]; [|discriminate].
  destruct (number th) as [h| |] eqn:Th; cbn [bind] in E; try discriminate. destruct (Rltb z h) eqn:Z.
  - destruct (number g) as [a| |] eqn:G; cbn [bind] in E; try discriminate. destruct (number ref) as [z0| |] eqn:Rf; cbn [bind] in E; try discriminate. injection E as <-. apply Rltb_true in Z.
    exists (x * threshold_factor z0 a 0 h z). split; [apply law_threshold; auto; intro; lra|]. unfold threshold_factor. rewrite (proj2 (Rltb_true z h)) by exact Z. apply (map_nth_error (fun x => x * (1 + a * (z - z0) / 100))). exact Hx.
  - apply Rltb_false in Z. destruct (number ref) as [z0| |] eqn:Rf; cbn [bind] in E; try discriminate. destruct (Rltb h z0) eqn:H0.
    + destruct (number g2) as [b| |] eqn:G2; cbn [bind] in E; try discriminate. injection E as <-. apply Rltb_true in H0.
      exists (x * threshold_factor z0 0 b h z). split; [apply law_threshold; auto; intro; lra|]. unfold threshold_factor. rewrite (proj2 (Rltb_false z h)) by exact Z. rewrite (proj2 (Rltb_true h z0)) by exact H0. apply (map_nth_error (fun x => x * (1 + b * (z - z0) / 100))). exact Hx.
    + destruct (number g) as [a| |] eqn:G; cbn [bind] in E; try discriminate. destruct (number g2) as [b| |] eqn:G2; cbn [bind] in E; try discriminate. injection E as <-.
      exists (x * threshold_factor z0 a b h z). split; [apply law_threshold; auto|]. unfold threshold_factor. rewrite (proj2 (Rltb_false z h)) by exact Z. rewrite H0.
      rewrite (map_nth_error (fun x => x * (1 + a * (h - z0) / 100) * (1 + b * (z - h) / 100)) k data Hx). f_equal. ring.
Qed.
Lemma clip_nth v s k y : nth_error s k = Some y -> nth_error (clip v s) k = Some (physical v y).
Proof.
  intro H. unfold clip. assert (F : (if Rltb y 0 then 0 else y) = Rmax 0 y) by (destruct (Rltb_spec y 0); [rewrite Rmax_left by lra|rewrite Rmax_right by lra]; reflexivity).
  destruct v; cbn [can_be_negative physical]; try exact H; rewrite <- F; apply (map_nth_error (fun x => if Rltb x 0 then 0 else x)); exact H.
Qed.
Lemma all_units_nth {A} (f : place -> outcome A) : forall l r i p, all_units f l = Ok r -> nth_error l i = Some p -> exists x, f p = Ok x /\ nth_error r i = Some x.
Proof.
  induction l as [|q l IH]; intros r i p E H; [destruct i; discriminate|]. cbn [all_units] in E. destruct (f q) as [x| |] eqn:F; cbn [bind] in E; try discriminate. destruct (all_units f l) as [m| |] eqn:M; cbn [bind] in E; try discriminate. injection E as <-.
  destruct i as [|i]; cbn in *; [injection H as <-; exists x; auto|apply (IH m i p eq_refl H)].
Qed.
(** What a spatialisation writes. *)
Definition written (f : forcing) (name method : string) (ref g g1 g2 threshold : arg) : outcome (list (list R)) :=
  bind (get_variable name) (fun v => bind (look (fo_1d f) v) (fun data => bind (default_method v method) (fun method =>
  let g := match g with ANone => g1 | _ => g end in
  if match g with AList l => negb (Nat.eqb (List.length l) 1) && negb (Nat.eqb (List.length l) 12) | _ => false end then Throw
  else if negb (Nat.eqb (List.length data) (List.length (fo_months f))) then Throw
  else all_units (fun p => bind (unit_series method ref g g2 threshold (fo_months f) data (pl_elevation p)) (fun s => Ok (clip v s))) (fo_units f)))).
Lemma spatialize_written f name method ref g g1 g2 th f' : spatialize f name method ref g g1 g2 th = Ok f' ->
  exists v x, get_variable name = Ok v /\ written f name method ref g g1 g2 th = Ok x /\ f' = with_2d f (store (fo_2d f) v x).
Proof.
  unfold spatialize, written. destruct (get_variable name) as [v| |]; cbn [bind]; try discriminate. destruct (look (fo_1d f) v) as [data| |]; cbn [bind]; try discriminate. destruct (default_method v method) as [m| |]; cbn [bind]; try discriminate. cbv zeta.
  destruct (match match g with ANone => g1 | _ => g end with AList l => _ | _ => false end); [discriminate|]. destruct (negb _); [discriminate|]. destruct (all_units _ _) as [x| |] eqn:E; cbn [bind]; try discriminate. intros [= <-]. exists v, x. auto.
Qed.
