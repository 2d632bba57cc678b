(** Lemmas on time-varying parameters. *)
From Coq Require Import Sorted.
From Verif Require Import Base BaseFacts Search SearchFacts Calendar CalendarFacts CalendarSpec Parameters ParametersSpec PropertiesCalendar.
Open Scope R_scope.

Lemma months_valid x : (1 <= ct_month (from_mjd x) <= 12)%Z.
Proof. destruct (c39_any_date x) as (V & _). apply valid_date_spec in V. lia. Qed.

Lemma years_length a n : length (years_from a (a + Z.of_nat n - 1)) = n.
Proof. unfold years_from. rewrite map_length, seq_length. lia. Qed.
Lemma years_nth a n k : (k < n)%nat -> nth_error (years_from a (a + Z.of_nat n - 1)) k = Some (IZR (a + Z.of_nat k)).
Proof.
  intros H. unfold years_from. rewrite nth_error_map. replace (Z.to_nat (a + Z.of_nat n - 1 - a + 1)) with n by lia.
  rewrite (nth_error_nth' (seq 0 n) 0%nat) by (rewrite seq_length; exact H). rewrite seq_nth by exact H. reflexivity.
Qed.
Lemma seq_sorted n : forall s, StronglySorted lt (seq s n).
Proof. induction n as [|n IH]; intros s; cbn [seq]; constructor; [apply IH|]. apply Forall_forall. intros x Hx. apply in_seq in Hx. lia. Qed.
Lemma map_sorted {X} (P : X -> X -> Prop) (f : X -> R) (Q : R -> R -> Prop) l : (forall x y, P x y -> Q (f x) (f y)) -> StronglySorted P l -> StronglySorted Q (map f l).
Proof.
  intros H S1. induction S1 as [|a l Hs IH Hf]; cbn; constructor; [exact IH|]. apply Forall_forall. intros y Hy. apply in_map_iff in Hy. destruct Hy as (x & <- & Hx).
  apply H. rewrite Forall_forall in Hf. auto.
Qed.
Lemma years_sorted a b : StronglySorted Rlt (years_from a b).
Proof. unfold years_from. apply (map_sorted lt); [|apply seq_sorted]. intros x y H. apply IZR_lt. lia. Qed.
Lemma sorted_weaken l : StronglySorted Rlt l -> StronglySorted Rle l.
Proof. induction 1 as [|a l Hs IH Hf]; constructor; [exact IH|]. eapply Forall_impl; [|exact Hf]. intros; lra. Qed.
Lemma sorted_inj l : StronglySorted Rlt l -> forall i j x, nth_error l i = Some x -> nth_error l j = Some x -> i = j.
Proof.
  intros H i j x Hi Hj. assert (Li : (i < length l)%nat) by (apply nth_error_Some; congruence). assert (Lj : (j < length l)%nat) by (apply nth_error_Some; congruence).
  pose proof (nth_error_nth _ _ 0 Hi) as Ei. pose proof (nth_error_nth _ _ 0 Hj) as Ej.
  destruct (Nat.lt_trichotomy i j) as [L|[L|L]]; [|exact L|]; exfalso; [pose proof (sorted_nth Rlt l H i j ltac:(lia))|pose proof (sorted_nth Rlt l H j i ltac:(lia))]; lra.
Qed.
Lemma abs0 x y : Rabs (x - y) <= 0 <-> x = y.
Proof. split; [intros H; pose proof (Rle_abs (x - y)); pose proof (Rle_abs (- (x - y))) as K; rewrite Rabs_Ropp in K; lra|intros ->; rewrite Rminus_diag_eq by reflexivity; rewrite Rabs_R0; lra]. Qed.
(** Exact search in a strictly increasing array. *)
Lemma find_exact l v : l <> [] -> StronglySorted Rlt l ->
  (forall i, nth_error l i = Some v -> find_value l v 0 = Ok (Found i)) /\ (~ In v l -> exists r, find_value l v 0 = Ok r /\ forall i, r <> Found i).
Proof.
  intros Hn Hs. destruct (c38_search l v 0 Hn (or_introl (sorted_weaken l Hs))) as (E & F & _ & _ & (r & Er)). split.
  - intros i Hi. destruct (proj1 E) as (j & Hj); [exists v; split; [exact (nth_error_In l i Hi)|apply abs0; reflexivity]|]. rewrite Hj. do 2 f_equal.
    destruct (F j Hj) as (x & Hx & Hab). apply abs0 in Hab. subst x. exact (sorted_inj l Hs j i v Hx Hi).
  - intros Hv. exists r. split; [exact Er|]. intros i ->. destruct (F i Er) as (x & Hx & Hab). apply abs0 in Hab. subst x. exact (Hv (nth_error_In l i Hx)).
Qed.

(** UpdateValue gives the specified value, or nothing. *)
Lemma update_value_spec s m date : accepted s m -> exists v, update_value m date = Ok v /\
  match v with Some x => specified s date x | None => forall w, ~ specified s date w end.
Proof.
  destruct s as [a values|values|values]; cbn [accepted].
  - intros (Hn & H). unfold set_yearly in H. injection H as Hl <-. apply Nat.eqb_eq in Hl. cbn [update_value specified].
    set (n := length values) in *. set (y := ct_year (from_mjd date)). assert (Hpos : (0 < n)%nat) by (unfold n; destruct values; [congruence|cbn; lia]).
    assert (Yn : years_from a (a + Z.of_nat n - 1) <> []) by (intros E; rewrite E in Hl; cbn in Hl; lia).
    destruct (find_exact _ (IZR y) Yn (years_sorted _ _)) as (F1 & F2).
    destruct (Z_le_gt_dec a y) as [H1|H1]; [destruct (Z_lt_ge_dec y (a + Z.of_nat n)) as [H2|H2]|].
    + rewrite (F1 (Z.to_nat (y - a))) by (rewrite years_nth by lia; do 2 f_equal; lia). cbn [bind]. unfold read.
      destruct (nth_error values (Z.to_nat (y - a))) as [v|] eqn:Ev; [|apply nth_error_None in Ev; unfold n in *; lia]. exists v. split; [reflexivity|].
      destruct v as [x|]; [split; [lia|reflexivity]|intros w (_ & Hw); congruence].
    + destruct F2 as (r & Er & Hr).
      { intros Hin. apply In_nth_error in Hin. destruct Hin as (k & Hk). assert (Hkn : (k < n)%nat) by (rewrite <- (years_length a n); apply nth_error_Some; congruence).
        rewrite years_nth in Hk by exact Hkn. injection Hk as Hk. apply eq_IZR in Hk. lia. }
      rewrite Er. exists None. split; [destruct r; [exfalso; exact (Hr i eq_refl)|reflexivity|reflexivity]|]. intros w (_ & Hw).
      assert (Z.to_nat (y - a) < length values)%nat by (apply nth_error_Some; congruence). unfold n in *. lia.
    + destruct F2 as (r & Er & Hr).
      { intros Hin. apply In_nth_error in Hin. destruct Hin as (k & Hk). assert (Hkn : (k < n)%nat) by (rewrite <- (years_length a n); apply nth_error_Some; congruence).
        rewrite years_nth in Hk by exact Hkn. injection Hk as Hk. apply eq_IZR in Hk. lia. }
      rewrite Er. exists None. split; [destruct r; [exfalso; exact (Hr i eq_refl)|reflexivity|reflexivity]|]. intros w (Hw & _). lia.
  - unfold set_monthly. intros [= Hl <-]. apply Nat.eqb_eq in Hl. cbn [update_value specified]. pose proof (months_valid date) as M. unfold read.
    destruct (nth_error values (Z.to_nat (ct_month (from_mjd date) - 1))) as [v|] eqn:Ev; [|apply nth_error_None in Ev; lia]. exists v. split; [reflexivity|].
    destruct v as [x|]; [split; [lia|reflexivity]|intros w (_ & Hw); congruence].
  - intros (Hn & Hs & H). unfold set_dated in H. injection H as _ <-. cbn [update_value specified].
    assert (Yn : map fst values <> []) by (destruct values; [congruence|discriminate]). destruct (find_exact _ date Yn Hs) as (F1 & F2).
    destruct (in_dec Req_EM_T date (map fst values)) as [Hin|Hin].
    + apply In_nth_error in Hin. destruct Hin as (i & Hi). rewrite (F1 i Hi). cbn [bind]. unfold read. rewrite nth_error_map in *.
      destruct (nth_error values i) as [[d v]|] eqn:Ev; [|discriminate]. cbn in Hi |- *. injection Hi as ->. exists v. split; [reflexivity|].
      destruct v as [x|]; [exact (nth_error_In _ _ Ev)|]. intros w Hw. apply In_nth_error in Hw. destruct Hw as (j & Hj).
      assert (i = j). { apply (sorted_inj _ Hs i j date); rewrite nth_error_map, ?Ev, ?Hj; reflexivity. } subst j. congruence.
    + destruct (F2 Hin) as (r & Er & Hr). rewrite Er. exists None. split; [destruct r; [exfalso; exact (Hr i eq_refl)|reflexivity|reflexivity]|].
      intros w Hw. apply Hin. exact (in_map fst _ _ Hw).
Qed.
(** Two dates of the same year (and month) have the same specified values, for yearly (monthly) schedules. *)
Lemma not_concerned s m a b : accepted s m -> forall x, concerned a b (mkPar x m) = false -> forall w, specified s a w <-> specified s b w.
Proof.
  destruct s as [f values|values|values]; cbn [accepted].
  - intros (_ & H) x C w. unfold set_yearly in H. injection H as _ <-. cbn in C. apply negb_false_iff, Z.eqb_eq in C. cbn. rewrite C. tauto.
  - unfold set_monthly. intros [= _ <-] x C w. cbn in C. apply orb_false_iff in C. destruct C as (_ & C). apply negb_false_iff, Z.eqb_eq in C. cbn. rewrite C. tauto.
  - intros (_ & _ & H) x C. unfold set_dated in H. injection H as _ <-. discriminate C.
Qed.

Lemma in_use_total s i : forall l, (forall d, In d l -> (exists v, specified s d v) \/ forall w, ~ specified s d w) -> exists v, in_use s i l v.
Proof.
  induction l as [|d l IH] using rev_ind; intros H; [exists i; constructor|]. destruct (H d) as [(v & Hv)|Hv]; [apply in_or_app; right; left; reflexivity| |].
  - exists v. constructor. exact Hv.
  - destruct IH as (v & Iv); [intros e He; apply H; apply in_or_app; left; exact He|]. exists v. apply use_previous; assumption.
Qed.

Lemma specified_unique s m d v w : accepted s m -> specified s d v -> specified s d w -> v = w.
Proof.
  intros A Hv Hw. destruct s as [a values|values|values]; cbn [specified accepted] in *.
  - destruct Hv as (_ & Hv). destruct Hw as (_ & Hw). congruence.
  - destruct Hv as (_ & Hv). destruct Hw as (_ & Hw). congruence.
  - destruct A as (_ & Hs & _). apply In_nth_error in Hv, Hw. destruct Hv as (i & Hi). destruct Hw as (j & Hj).
    assert (i = j) by (apply (sorted_inj _ Hs i j d); rewrite nth_error_map, ?Hi, ?Hj; reflexivity). subst j. congruence.
Qed.

(** One date. *)
Lemma update_one s m initial (dates : list R) d previous p :
  accepted s m -> par_modifier p = m -> in_use s initial dates (par_value p) ->
  (exists l, dates = l ++ [previous]) \/ concerned previous d p = true ->
  exists q, (if concerned previous d p then update_parameter d p else Ok p) = Ok q /\ par_modifier q = m /\ in_use s initial (dates ++ [d]) (par_value q).
Proof.
  intros A M U H. destruct (update_value_spec s m d A) as (v & Ev & Hv). destruct (concerned previous d p) eqn:C.
  - unfold update_parameter. rewrite M, Ev. cbn [bind]. destruct v as [x|]; eexists; (split; [reflexivity|]); cbn; (split; [first [reflexivity|exact M]|]).
    + constructor. exact Hv.
    + apply use_previous; assumption.
  - exists p. split; [reflexivity|]. split; [exact M|]. destruct H as [(l & ->)|H]; [|discriminate].
    destruct p as [x m']. cbn in M. subst m'. pose proof (not_concerned s m previous d A x C) as N. cbn in U |- *.
    inversion U as [E|l' d' v' Hs E|l' d' v' Hs Hu E].
    + destruct l; discriminate.
    + apply app_inj_tail in E. destruct E as (<- & <-). subst v'. apply use_specified. apply N. exact Hs.
    + apply app_inj_tail in E. destruct E as (<- & <-). apply use_previous; [intros w Hw; apply (Hs w), N, Hw|exact U].
Qed.

Lemma map_ok_Forall2 {X Y Z'} (f : X -> outcome Y) (P : Z' -> X -> Prop) (Q : Z' -> Y -> Prop) zs xs :
  (forall z x, P z x -> exists y, f x = Ok y /\ Q z y) -> Forall2 P zs xs -> exists ys, map_ok f xs = Ok ys /\ Forall2 Q zs ys.
Proof.
  intros H F. induction F as [|z x zs xs Hp F (ys & E & G)]; [exists []; split; [reflexivity|constructor]|]. destruct (H z x Hp) as (y & Ey & Qy). exists (y :: ys). cbn. rewrite Ey. cbn. rewrite E. cbn. split; [reflexivity|constructor; assumption].
Qed.

(** A parameter of the user: its schedule, its modifier and its initial value; and the state it is in after some dates. *)
Definition follows (done : list R) (u : schedule * R) (p : parameter) : Prop :=
  accepted (fst u) (par_modifier p) /\ in_use (fst u) (snd u) done (par_value p).

Lemma updater_dates_follow us : forall dates done up,
  up_active up = true -> Forall2 (follows done) us (up_parameters up) ->
  ((exists l, done = l ++ [up_previous up]) \/ match dates with [] => True | d :: _ => ct_year (from_mjd (up_previous up)) <> ct_year (from_mjd d) end) ->
  exists up', updater_dates dates up = Ok up' /\ Forall2 (follows (done ++ dates)) us (up_parameters up').
Proof.
  induction dates as [|d dates IH]; intros done up A F H.
  - exists up. split; [reflexivity|]. rewrite app_nil_r. exact F.
  - cbn [updater_dates]. unfold updater_date at 1. rewrite A.
    destruct (map_ok_Forall2 (fun p => if concerned (up_previous up) d p then update_parameter d p else Ok p) (follows done) (follows (done ++ [d])) us (up_parameters up)) as (ys & Ey & G); [|exact F|].
    + intros u p (Ac & U). destruct (update_one (fst u) (par_modifier p) (snd u) done d (up_previous up) p Ac eq_refl U) as (q & Eq & Mq & Uq).
      * destruct H as [H|H]; [left; exact H|right]. apply Z.eqb_neq in H. unfold concerned. rewrite H. destruct (par_modifier p); reflexivity.
      * exists q. split; [exact Eq|]. split; [rewrite Mq; exact Ac|exact Uq].
    + rewrite Ey. cbn [bind]. destruct (IH (done ++ [d]) (mkUp true d ys) eq_refl G) as (up' & E & G').
      * left. exists done. reflexivity.
      * exists up'. split; [exact E|]. rewrite <- app_assoc in G'. exact G'.
Qed.
