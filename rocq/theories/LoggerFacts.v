(** Lemmas on the logger's totals. *)
From Coq Require Import String Ascii.
From Verif Require Import Base BaseFacts Logger LoggerSpec.
Open Scope R_scope.

Lemma prefix_spec p : forall s, String.prefix p s = true <-> exists r, s = (p ++ r)%string.
Proof.
  induction p as [|a p IH]; intros s; cbn [String.prefix append]; [split; [intros _; exists s; reflexivity|intros _; destruct s; reflexivity]|].
  destruct s as [|b s]; [split; [discriminate|intros (r & H); discriminate]|]. cbn [String.prefix]. destruct (ascii_dec a b) as [->|Hn].
  - rewrite IH. split; intros (r & H); exists r; [congruence|injection H as H; exact H].
  - split; [discriminate|]. intros (r & H). injection H as H _. congruence.
Qed.
Lemma contains_spec text : forall label, contains text label = true <-> has_text text label.
Proof.
  unfold contains. induction label as [|b s IH].
  - cbn [String.index]. destruct text as [|a t]; [split; [intros _; exists ""%string, ""%string; reflexivity|reflexivity]|].
    split; [discriminate|]. intros (x & y & H). destruct x; discriminate.
  - cbn [String.index]. destruct (String.prefix text (String b s)) eqn:P.
    + split; [intros _|reflexivity]. apply prefix_spec in P. destruct P as (r & P). exists ""%string, r. exact P.
    + destruct (String.index 0 text s) as [n|].
      * split; [intros _|reflexivity]. destruct (proj1 IH eq_refl) as (x & y & ->). exists (String b x), y. reflexivity.
      * split; [discriminate|]. intros (x & y & H). destruct x as [|c x].
        -- exfalso. assert (X : String.prefix text (String b s) = true) by (apply prefix_spec; exists y; exact H). congruence.
        -- injection H as -> H. apply (proj2 IH). exists x, y. exact H.
Qed.

Lemma la_app a b : list_ascii_of_string (a ++ b) = list_ascii_of_string a ++ list_ascii_of_string b.
Proof. induction a as [|c a IH]; [reflexivity|]. cbn. rewrite IH. reflexivity. Qed.
Lemma la_inj a b : list_ascii_of_string a = list_ascii_of_string b -> a = b.
Proof. intros H. rewrite <- (string_of_list_ascii_of_string a), <- (string_of_list_ascii_of_string b), H. reflexivity. Qed.
Lemma append_assoc a b c : ((a ++ b) ++ c)%string = (a ++ b ++ c)%string.
Proof. apply la_inj. rewrite !la_app. symmetry. apply app_assoc. Qed.
Lemma colon_free s : no_colon s <-> ~ In ":"%char (list_ascii_of_string s).
Proof.
  split.
  - intros H Hin. apply in_split in Hin. destruct Hin as (l1 & l2 & E). apply (H (string_of_list_ascii l1) (string_of_list_ascii l2)). apply la_inj.
    rewrite !la_app, !list_ascii_of_string_of_list_ascii. exact E.
  - intros H a b ->. apply H. rewrite !la_app. apply in_or_app. right. left. reflexivity.
Qed.
Lemma split_colon a b : forall x y : list ascii, ~ In ":"%char a -> ~ In ":"%char b -> a ++ ":"%char :: x = b ++ ":"%char :: y -> a = b.
Proof.
  revert b. induction a as [|c a IH]; intros [|d b] x y Ha Hb E; cbn in *; [reflexivity| | |].
  - injection E as <- _. exfalso. apply Hb. left. reflexivity.
  - injection E as -> _. exfalso. apply Ha. left. reflexivity.
  - injection E as -> E. f_equal. eapply IH; [| |exact E]; tauto.
Qed.
Lemma same_component a b x y : no_colon a -> no_colon b -> (a ++ ":" ++ x)%string = (b ++ ":" ++ y)%string -> a = b.
Proof.
  intros Ha Hb E. apply (f_equal list_ascii_of_string) in E. rewrite !la_app in E. cbn in E. apply la_inj. eapply split_colon; [apply colon_free, Ha|apply colon_free, Hb|exact E].
Qed.
Lemma no_colon_app a b : no_colon a -> no_colon b -> no_colon (a ++ b)%string.
Proof. intros Ha Hb. apply colon_free. rewrite la_app. intros H. apply in_app_or in H. destruct H as [H|H]; [apply colon_free in Ha|apply colon_free in Hb]; tauto. Qed.
Lemma append_inj_r a b c : (a ++ c)%string = (b ++ c)%string -> a = b.
Proof. intros E. apply (f_equal list_ascii_of_string) in E. rewrite !la_app in E. apply la_inj. exact (app_inv_tail _ _ _ E). Qed.
Lemma not_both a b : (a ++ "_snowpack")%string <> (b ++ "_canopy")%string.
Proof.
  intros E. apply (f_equal list_ascii_of_string) in E. rewrite !la_app in E. apply (f_equal (@rev ascii)) in E. rewrite !rev_app_distr in E. cbn in E. discriminate.
Qed.
Lemma nc_snow : no_colon "_snowpack". Proof. apply colon_free. cbn. intuition congruence. Qed.
Lemma nc_canopy : no_colon "_canopy". Proof. apply colon_free. cbn. intuition congruence. Qed.

(** A component is on one cover at most. *)
Lemma one_cover covers label c d : clear_names covers -> In c covers -> In d covers -> on_cover c label -> on_cover d label -> c = d.
Proof.
  intros (_ & Hc & Hs) Ic Id. assert (K : forall e, on_cover e label -> exists n rest, (n = e \/ n = e ++ "_snowpack" \/ n = e ++ "_canopy")%string /\ label = (n ++ ":" ++ rest)%string).
  { intros e (rest & [E|[E|E]]); [exists e|exists (e ++ "_snowpack")%string|exists (e ++ "_canopy")%string]; exists rest; (split; [tauto|]); rewrite E, ?append_assoc; reflexivity. }
  intros Oc Od. destruct (K c Oc) as (n & r & Hn & En). destruct (K d Od) as (m & q & Hm & Em).
  assert (NC : forall e n, In e covers -> (n = e \/ n = e ++ "_snowpack" \/ n = e ++ "_canopy")%string -> no_colon n).
  { intros e x He [->|[->| ->]]; [apply Hc; exact He|apply no_colon_app; [apply Hc; exact He|exact nc_snow]|apply no_colon_app; [apply Hc; exact He|exact nc_canopy]]. }
  assert (E : n = m). { apply (same_component n m r q); [eapply NC; [exact Ic|exact Hn]|eapply NC; [exact Id|exact Hm]|congruence]. }
  subst m. destruct Hn as [->|[->| ->]], Hm as [E|[E|E]].
  - exact E.
  - destruct (Hs c d Ic Id) as (X & _). contradiction.
  - destruct (Hs c d Ic Id) as (_ & X). contradiction.
  - destruct (Hs d c Id Ic) as (X & _). congruence.
  - exact (append_inj_r _ _ _ E).
  - destruct (not_both _ _ E).
  - destruct (Hs d c Id Ic) as (_ & X). congruence.
  - destruct (not_both _ _ (eq_sym E)).
  - exact (append_inj_r _ _ _ E).
Qed.
Lemma on_cover_test c label : starts_with (c ++ ":") label || starts_with (c ++ "_snowpack:") label || starts_with (c ++ "_canopy:") label = true <-> on_cover c label.
Proof.
  unfold starts_with. rewrite !orb_true_iff, !prefix_spec. unfold on_cover. split.
  - intros [[(r & E)|(r & E)]|(r & E)]; exists r; rewrite append_assoc in E; [left|right; left|right; right]; exact E.
  - intros (r & [E|[E|E]]); [left; left|left; right|right]; exists r; rewrite append_assoc; exact E.
Qed.
Lemma fraction_of_part L label t u f : clear_names (map fst (lg_covers L)) -> area_part L label t u f -> fraction_of L label t u = f.
Proof.
  intros N H. unfold fraction_of, cover_of. destruct (List.find _ (lg_covers L)) as [[c v]|] eqn:F.
  - apply find_some in F. destruct F as (Hin & F). cbn [fst] in F. apply on_cover_test in F. destruct H as [(d & w & Hd & Od & ->)|(H & _)]; [|destruct (H c v Hin F)].
    assert (c = d) by (apply (one_cover _ label c d N); [exact (in_map fst _ _ Hin)|exact (in_map fst _ _ Hd)|exact F|exact Od]). subst d.
    assert (v = w). { destruct N as (N & _). revert N Hin Hd. clear. generalize (lg_covers L). intros l. induction l as [|[a b] l IH]; cbn; [tauto|]. intros N [E|E] [E'|E'].
      - congruence. - exfalso. inversion N as [|? ? Hn _]; subst. apply Hn. injection E as -> ->. exact (in_map fst _ _ E').
      - exfalso. inversion N as [|? ? Hn _]; subst. apply Hn. injection E' as -> ->. exact (in_map fst _ _ E). - inversion N; subst. auto. }
    subst w. reflexivity.
  - destruct H as [(d & w & Hd & Od & ->)|(_ & ->)]; [|reflexivity]. pose proof (find_none _ _ F _ Hd) as X. cbn [fst] in X. apply on_cover_test in Od. congruence.
Qed.

Lemma osum_some {X} (f : X -> option R) (g : X -> R) l : (forall x, In x l -> f x = Some (g x)) -> osum f l = Some (Rsum g l).
Proof.
  intros H. unfold osum. induction l as [|x l IH]; [reflexivity|]. cbn [fold_right Rsum]. rewrite IH by (intros; apply H; right; assumption). rewrite H by (left; reflexivity). reflexivity.
Qed.
Lemma rows_mean_eq L v : rows_mean L v = Rsum (fun t => Rsum (fun u => lg_area L u / area_sum L * v t u) (units L)) (steps L).
Proof.
  unfold rows_mean, Rdiv. rewrite <- Rsum_scal_r. apply Rsum_ext_in. intros t _. rewrite <- Rsum_scal_r. apply Rsum_ext_in. intros u _. lra.
Qed.
Lemma row_mean_eq L v : row_mean L v = Rsum (fun u => lg_area L u / area_sum L * v u) (units L).
Proof. unfold row_mean, Rdiv. rewrite <- Rsum_scal_r. apply Rsum_ext_in. intros u _. lra. Qed.
Lemma pick_ok {X} (l : list X) idx : (forall i, In i idx -> (i < length l)%nat) -> exists s, pick l idx = Ok s /\ Forall2 (fun i x => nth_error l i = Some x) idx s.
Proof.
  induction idx as [|i idx IH]; intros H; [exists []; split; [reflexivity|constructor]|]. cbn [pick].
  destruct (nth_error l i) as [x|] eqn:E; [|apply nth_error_None in E; specialize (H i ltac:(left; reflexivity)); lia].
  destruct IH as (s & Es & Fs); [intros j Hj; apply H; right; exact Hj|]. rewrite Es. exists (x :: s). split; [reflexivity|constructor; assumption].
Qed.
Lemma osum_cons {X} (f : X -> option R) x l : osum f (x :: l) = oplus (f x) (osum f l).
Proof. reflexivity. Qed.
