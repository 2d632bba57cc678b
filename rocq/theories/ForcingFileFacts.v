(** Lemmas on the forcing data. *)
From Flocq Require Import Core.
From Verif Require Import Base BaseFacts Clock ClockFacts TimeSeries Calendar CalendarSpec CalendarFacts CalendarFloatFacts PropertiesCalendar RunMoreFacts ForcingFile ForcingFileSpec.
Open Scope R_scope.

(** *** Layout *)
Lemma nth_flat {X} (g : nat -> list X) d n1 : (forall i, length (g i) = n1) -> forall n0 a i j, (i < n0)%nat -> (j < n1)%nat ->
  nth (i * n1 + j) (flat_map g (seq a n0)) d = nth j (g (a + i)%nat) d.
Proof.
  intros L n0. induction n0 as [|n0 IH]; intros a i j Hi Hj; [lia|]. cbn [seq flat_map]. destruct i as [|i].
  - cbn [Nat.mul Nat.add]. rewrite app_nth1 by (rewrite L; exact Hj). f_equal. f_equal. lia.
  - rewrite app_nth2 by (rewrite L; cbn; lia). rewrite L. replace (S i * n1 + j - n1)%nat with (i * n1 + j)%nat by (cbn; lia).
    rewrite IH by lia. f_equal. f_equal. lia.
Qed.
Lemma nc_cell n0 n1 cell i j : (i < n0)%nat -> (j < n1)%nat -> nth (i * n1 + j) (nc_get_var n0 n1 cell) 0 = cell i j.
Proof.
  intros Hi Hj. unfold nc_get_var. rewrite (nth_flat (fun i => map (cell i) (seq 0 n1)) 0 n1); auto.
  - cbn. rewrite (nth_indep _ 0 (cell i 0%nat)) by (rewrite map_length, seq_length; exact Hj). rewrite map_nth, seq_nth; auto.
  - intros; rewrite map_length, seq_length; reflexivity.
Qed.
Lemma map_seq_ext {X} (f g : nat -> X) a n : (forall i, (a <= i < a + n)%nat -> f i = g i) -> map f (seq a n) = map g (seq a n).
Proof. intros H. apply map_ext_in. intros i I. apply in_seq in I. apply H. lia. Qed.
Lemma unit_values_are units times v : unit_values units times v = map (unit_series v times) (seq 0 units).
Proof.
  unfold unit_values, unit_series, value_of. destruct (v_time_first v); apply map_seq_ext; intros i Hi; apply map_seq_ext; intros t Ht.
  - unfold a_at, get_var_2d. cbn [a_rows a_data]. apply nc_cell; lia.
  - unfold get_var_2d. cbn [a_rows a_data]. apply nc_cell; lia.
Qed.

(** *** map_all *)
Lemma map_all_ok {X Y} (f : X -> outcome Y) l q : map_all f l = Ok q <-> Forall2 (fun x y => f x = Ok y) l q.
Proof.
  revert q. induction l as [|x l IH]; intros q; cbn [map_all].
  - split; [intros [= <-]; constructor|intros H; inversion H; reflexivity].
  - split.
    + destruct (f x) as [y| |] eqn:E; cbn; try discriminate. destruct (map_all f l) as [r| |] eqn:E2; cbn; try discriminate. intros [= <-].
      constructor; [exact E|]. apply IH. reflexivity.
    + intros H. inversion H as [|? y ? r H1 H2]; subst. rewrite H1. cbn. apply IH in H2. rewrite H2. reflexivity.
Qed.
Lemma map_all_not_ub {X Y} (f : X -> outcome Y) l : (forall x, In x l -> f x <> UB) -> map_all f l <> UB.
Proof.
  induction l as [|x l IH]; intros H; cbn [map_all]; [discriminate|]. pose proof (H x (or_introl eq_refl)). destruct (f x); cbn; try congruence.
  assert (map_all f l <> UB) by (apply IH; intros; apply H; right; assumption). destruct (map_all f l); cbn; congruence.
Qed.
Lemma map_all_throw {X Y} (f : X -> outcome Y) l : (forall x, In x l -> f x <> UB) -> (map_all f l = Throw <-> exists x, In x l /\ f x = Throw).
Proof.
  induction l as [|x l IH]; intros H; cbn [map_all]; [split; [discriminate|intros (x & [] & _)]|].
  pose proof (H x (or_introl eq_refl)) as Hx. assert (Hl : forall y, In y l -> f y <> UB) by (intros; apply H; right; assumption).
  specialize (IH Hl). pose proof (map_all_not_ub f l Hl) as NU.
  destruct (f x) as [y| |] eqn:E; cbn; [|split; [exists x; auto|reflexivity]|congruence].
  destruct (map_all f l) as [r| |] eqn:E2; cbn; [| |congruence].
  - split; [discriminate|]. intros (z & [<-|I] & Hz); [congruence|]. assert (X0 : @Ok (list Y) r = Throw) by (apply IH; exists z; auto). discriminate.
  - split; [|reflexivity]. intros _. destruct (proj1 IH eq_refl) as (z & I & Hz). exists z; auto.
Qed.
Lemma map_all_map {X Y} (f : X -> outcome Y) (g : X -> Y) l : (forall x, In x l -> f x = Ok (g x)) -> map_all f l = Ok (map g l).
Proof. intros H. apply map_all_ok. induction l as [|x l IH]; cbn; constructor; [apply H; left; reflexivity|apply IH; intros; apply H; right; assumption]. Qed.

(** *** Attachment *)
Lemma attached_app k ty l r : attached_to k ty (l ++ r) = attached_to k ty l ++ attached_to k ty r.
Proof. unfold attached_to. rewrite filter_app, map_app. reflexivity. Qed.
Lemma attached_concat k ty q : attached_to k ty (concat q) = flat_map (attached_to k ty) q.
Proof. induction q as [|x q IH]; [reflexivity|]. cbn [concat flat_map]. rewrite attached_app, IH. reflexivity. Qed.
Definition expected (f : forcing_series R) (id : Z) (types : list nat) (ty : nat) : list (series R) :=
  if Nat.eqb (fs_type f) ty && existsb (Nat.eqb (fs_type f)) types then match data_pointer id (fs_data f) with Some s => [s] | None => [] end else [].
Lemma attach_one_at f k id types r k' ty : attach_one f (k, (id, types)) = Ok r ->
  attached_to k' ty r = if Nat.eqb k k' then expected f id types ty else [].
Proof.
  unfold attach_one, expected. destruct (existsb (Nat.eqb (fs_type f)) types).
  - destruct (data_pointer id (fs_data f)) as [s|]; [|discriminate]. destruct (series_valid s); [|discriminate]. intros [= <-].
    unfold attached_to. cbn [filter fst snd]. destruct (Nat.eqb k k'), (Nat.eqb (fs_type f) ty); reflexivity.
  - intros [= <-]. rewrite andb_false_r. destruct (Nat.eqb k k'); reflexivity.
Qed.
Lemma attach_series_at f units : forall b q k id types ty, map_all (attach_one f) (combine (seq b (length units)) units) = Ok q ->
  nth_error units k = Some (id, types) -> attached_to (b + k) ty (concat q) = expected f id types ty.
Proof.
  intros b q k id types ty H. apply map_all_ok in H. revert b q k H. induction units as [|[i t] units IH]; intros b q k H Hk; [destruct k; discriminate|].
  cbn [length seq combine] in H. inversion H as [|? r ? q' H1 H2]; subst. cbn [concat]. rewrite attached_app, (attach_one_at _ _ _ _ _ _ _ H1).
  assert (Other : forall units b q k, (k < b)%nat -> Forall2 (fun x y => attach_one f x = Ok y) (combine (seq b (length units)) units) q -> attached_to k ty (concat q) = []).
  { clear. induction units as [|[i t] units IH]; intros b q k Hb H; cbn [length seq combine] in H; inversion H as [|? r ? q' H1 H2]; subst; [reflexivity|].
    cbn [concat]. rewrite attached_app, (attach_one_at _ _ _ _ _ _ _ H1). replace (Nat.eqb b k) with false by (symmetry; apply Nat.eqb_neq; lia).
    rewrite (IH (S b) q' k); auto; lia. }
  destruct k as [|k].
  - cbn in Hk. injection Hk as -> ->. rewrite Nat.add_0_r, Nat.eqb_refl. rewrite (Other units (S b) q' b); [apply app_nil_r|lia|exact H2].
  - cbn in Hk. replace (Nat.eqb b (b + S k)) with false by (symmetry; apply Nat.eqb_neq; lia). replace (b + S k)%nat with (S b + k)%nat by lia.
    cbn [app]. apply IH; auto.
Qed.
Lemma attach_at l units a k id types ty : attach l units = Ok a -> nth_error units k = Some (id, types) ->
  attached_to k ty a = flat_map (fun f => expected f id types ty) l.
Proof.
  unfold attach. intros H Hk. destruct (map_all _ l) as [q| |] eqn:E; cbn in H; try discriminate. injection H as <-. rewrite attached_concat.
  apply map_all_ok in E. induction E as [|f r l q E1 E2 IH]; [reflexivity|]. cbn [flat_map]. rewrite IH. f_equal.
  destruct (map_all (attach_one f) _) as [w| |] eqn:E3; cbn in E1; try discriminate. injection E1 as <-.
  exact (attach_series_at f units 0 w k id types ty E3 Hk).
Qed.
Lemma attached_index l units a k ty s : attach l units = Ok a -> In (k, ty, s) a -> exists id types, nth_error units k = Some (id, types).
Proof.
  unfold attach. intros H I. destruct (map_all _ l) as [q| |] eqn:E; cbn in H; try discriminate. injection H as <-. apply map_all_ok in E.
  apply in_concat in I. destruct I as (r & Ir & Is).
  induction E as [|f r' l q E1 E2 IH]; [destruct Ir|]. destruct Ir as [->|Ir]; [|exact (IH Ir)]. clear IH E2.
  destruct (map_all (attach_one f) _) as [w| |] eqn:E3; cbn in E1; try discriminate. injection E1 as <-. apply map_all_ok in E3.
  apply in_concat in Is. destruct Is as (g & Ig & Is).
  assert (X0 : exists u, In u (combine (seq 0 (length units)) units) /\ attach_one f u = Ok g).
  { clear Is. induction E3 as [|u y us ys Q1 Q2 IH]; [destruct Ig|]. destruct Ig as [->|Ig]; [exists u; split; [left; reflexivity|exact Q1]|].
    destruct (IH Ig) as (u' & A & B). exists u'. split; [right; exact A|exact B]. }
  destruct X0 as ((k' & (id & types)) & Iu & Eu). unfold attach_one in Eu. destruct (existsb _ types); [|injection Eu as <-; destruct Is].
  destruct (data_pointer id (fs_data f)); [|discriminate]. destruct (series_valid _); [|discriminate]. injection Eu as <-. destruct Is as [[= Ek _ _]|[]]. subst k'.
  exists id, types. apply In_nth_error in Iu. destruct Iu as (m & Em).
  assert (G : forall (u : list (Z * list nat)) b m, nth_error (combine (seq b (length u)) u) m = Some (k, (id, types)) -> k = (b + m)%nat /\ nth_error u m = Some (id, types)).
  { clear. induction u as [|x u IH]; intros b m H; [destruct m; discriminate|]. cbn in H. destruct m as [|m]; cbn in H.
    - injection H as -> ->. split; [lia|reflexivity].
    - apply IH in H. destruct H as (-> & H). split; [lia|exact H]. }
  destruct (G units 0%nat m Em) as (-> & X0). exact X0.
Qed.

(** *** Acceptance *)
Lemma add_all_spec T l : forall have r, add_all T have l = Some r ->
  r = have ++ l /\ (forall f, In f l -> forcing_valid f = true) /\ (NoDup (map (@fs_type R) have) -> NoDup (map (@fs_type R) r)).
Proof.
  induction l as [|f l IH]; intros have r H; cbn [add_all] in H.
  - injection H as <-. rewrite app_nil_r. split; [reflexivity|]. split; [intros f []|auto].
  - destruct (add_series T have f) as [[|] have'] eqn:E; [|discriminate]. apply add_series_spec in E. destruct E as (-> & Hv & Ht & _).
    apply IH in H. destruct H as (-> & Hl & Hn). split; [rewrite <- app_assoc; reflexivity|]. split.
    + intros g [<-|I]; auto.
    + intros N. apply Hn. rewrite map_app. cbn [map]. apply (NoDup_Add (Add_app (fs_type f) (map (@fs_type R) have) [])). rewrite app_nil_r.
      split; [exact N|]. intros I. apply in_map_iff in I. destruct I as (g & Eg & Ig). exact (Ht g Ig Eg).
Qed.
Lemma no_duplicate_spec l : no_duplicate l = true <-> NoDup l.
Proof.
  induction l as [|x l IH]; cbn [no_duplicate]; [split; [constructor|reflexivity]|]. rewrite Bool.andb_true_iff, IH, Bool.negb_true_iff. split.
  - intros (H & N). constructor; [|exact N]. intros I. assert (existsb (Z.eqb x) l = true); [|congruence]. apply existsb_exists. exists x. split; [exact I|apply Z.eqb_refl].
  - intros N. inversion N as [|? ? H1 H2]; subst. split; [|exact H2]. destruct (existsb (Z.eqb x) l) eqn:E; [|reflexivity].
    apply existsb_exists in E. destruct E as (y & Iy & Ey). apply Z.eqb_eq in Ey. subst y. contradiction.
Qed.
Lemma pointer_at ids (l : list (series R)) i id s : NoDup (map fst (combine ids l)) -> nth_error ids i = Some id -> nth_error l i = Some s ->
  data_pointer id (combine ids l) = Some s.
Proof.
  revert l i. induction ids as [|x ids IH]; intros l i N Hi Hs; [destruct i; discriminate|]. destruct l as [|y l]; [destruct i; discriminate|].
  cbn [combine map fst] in N. inversion N as [|? ? N1 N2]; subst. cbn [combine data_pointer]. destruct i as [|i]; cbn in Hi, Hs.
  - injection Hi as ->. injection Hs as ->. rewrite Z.eqb_refl. reflexivity.
  - destruct (Z.eqb x id) eqn:E; [|exact (IH l i N2 Hi Hs)]. apply Z.eqb_eq in E. subst x. exfalso. apply N1.
    apply in_map_iff. exists (id, s). split; [reflexivity|]. apply (nth_error_In (combine ids l) i). clear - Hi Hs. revert l i Hi Hs.
    induction ids as [|z ids IH]; intros l i Hi Hs; [destruct i; discriminate|]. destruct l as [|w l]; [destruct i; discriminate|].
    destruct i as [|i]; cbn in *; [congruence|exact (IH l i Hi Hs)].
Qed.
Lemma pointer_in id l (s : series R) : data_pointer id l = Some s -> In (id, s) l.
Proof.
  induction l as [|[i x] l IH]; cbn [data_pointer]; [discriminate|]. destruct (Z.eqb i id) eqn:E; [|intros H; right; exact (IH H)].
  apply Z.eqb_eq in E. intros [= ->]. left. subst. reflexivity.
Qed.
Lemma in_combine_nth (ids : list Z) (l : list (series R)) id s : In (id, s) (combine ids l) -> exists i, nth_error ids i = Some id /\ nth_error l i = Some s.
Proof.
  revert l. induction ids as [|x ids IH]; intros l H; [destruct H|]. destruct l as [|y l]; [destruct H|]. destruct H as [[= -> ->]|H]; [exists 0%nat; auto|].
  destruct (IH l H) as (i & A & B). exists (S i). auto.
Qed.
(** A series that was accepted holds the values it was given. *)
Lemma set_valid (s : series R) v : s_values s = [] -> series_valid (snd (set_values s v)) = true -> s_values (snd (set_values s v)) = v /\ fst (set_values s v) = true.
Proof.
  intros E. unfold set_values. destruct (Reqb _ _); cbn [snd fst s_values]; [auto|]. unfold series_valid. rewrite E. cbn. discriminate.
Qed.
Lemma set_dates {V} (s : series V) v : let r := snd (set_values s v) in s_start r = s_start s /\ s_end r = s_end s /\ s_step r = s_step s /\ s_unit r = s_unit s.
Proof. unfold set_values. destruct (Reqb _ _); cbn; auto. Qed.

Lemma flat_map_empty {X Y} (g : X -> list Y) l : (forall x, In x l -> g x = []) -> flat_map g l = [].
Proof. induction l as [|x l IH]; intros H; [reflexivity|]. cbn [flat_map]. rewrite (H x (or_introl eq_refl)). apply IH. intros; apply H; right; assumption. Qed.
Lemma flat_unique (l : list (forcing_series R)) f id types : NoDup (map (@fs_type R) l) -> In f l ->
  flat_map (fun g => expected g id types (fs_type f)) l = expected f id types (fs_type f).
Proof.
  induction l as [|g l IH]; intros N I; [destruct I|]. cbn [map flat_map] in *. inversion N as [|? ? N1 N2]; subst. destruct I as [->|I].
  - rewrite (flat_map_empty _ l); [apply app_nil_r|]. intros h Ih. unfold expected. replace (Nat.eqb (fs_type h) (fs_type f)) with false; [reflexivity|].
    symmetry. apply Nat.eqb_neq. intros E. apply N1. rewrite <- E. apply in_map. exact Ih.
  - rewrite (IH N2 I). unfold expected at 1. replace (Nat.eqb (fs_type g) (fs_type f)) with false; [reflexivity|].
    symmetry. apply Nat.eqb_neq. intros E. apply N1. rewrite E. apply in_map. exact I.
Qed.

(** *** From the file to the units *)
Definition series_of (f : forcing_file) start stop step u (v : variable) (ty : nat) : forcing_series R :=
  mkF ty (combine (ff_ids f) (map (fun i => snd (set_values (mkS start stop step u [] 0) (unit_series v (length (ff_times f)) i))) (seq 0 (ff_units f)))).
Lemma parse_shape f l : parse_forcing f = Ok l -> exists start stop step u t0 t1 r,
  map to_float (ff_times f) = t0 :: t1 :: r /\ minute_date t0 = Ok start /\ minute_date (last (t1 :: r) 0) = Ok stop /\ extract_time_step (to_float (t1 - t0)) = (step, u) /\
  Forall2 (fun v g => exists ty, match_type (v_name v) = Ok ty /\ g = series_of f start stop step u v ty) (ff_variables f) l.
Proof.
  unfold parse_forcing. destruct (map to_float (ff_times f)) as [|t0 [|t1 r]] eqn:Et; try discriminate.
  destruct (minute_date t0) as [start| |] eqn:E1; cbn [bind]; try discriminate. destruct (minute_date (last (t1 :: r) 0)) as [stop| |] eqn:E2; cbn [bind]; try discriminate.
  destruct (extract_time_step (to_float (t1 - t0))) as [step u] eqn:E3. intros H. apply map_all_ok in H.
  exists start, stop, step, u, t0, t1, r. repeat (split; [assumption || reflexivity|]).
  induction H as [|v g vs gs H1 H2 IH]; constructor; [|exact IH]. destruct (match_type (v_name v)) as [ty| |]; cbn [bind] in H1; try discriminate.
  injection H1 as <-. exists ty. split; [reflexivity|]. unfold series_of. rewrite unit_values_are, map_map. reflexivity.
Qed.
Lemma in_forall2_l {X Y} (P : X -> Y -> Prop) l q x : Forall2 P l q -> In x l -> exists y, In y q /\ P x y.
Proof. induction 1 as [|a b l q H1 H2 IH]; intros []; [subst; exists b; split; [left; reflexivity|assumption]|]. destruct (IH H) as (y & A & B). exists y. split; [right|]; assumption. Qed.
Lemma in_forall2_r {X Y} (P : X -> Y -> Prop) l q y : Forall2 P l q -> In y q -> exists x, In x l /\ P x y.
Proof. induction 1 as [|a b l q H1 H2 IH]; intros []; [subst; exists a; split; [left; reflexivity|assumption]|]. destruct (IH H) as (z & A & B). exists z. split; [right|]; assumption. Qed.
Lemma nth_error_map_seq {X} (g : nat -> X) n i : (i < n)%nat -> nth_error (map g (seq 0 n)) i = Some (g i).
Proof. intros H. rewrite nth_error_map. rewrite (nth_error_nth' _ 0%nat) by (rewrite seq_length; exact H). rewrite seq_nth by exact H. reflexivity. Qed.

Lemma valid_parts (f : forcing_series R) : forcing_valid f = true -> (forall id s, In (id, s) (fs_data f) -> series_valid s = true) /\ NoDup (map fst (fs_data f)).
Proof.
  unfold forcing_valid. rewrite !Bool.andb_true_iff. intros ((_ & H) & N). split; [|apply no_duplicate_spec; exact N].
  intros id s I. rewrite forallb_forall in H. exact (H (id, s) I).
Qed.
Lemma file_to_unit f T l l' units a v ty i id k types : length (ff_ids f) = ff_units f -> parse_forcing f = Ok l -> add_all T [] l = Some l' -> attach l' units = Ok a ->
  In v (ff_variables f) -> match_type (v_name v) = Ok ty -> nth_error (ff_ids f) i = Some id -> nth_error units k = Some (id, types) -> In ty types ->
  exists s, attached_to k ty a = [s] /\ s_values s = unit_series v (length (ff_times f)) i.
Proof.
  intros Hlen HP HA HT Iv Ht Hi Hk It. destruct (parse_shape f l HP) as (start & stop & step & u & t0 & t1 & r & _ & _ & _ & _ & HF).
  destruct (add_all_spec T l [] l' HA) as (-> & Hv & Hn). cbn [app] in *. specialize (Hn ltac:(constructor)).
  destruct (in_forall2_l _ _ _ v HF Iv) as (g & Ig & ty' & Ht' & ->). assert (ty' = ty) by congruence. subst ty'.
  assert (Hlt : (i < ff_units f)%nat) by (rewrite <- Hlen; apply nth_error_Some; congruence).
  destruct (valid_parts _ (Hv _ Ig)) as (V & N). cbn [fs_data series_of] in V, N.
  rewrite (attach_at _ _ _ _ _ _ ty HT Hk). pose proof (flat_unique l _ id types Hn Ig) as FU. cbn [fs_type series_of] in FU. rewrite FU. clear FU.
  unfold expected. cbn [fs_type fs_data series_of]. rewrite Nat.eqb_refl.
  replace (existsb (Nat.eqb ty) types) with true by (symmetry; apply existsb_exists; exists ty; split; [exact It|apply Nat.eqb_refl]). cbn [andb].
  pose proof (pointer_at _ _ _ _ _ N Hi (nth_error_map_seq (fun i => snd (set_values (mkS start stop step u [] 0) (unit_series v (length (ff_times f)) i))) _ i Hlt)) as PT.
  rewrite PT. eexists. split; [reflexivity|]. apply set_valid; [reflexivity|]. apply (V id). apply pointer_in. exact PT.
Qed.
Lemma unit_from_file f T l l' units a k ty s : length (ff_ids f) = ff_units f -> parse_forcing f = Ok l -> add_all T [] l = Some l' -> attach l' units = Ok a ->
  In (k, ty, s) a -> exists v i id types, In v (ff_variables f) /\ match_type (v_name v) = Ok ty /\ nth_error (ff_ids f) i = Some id /\ nth_error units k = Some (id, types) /\
    In ty types /\ s_values s = unit_series v (length (ff_times f)) i.
Proof.
  intros Hlen HP HA HT I. destruct (attached_index _ _ _ _ _ _ HT I) as (id & types & Hk).
  destruct (parse_shape f l HP) as (start & stop & step & u & t0 & t1 & r & _ & _ & _ & _ & HF).
  destruct (add_all_spec T l [] l' HA) as (-> & Hv & Hn). cbn [app] in *.
  assert (Is : In s (attached_to k ty a)).
  { unfold attached_to. apply in_map_iff. exists (k, ty, s). split; [reflexivity|]. apply filter_In. split; [exact I|]. cbn. rewrite !Nat.eqb_refl. reflexivity. }
  rewrite (attach_at _ _ _ _ _ _ ty HT Hk) in Is. apply in_flat_map in Is. destruct Is as (g & Ig & Is). unfold expected in Is.
  destruct (Nat.eqb (fs_type g) ty) eqn:E1; [|destruct Is]. destruct (existsb (Nat.eqb (fs_type g)) types) eqn:E2; [|destruct Is]. cbn [andb] in Is.
  destruct (data_pointer id (fs_data g)) as [s'|] eqn:E3; [|destruct Is]. destruct Is as [->|[]]. apply Nat.eqb_eq in E1.
  apply existsb_exists in E2. destruct E2 as (x & Ix & Ex). apply Nat.eqb_eq in Ex. subst x.
  destruct (in_forall2_r _ _ _ g HF Ig) as (v & Iv & ty' & Ht' & ->). cbn [fs_type fs_data series_of] in *. subst ty'.
  destruct (valid_parts _ (Hv _ Ig)) as (V & N). cbn [fs_data series_of] in V, N. apply pointer_in in E3. pose proof (V _ _ E3) as Vs.
  apply in_combine_nth in E3. destruct E3 as (i & Hi & Hs).
  assert (Hlt : (i < ff_units f)%nat) by (rewrite <- Hlen; apply nth_error_Some; congruence).
  rewrite nth_error_map_seq in Hs by exact Hlt. injection Hs as <-. exists v, i, id, types. repeat (split; [assumption|]). apply set_valid; [reflexivity|exact Vs].
Qed.
Lemma to_float_int z : (Z.abs z < 2 ^ 24)%Z -> to_float (IZR z) = IZR z.
Proof.
  intros H. unfold to_float. apply round_generic; [apply valid_rnd_N|]. apply generic_format_FLT. exists (Float radix2 z 0).
  - unfold F2R. cbn. lra.
  - exact H.
  - cbn. lia.
Qed.
Lemma year_bound z y m d : civil_from_days z = (y, m, d) -> (-719468 <= z <= 11000000)%Z -> known_year y.
Proof.
  intros E H. pose proof (civil_valid z) as C. rewrite E in C. destruct C as (C1 & C2 & C3). pose proof (last_day_le y m). unfold known_year.
  unfold days_from_civil in C3. set (y' := if (m <=? 2)%Z then (y - 1)%Z else y) in *. assert (Hy : (y - 1 <= y' <= y)%Z) by (unfold y'; destruct (m <=? 2)%Z; lia).
  assert (Hm : (0 <= march_month m <= 11)%Z) by (unfold march_month; destruct (2 <? m)%Z eqn:Em; [apply Z.ltb_lt in Em|apply Z.ltb_ge in Em]; lia).
  set (a := march_month m) in *. assert (Hd : (0 <= (153 * a + 2) / 5 <= 337)%Z) by (split; [apply Z.div_pos; lia|apply Z.lt_succ_r, Z.div_lt_upper_bound; lia]).
  set (b := ((153 * a + 2) / 5)%Z) in *. clearbody a b y'. pose proof (Z.div_mod y' 400 ltac:(lia)) as D. pose proof (Z.mod_pos_bound y' 400 ltac:(lia)) as B.
  set (e := (y' / 400)%Z) in *. set (o := (y' mod 400)%Z) in *. clearbody e o.
  assert (0 <= o / 4 <= 99)%Z by (split; [apply Z.div_pos; lia|apply Z.lt_succ_r, Z.div_lt_upper_bound; lia]).
  assert (0 <= o / 100 <= 3)%Z by (split; [apply Z.div_pos; lia|apply Z.lt_succ_r, Z.div_lt_upper_bound; lia]).
  lia.
Qed.
Lemma minute_date_of x s : mjd_to_seconds x = s -> (-719468 <= s / 86400 <= 11000000)%Z -> minute_date x = Ok (seconds_to_mjd (s - s mod 60)).
Proof.
  intros Es Hb. unfold minute_date. pose proof (c39_any_date x) as (V & Tm & _).
  assert (Hk : known_year (ct_year (from_mjd x))).
  { unfold from_mjd. rewrite Es. unfold of_seconds. destruct (civil_from_days (s / 86400)) as [[y m] d] eqn:E. cbn [ct_year]. exact (year_bound _ _ _ _ E Hb). }
  destruct Tm as (T1 & T2 & T3). unfold to_mjd. rewrite to_seconds_ok by (cbn [ct_year ct_month ct_day ct_hour ct_min ct_sec]; try assumption; lia).
  cbn [ct_year ct_month ct_day ct_hour ct_min ct_sec bind]. f_equal. f_equal. unfold from_mjd. rewrite Es. unfold of_seconds.
  pose proof (civil_valid (s / 86400)) as C. destruct (civil_from_days (s / 86400)) as [[y m] d]. destruct C as (_ & _ & C). cbn [ct_year ct_month ct_day ct_hour ct_min ct_sec].
  rewrite C. pose proof (Z.div_mod s 86400 ltac:(lia)) as E. set (tod := (s mod 86400)%Z) in *.
  assert (Em : (s mod 60 = tod mod 60)%Z).
  { rewrite E. replace (86400 * (s / 86400) + tod)%Z with (tod + (1440 * (s / 86400)) * 60)%Z by lia. apply Z.mod_add. lia. }
  rewrite Em. replace (tod mod 60)%Z with ((tod - tod / 3600 * 3600) mod 60)%Z.
  - pose proof (Z.div_mod (tod - tod / 3600 * 3600) 60 ltac:(lia)). lia.
  - replace (tod - tod / 3600 * 3600)%Z with (tod + (- (tod / 3600 * 60)) * 60)%Z by lia. apply Z.mod_add. lia.
Qed.
Lemma minute_date_day z : (0 <= z <= 11000000)%Z -> minute_date (IZR z) = Ok (IZR z).
Proof.
  intros H. assert (E : mjd_to_seconds (IZR z) = ((z - 40587) * 86400)%Z).
  { unfold mjd_to_seconds. rewrite <- (minus_IZR z 40587), <- (mult_IZR _ 86400). apply c_round_int. }
  rewrite (minute_date_of _ _ E) by (rewrite Z.div_mul by lia; lia). f_equal.
  replace ((z - 40587) * 86400)%Z with (((z - 40587) * 1440) * 60)%Z by lia. rewrite Z.mod_mul by lia.
  unfold seconds_to_mjd. rewrite Z.sub_0_r, !mult_IZR, minus_IZR. lra.
Qed.

(** *** The time axis of a file *)
Lemma axis_shape (g : nat -> R) n : (2 <= n)%nat -> exists r, map g (seq 0 n) = g 0%nat :: g 1%nat :: r /\ last (g 1%nat :: r) 0 = g (n - 1)%nat.
Proof.
  intros H. destruct n as [|[|n]]; try lia. cbn [seq map]. eexists. split; [reflexivity|]. replace (S (S n) - 1)%nat with (S n) by lia.
  clear H. assert (G : forall b m, last (g b :: map g (seq (S b) m)) 0 = g (b + m)%nat).
  { intros b m. revert b. induction m as [|m IH]; intros b; [cbn; f_equal; lia|]. cbn [seq map]. change (last (g b :: g (S b) :: map g (seq (S (S b)) m)) 0) with (last (g (S b) :: map g (seq (S (S b)) m)) 0).
    rewrite IH. f_equal. lia. }
  exact (G 1%nat n).
Qed.
Lemma daily_parsed f first n : (2 <= n)%nat -> (0 <= first)%Z -> (first + Z.of_nat n <= 11000000)%Z -> ff_times f = daily_dates first n ->
  (forall v, In v (ff_variables f) -> exists ty, match_type (v_name v) = Ok ty) ->
  exists l, parse_forcing f = Ok l /\ Forall2 (fun v g => match_type (v_name v) = Ok (fs_type g) /\
    fs_data g = combine (ff_ids f) (map (fun i => mkS (IZR first) (IZR (first + Z.of_nat n - 1)) 1 Day (unit_series v n i) 0) (seq 0 (ff_units f)))) (ff_variables f) l.
Proof.
  intros Hn H0 Hb Ht Hv.
  assert (Ef : map to_float (ff_times f) = map (fun i => IZR (first + Z.of_nat i)) (seq 0 n)).
  { rewrite Ht. unfold daily_dates. rewrite map_map. apply map_seq_ext. intros i Hi. apply to_float_int. lia. }
  assert (Len : length (ff_times f) = n) by (rewrite Ht; unfold daily_dates; rewrite map_length, seq_length; reflexivity).
  destruct (axis_shape (fun i => IZR (first + Z.of_nat i)) n Hn) as (r & Er & El).
  assert (P1 : minute_date (IZR (first + Z.of_nat 0)) = Ok (IZR first)) by (rewrite Z.add_0_r; apply minute_date_day; lia).
  assert (P2 : minute_date (IZR (first + Z.of_nat (n - 1))) = Ok (IZR (first + Z.of_nat n - 1))).
  { replace (first + Z.of_nat (n - 1))%Z with (first + Z.of_nat n - 1)%Z by lia. apply minute_date_day. lia. }
  assert (P3 : extract_time_step (to_float (IZR (first + Z.of_nat 1) - IZR (first + Z.of_nat 0))) = (1%Z, Day)).
  { replace (IZR (first + Z.of_nat 1) - IZR (first + Z.of_nat 0)) with (IZR 1) by (rewrite <- minus_IZR; f_equal; lia). rewrite to_float_int by lia.
    unfold extract_time_step. destruct (Reqb_cases 1 1) as [(_ & ->)|(E & _)]; [reflexivity|congruence]. }
  unfold parse_forcing. rewrite Ef, Er, El, P1, P2. cbn [bind]. rewrite P3.
  assert (SV : forall v i, snd (set_values (mkS (IZR first) (IZR (first + Z.of_nat n - 1)) 1 Day [] 0) (unit_series v n i)) =
    mkS (IZR first) (IZR (first + Z.of_nat n - 1)) 1 Day (unit_series v n i) 0).
  { intros v i. unfold set_values. cbn [s_start s_end s_step s_unit s_cursor]. unfold unit_series at 1. rewrite map_length, seq_length. cbn [increment_date].
    match goal with |- context [Reqb ?a ?b] => destruct (Reqb_cases a b) as [(E1 & ->)|(E1 & ->)] end; [reflexivity|]. exfalso. apply E1.
    replace (first + Z.of_nat n - 1)%Z with (first + (1 * (Z.of_nat n - 1)))%Z by lia. rewrite plus_IZR. lra. }
  rewrite Len. clear - Hv SV. induction (ff_variables f) as [|v vs IH]; [exists []; split; [reflexivity|constructor]|].
  destruct (Hv v (or_introl eq_refl)) as (ty & Et). destruct IH as (l & El & Fl); [intros; apply Hv; right; assumption|].
  cbn [map_all]. rewrite Et. cbn [bind]. rewrite El. cbn [bind]. eexists. split; [reflexivity|]. constructor; [|exact Fl]. cbn [fs_type fs_data]. split; [exact Et|].
  rewrite unit_values_are, map_map. f_equal. apply map_ext. intros i. apply SV.
Qed.

(** Floats between 2^15 and 2^16 are the multiples of 1 / 256. *)
Lemma to_float_256 x z : IZR (2 ^ 15) <= x < IZR (2 ^ 16) -> Rabs (x * 256 - IZR z) < 1 / 2 -> to_float x = IZR z / 256.
Proof.
  intros (H1 & H2) Hz. unfold to_float, round, F2R, scaled_mantissa, cexp. cbn [Fnum Fexp].
  assert (M : mag radix2 x = 16%Z :> Z).
  { apply mag_unique. rewrite Rabs_right by (apply Rle_ge; apply Rle_trans with (2 := H1); apply IZR_le; lia). split; [exact H1|exact H2]. }
  rewrite M. replace (FLT_exp (-149) 24 16) with (-8)%Z by reflexivity. cbn [Z.opp]. replace (bpow radix2 8) with 256 by (cbn; lra). replace (bpow radix2 (-8)) with (/ 256) by (cbn; lra).
  rewrite (Znearest_imp _ _ z); [reflexivity|]. replace (/ 2) with (1 / 2) by lra. exact Hz.
Qed.
Lemma to_float_small z : (Z.abs z < 2 ^ 24)%Z -> to_float (IZR z / 256) = IZR z / 256.
Proof.
  intros H. unfold to_float. apply round_generic; [apply valid_rnd_N|]. apply generic_format_FLT. exists (Float radix2 z (-8)).
  - unfold F2R. cbn [Fnum Fexp]. replace (bpow radix2 (-8)) with (/ 256) by (cbn; lra). reflexivity.
  - exact H.
  - cbn. lia.
Qed.
Lemma late_hour D : (0 <= D <= 1000000)%Z -> minute_date (IZR (D * 256 + 245) / 256) = Ok (IZR D + 82680 / 86400).
Proof.
  intros H. set (x := IZR (D * 256 + 245) / 256). assert (Hx : (x - 40587) * 86400 = IZR (86400 * (D - 40587) + 82687) + 1 / 2).
  { unfold x. rewrite !plus_IZR, !mult_IZR, minus_IZR. lra. }
  assert (E : exists e, (7 <= e <= 8)%Z /\ mjd_to_seconds x = (86400 * (D - 40587) + 82680 + e)%Z).
  { unfold mjd_to_seconds. rewrite Hx. set (N := (86400 * (D - 40587) + 82687)%Z). unfold c_round. destruct (Rleb_spec 0 (IZR N + 1 / 2)) as [Hu|Hu].
    - exists 8%Z. split; [lia|]. replace (IZR N + 1 / 2 + 1 / 2) with (IZR (N + 1)) by (rewrite plus_IZR; lra).
      assert (U : up (IZR (N + 1)) = (N + 2)%Z) by (symmetry; apply tech_up; rewrite !plus_IZR; lra). rewrite U. unfold N. lia.
    - exists 7%Z. split; [lia|]. replace (1 / 2 - (IZR N + 1 / 2)) with (IZR (- N)) by (rewrite opp_IZR; lra).
      assert (U : up (IZR (- N)) = (- N + 1)%Z) by (symmetry; apply tech_up; rewrite plus_IZR; lra). rewrite U. unfold N. lia. }
  destruct E as (e & He & E).
  assert (Ed : ((86400 * (D - 40587) + 82680 + e) / 86400 = D - 40587)%Z) by (symmetry; apply (Z.div_unique _ 86400 _ (82680 + e)); lia).
  assert (Em : ((86400 * (D - 40587) + 82680 + e) mod 60 = e)%Z) by (symmetry; apply (Z.mod_unique _ 60 (1440 * (D - 40587) + 1378)); lia).
  rewrite (minute_date_of _ _ E) by (rewrite Ed; lia). rewrite Em. unfold seconds_to_mjd. f_equal.
  replace (86400 * (D - 40587) + 82680 + e - e)%Z with (86400 * (D - 40587) + 82680)%Z by lia. rewrite plus_IZR, mult_IZR, minus_IZR. lra.
Qed.
Lemma hourly_lost f first m l : (2 ^ 15 <= first)%Z -> (0 < m)%nat -> (first + Z.of_nat m <= 2 ^ 16)%Z -> ff_times f = hourly_dates first (24 * m) -> parse_forcing f = Ok l ->
  forall g, In g l -> forcing_valid g = false.
Proof.
  intros H0 Hm Hb Ht HP g Ig. destruct (parse_shape f l HP) as (start & stop & step & u & t0 & t1 & r & Ef & E1 & E2 & E3 & HF).
  assert (F256 : forall d z q, (first <= d < first + Z.of_nat m)%Z -> 0 <= q < 1 -> Rabs (q * 256 - IZR z) < 1 / 2 -> to_float (IZR d + q) = IZR (d * 256 + z) / 256).
  { intros d z q Hd Hq Hz. apply to_float_256; [|replace ((IZR d + q) * 256 - IZR (d * 256 + z)) with (q * 256 - IZR z) by (rewrite plus_IZR, mult_IZR; lra); exact Hz].
    assert (IZR (2 ^ 15) <= IZR d) by (apply IZR_le; lia). assert (IZR (d + 1) <= IZR (2 ^ 16)) by (apply IZR_le; lia). rewrite plus_IZR in *. lra. }
  assert (Ef' : map to_float (ff_times f) = map (fun i => to_float (IZR first + INR i / 24)) (seq 0 (24 * m))) by (rewrite Ht; unfold hourly_dates; apply map_map).
  destruct (axis_shape (fun i => to_float (IZR first + INR i / 24)) (24 * m) ltac:(lia)) as (r' & Er & El). rewrite Ef', Er in Ef. 
  cbv beta in El, Ef. assert (T0 : t0 = to_float (IZR first + INR 0 / 24)) by congruence. assert (T1 : t1 = to_float (IZR first + INR 1 / 24)) by congruence.
  assert (T2 : r = r') by congruence. subst t0 t1 r. rewrite El in E2. clear El Er Ef.
  assert (A0 : to_float (IZR first + INR 0 / 24) = IZR first).
  { replace (INR 0 / 24) with 0 by (cbn; lra). rewrite (F256 first 0%Z 0); [|lia|lra|rewrite Rabs_right; lra]. rewrite plus_IZR, mult_IZR. lra. }
  assert (A1 : to_float (IZR first + INR 1 / 24) = IZR (first * 256 + 11) / 256).
  { replace (INR 1 / 24) with (1 / 24) by (cbn; lra). apply F256; [lia|lra|]. apply Rabs_def1; lra. }
  set (D := (first + Z.of_nat m - 1)%Z).
  assert (A2 : to_float (IZR first + INR (24 * m - 1) / 24) = IZR (D * 256 + 245) / 256).
  { replace (IZR first + INR (24 * m - 1) / 24) with (IZR D + 23 / 24).
    - apply F256; [unfold D; lia|lra|]. apply Rabs_def1; lra.
    - rewrite INR_IZR_INZ. replace (Z.of_nat (24 * m - 1)) with (24 * (D - first) + 23)%Z by (unfold D; lia). rewrite plus_IZR, mult_IZR, minus_IZR. lra. }
  rewrite A0, minute_date_day in E1 by lia. injection E1 as <-. rewrite A2, late_hour in E2 by (unfold D; lia). injection E2 as <-.
  rewrite A0, A1 in E3. replace (IZR (first * 256 + 11) / 256 - IZR first) with (IZR 11 / 256) in E3 by (rewrite plus_IZR, mult_IZR; lra). rewrite to_float_small in E3 by lia.
  assert (X0 : extract_time_step (IZR 11 / 256) = (1%Z, Hour)).
  { unfold extract_time_step. destruct (Reqb_cases (11 / 256) 1) as [(E & _)|(_ & ->)]; [lra|]. rewrite (proj2 (Rltb_false 1 (11 / 256))) by lra. f_equal. apply c_round_near. apply Rabs_def1; lra. }
  rewrite X0 in E3. injection E3 as <- <-. destruct (in_forall2_r _ _ _ g HF Ig) as (v & _ & ty & _ & ->).
  unfold forcing_valid. cbn [fs_data series_of].
  assert (Len : length (ff_times f) = (24 * m)%nat) by (rewrite Ht; unfold hourly_dates; rewrite map_length, seq_length; reflexivity). rewrite Len.
  set (mk := fun i => snd (set_values (mkS (IZR first) (IZR D + 82680 / 86400) 1 Hour [] 0) (unit_series v (24 * m) i))).
  assert (EM : forall i, series_valid (mk i) = false).
  { intros i. unfold mk, set_values. cbn [s_start s_end s_step s_unit s_cursor]. unfold unit_series at 1. rewrite map_length, seq_length. cbn [increment_date].
    match goal with |- context [Reqb ?a ?b] => destruct (Reqb_cases a b) as [(E & _)|(_ & ->)] end; [|reflexivity]. exfalso.
    replace (1 * (Z.of_nat (24 * m) - 1))%Z with (24 * (D - first) + 23)%Z in E by (unfold D; lia). rewrite plus_IZR, mult_IZR, minus_IZR in E. lra. }
  destruct (combine (ff_ids f) (map mk (seq 0 (ff_units f)))) as [|[id s] q] eqn:Ec; [reflexivity|].
  assert (Is : In (id, s) (combine (ff_ids f) (map mk (seq 0 (ff_units f))))) by (rewrite Ec; left; reflexivity).
  apply in_combine_r in Is. apply in_map_iff in Is. destruct Is as (i & <- & _). cbn [forallb snd]. rewrite EM. cbn [andb].
  rewrite Bool.andb_false_r. reflexivity.
Qed.

(** *** Missing units *)
Lemma pointer_none id (l : list (Z * series R)) : data_pointer id l = None <-> ~ In id (map fst l).
Proof.
  induction l as [|[i s] l IH]; cbn [data_pointer map fst]; [split; [intros _ []|reflexivity]|]. destruct (Z.eqb i id) eqn:E.
  - apply Z.eqb_eq in E. split; [discriminate|]. intros N. exfalso. apply N. left. exact E.
  - apply Z.eqb_neq in E. rewrite IH. split; [intros N [X0|I]; [congruence|exact (N I)]|intros N I; apply N; right; exact I].
Qed.
Lemma attach_one_not_ub f u : attach_one f u <> UB.
Proof.
  destruct u as (k & id & types). unfold attach_one. destruct (existsb _ types); [|discriminate]. destruct (data_pointer id (fs_data f)) as [s|]; [|discriminate]. destruct (series_valid s); discriminate.
Qed.
Lemma attach_not_ub l units : attach l units <> UB.
Proof.
  unfold attach. assert (N : map_all (fun f => bind (map_all (attach_one f) (combine (seq 0 (length units)) units)) (fun q => Ok (concat q))) l <> UB).
  { apply map_all_not_ub. intros f _. pose proof (map_all_not_ub (attach_one f) (combine (seq 0 (length units)) units) (fun x _ => attach_one_not_ub f x)) as N. destruct (map_all _ _); cbn; congruence. }
  destruct (map_all _ l); cbn; congruence.
Qed.
Lemma in_combine_seq {X} (l : list X) b k x : In (k, x) (combine (seq b (length l)) l) <-> exists j, k = (b + j)%nat /\ nth_error l j = Some x.
Proof.
  revert b. induction l as [|y l IH]; intros b; cbn [length seq combine]; [split; [intros []|intros (j & _ & H); destruct j; discriminate]|]. split.
  - intros [[= <- <-]|I]; [exists 0%nat; split; [lia|reflexivity]|]. apply IH in I. destruct I as (j & -> & H). exists (S j). split; [lia|exact H].
  - intros (j & -> & H). destruct j as [|j]; [left; cbn in H; injection H as ->; f_equal; lia|]. right. apply IH. exists j. split; [lia|exact H].
Qed.
Lemma attach_throws l units : (forall f, In f l -> forcing_valid f = true) ->
  (attach l units = Throw <-> exists f id types, In f l /\ In (id, types) units /\ In (fs_type f) types /\ ~ In id (map fst (fs_data f))).
Proof.
  intros Hv. unfold attach. set (G := fun f => bind (map_all (attach_one f) (combine (seq 0 (length units)) units)) (fun q => Ok (concat q))).
  assert (NG : forall f, In f l -> G f <> UB).
  { intros f _. unfold G. pose proof (map_all_not_ub (attach_one f) (combine (seq 0 (length units)) units) (fun x _ => attach_one_not_ub f x)) as N. destruct (map_all _ _); cbn; congruence. }
  assert (E1 : bind (map_all G l) (fun q => Ok (concat q)) = Throw <-> map_all G l = Throw) by (destruct (map_all G l); cbn; split; congruence).
  rewrite E1, (map_all_throw G l NG).
  assert (E2 : forall f, G f = Throw <-> exists u, In u (combine (seq 0 (length units)) units) /\ attach_one f u = Throw).
  { intros f. rewrite <- (map_all_throw (attach_one f) _ (fun x _ => attach_one_not_ub f x)). unfold G. destruct (map_all (attach_one f) _); cbn; split; congruence. }
  split.
  - intros (f & If & Ef). apply E2 in Ef. destruct Ef as ((k & (id & types)) & Iu & Eu). apply in_combine_seq in Iu. destruct Iu as (j & _ & Hj).
    exists f, id, types. split; [exact If|]. split; [apply (nth_error_In _ j); exact Hj|]. unfold attach_one in Eu.
    destruct (existsb (Nat.eqb (fs_type f)) types) eqn:Ex; [|discriminate]. apply existsb_exists in Ex. destruct Ex as (x & Ix & Ex). apply Nat.eqb_eq in Ex. subst x.
    split; [exact Ix|]. apply pointer_none. destruct (data_pointer id (fs_data f)) as [s|] eqn:Ep; [|reflexivity]. apply pointer_in in Ep.
    destruct (valid_parts f (Hv f If)) as (V & _). rewrite (V id s Ep) in Eu. discriminate.
  - intros (f & id & types & If & Iu & It & N). exists f. split; [exact If|]. apply E2. apply In_nth_error in Iu. destruct Iu as (j & Hj).
    exists (j, (id, types)). split; [apply in_combine_seq; exists j; split; [lia|exact Hj]|]. unfold attach_one.
    replace (existsb (Nat.eqb (fs_type f)) types) with true by (symmetry; apply existsb_exists; exists (fs_type f); split; [exact It|apply Nat.eqb_refl]).
    rewrite (proj2 (pointer_none id (fs_data f)) N). reflexivity.
Qed.
Lemma fst_combine {X Y} (a : list X) (b : list Y) : length a = length b -> map fst (combine a b) = a.
Proof. revert b. induction a as [|x a IH]; intros [|y b] H; try discriminate; [reflexivity|]. cbn. f_equal. apply IH. cbn in H. lia. Qed.

(** *** Created series *)
Lemma created name times ids data g : create_forcing name times ids data = Ok g ->
  match_type name = Ok (fs_type g) /\ a_rows data = length times /\ a_cols data = length ids /\
  map fst (fs_data g) = ids /\ forall i id, nth_error ids i = Some id -> exists s, nth_error (fs_data g) i = Some (id, s) /\ s_values s = array_series data (length times) i.
Proof.
  unfold create_forcing. destruct times as [|t0 [|t1 r]]; try discriminate. set (times := t0 :: t1 :: r).
  destruct (minute_date t0) as [start| |]; cbn [bind]; try discriminate. destruct (minute_date (last (t1 :: r) 0)) as [stop| |]; cbn [bind]; try discriminate.
  destruct (extract_time_step (t1 - t0)) as [step u]. destruct (match_type name) as [ty| |]; cbn [bind]; try discriminate.
  destruct (Nat.eqb (a_rows data) (length times)) eqn:R1; cbn [negb orb]; [|discriminate]. destruct (Nat.eqb (a_cols data) (length ids)) eqn:R2; cbn [negb]; [|discriminate].
  apply Nat.eqb_eq in R1, R2. destruct (map_all _ (seq 0 (a_cols data))) as [l| |] eqn:E; cbn [bind]; try discriminate. intros [= <-]. cbn [fs_type fs_data].
  apply map_all_ok in E. split; [reflexivity|]. split; [exact R1|]. split; [exact R2|].
  assert (Ll : length ids = length l) by (rewrite <- R2, <- (seq_length (a_cols data) 0); clear - E; induction E; cbn; congruence).
  split; [apply fst_combine; exact Ll|]. intros i id Hi.
  assert (Hlt : (i < a_cols data)%nat) by (rewrite R2; apply nth_error_Some; congruence).
  destruct (nth_error l i) as [s|] eqn:Es; [|apply nth_error_None in Es; lia]. exists s. split.
  - clear - Hi Es. revert l i Hi Es. induction ids as [|z ids IH]; intros l i Hi Hs; [destruct i; discriminate|]. destruct l as [|w l]; [destruct i; discriminate|].
    destruct i as [|i]; cbn in *; [congruence|exact (IH l i Hi Hs)].
  - assert (Ei : nth_error (seq 0 (a_cols data)) i = Some i) by (rewrite (nth_error_nth' _ 0%nat) by (rewrite seq_length; exact Hlt); rewrite seq_nth by exact Hlt; reflexivity).
    assert (Q : forall (P : nat -> series R -> Prop) a b, Forall2 P a b -> forall j x y, nth_error a j = Some x -> nth_error b j = Some y -> P x y).
    { clear. induction 1 as [|x y a b H1 H2 IH]; intros [|j] x' y' A B; cbn in *; try discriminate; [congruence|exact (IH j x' y' A B)]. }
    pose proof (Q _ _ _ E i i s Ei Es) as X0. cbv beta in X0. unfold set_values in X0. destruct (Reqb _ _); [|discriminate]. injection X0 as <-. cbn [s_values].
    unfold array_series, a_at. rewrite R1. reflexivity.
Qed.

(** *** Totals *)
Lemma fold_plus_sum (l : list R) : forall a, fold_left Rplus l a = a + Rsum (fun x => x) l.
Proof. induction l as [|x l IH]; intros a; cbn [fold_left Rsum]; [lra|]. rewrite IH. lra. Qed.
