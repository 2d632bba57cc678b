(** Lemmas: dictionaries, and the flow gathered from the cells. *)
From Verif Require Import BaseFacts ConnectivitySpec.
Open Scope R_scope.

(** *** Dictionaries *)
Definition val (P : Z -> bool) (d : dict) : R := Rsum (fun q => if P (fst q) then snd q else 0) d.
Lemma val_add P d k x : val P (d_add d k x) = val P d + (if P k then x else 0).
Proof.
  unfold val. induction d as [|(j, y) d IH]; cbn [d_add Rsum fst snd].
  - destruct (P k); lra.
  - destruct (Z.eqb_spec j k) as [->|]; cbn [Rsum fst snd]; [destruct (P k); lra|]. rewrite IH. lra.
Qed.
Lemma keys_add d k x j : In j (map fst (d_add d k x)) <-> In j (map fst d) \/ j = k.
Proof.
  induction d as [|(i, y) d IH]; cbn [d_add map fst In].
  - intuition.
  - destruct (Z.eqb_spec i k) as [->|]; cbn [map fst In]; [|rewrite IH]; intuition.
Qed.
Lemma nodup_add d k x : NoDup (map fst d) -> NoDup (map fst (d_add d k x)).
Proof.
  induction d as [|(i, y) d IH]; cbn [d_add map fst]; intro H.
  - constructor; [intros []|constructor].
  - inversion H as [|? ? A B]; subst. destruct (Z.eqb_spec i k) as [->|Hne]; cbn [map fst]; [constructor; assumption|]. constructor; [|apply IH; exact B].
    rewrite keys_add. intros [K| ->]; [exact (A K)|congruence].
Qed.
Lemma val_in d k x : NoDup (map fst d) -> In (k, x) d -> val (Z.eqb k) d = x.
Proof.
  unfold val. induction d as [|(i, y) d IH]; cbn [map fst Rsum In snd]; intros N H; [destruct H|]. inversion N as [|? ? A B]; subst. destruct H as [H|H].
  - injection H as -> ->. rewrite Z.eqb_refl. rewrite Rsum_zero; [lra|]. intros (j, z) Hj. cbn. destruct (Z.eqb_spec k j) as [->|]; [|reflexivity]. elim A. apply in_map_iff. exists (j, z). auto.
  - destruct (Z.eqb_spec k i) as [->|]; [elim A; apply in_map_iff; exists (i, x); auto|]. rewrite IH by assumption. lra.
Qed.
Lemma in_keys (d : dict) k : In k (map fst d) <-> exists x, In (k, x) d.
Proof. rewrite in_map_iff. split; [intros ((j, x) & <- & H); exists x; exact H|intros (x & H); exists (k, x); auto]. Qed.
Lemma nodup_filter (f : Z * R -> bool) d : NoDup (map fst d) -> NoDup (map fst (filter f d)).
Proof.
  induction d as [|q d IH]; cbn; intro H; [constructor|]. inversion H as [|? ? A B]; subst. destruct (f q); cbn; [constructor; [|apply IH; exact B]|apply IH; exact B].
  intro K. apply A. apply in_map_iff in K. destruct K as (r & E & K). apply filter_In in K. apply in_map_iff. exists r. tauto.
Qed.
Lemma sum_del d k : Rsum snd (d_del d k) = val (fun w => negb (Z.eqb w k)) d.
Proof. unfold d_del, val. rewrite Rsum_filter_if. reflexivity. Qed.
Lemma max_from_spec d : forall k x, let m := max_from d k x in exists y, In (m, y) ((k, x) :: d) /\ forall j z, In (j, z) ((k, x) :: d) -> z <= y.
Proof.
  induction d as [|(j, y) d IH]; intros k x; cbn [max_from].
  - exists x. split; [left; reflexivity|]. intros j z [H|[]]. injection H as _ <-. lra.
  - destruct (Rltb x y) eqn:E.
    + apply Rltb_true in E. destruct (IH j y) as (z & A & B). exists z. split; [right; exact A|]. intros i w [H|H]; [|apply (B i w H)]. injection H as _ <-. pose proof (B j y (or_introl eq_refl)). lra.
    + apply Rltb_false in E. destruct (IH k x) as (z & A & B). exists z. split; [destruct A as [A|A]; [left; exact A|right; right; exact A]|]. intros i w [H|[H|H]].
      * apply (B i w). left. exact H.
      * injection H as _ <-. pose proof (B k x (or_introl eq_refl)). lra.
      * apply (B i w). right. exact H.
Qed.
Lemma max_key_spec d m : max_key d = Some m -> exists y, In (m, y) d /\ forall j z, In (j, z) d -> z <= y.
Proof. destruct d as [|(j, y) d]; [discriminate|]. cbn. intros [= <-]. apply max_from_spec. Qed.
Lemma max_key_none d : max_key d = None -> d = [].
Proof. destruct d as [|(j, y) d]; [reflexivity|discriminate]. Qed.

(** *** Cells *)
Lemma cells_all g : all_cells g = cells g.
Proof. unfold all_cells, cells. induction (seq 0 (g_rows g)) as [|i l IH]; cbn; [reflexivity|]. rewrite IH. reflexivity. Qed.
Lemma in_cells g c : In c (cells g) <-> (fst c < g_rows g)%nat /\ (snd c < g_cols g)%nat.
Proof. destruct c as (i, j). unfold cells. rewrite in_prod_iff, !in_seq. cbn. lia. Qed.
Lemma nodup_prod {A B} (l : list A) (m : list B) : NoDup l -> NoDup m -> NoDup (list_prod l m).
Proof.
  induction l as [|a l IH]; cbn; intros Hl Hm; [constructor|]. inversion Hl as [|? ? A1 A2]; subst.
  assert (G : forall x y : list (A * B), NoDup x -> NoDup y -> (forall q, In q x -> In q y -> False) -> NoDup (x ++ y)).
  { induction x as [|q x IHx]; cbn; intros y Hx Hy Hd; [exact Hy|]. inversion Hx; subst. constructor; [|apply IHx; [assumption|exact Hy|intros r R1 R2; apply (Hd r); [right; exact R1|exact R2]]].
    intro K. apply in_app_or in K. destruct K as [K|K]; [contradiction|]. apply (Hd q); [left; reflexivity|exact K]. }
  apply G; [|apply IH; assumption|].
  - clear -Hm. induction m as [|b m IHm]; cbn; [constructor|]. inversion Hm; subst. constructor; [|apply IHm; assumption]. intro K. apply in_map_iff in K. destruct K as (b' & E & K). injection E as ->. contradiction.
  - intros (x, y) H1 H2. apply in_map_iff in H1. destruct H1 as (b & E & _). injection E as <- <-. apply in_prod_iff in H2. tauto.
Qed.
Lemma nodup_cells g : NoDup (cells g).
Proof. apply nodup_prod; apply seq_NoDup. Qed.
(** The next cell of the code is the one the direction points to. *)
Lemma next_drains g i j n : next_cell g i j = Ok n -> forall c', In c' (cells g) -> (drains g (i, j) c' = true <-> n = Some c').
Proof.
  intros E (i', j') Hc. apply in_cells in Hc. cbn [fst snd] in Hc. destruct Hc as (Hi & Hj). revert E. unfold next_cell, drains, d8_offset. cbn [fst snd].
  set (d := g_dir g i j). destruct (Z.leb_spec d 0) as [Hd|Hd].
  - intros [= <-]. split; [|discriminate]. destruct d as [|q|q]; [discriminate|lia|discriminate].
  - assert (Fin : forall a b (bb : bool), (bb = true <-> (Z.of_nat i + a = Z.of_nat i' /\ Z.of_nat j + b = Z.of_nat j')%Z) ->
      (if Z.ltb (Z.of_nat i + a) 0 || Z.leb (Z.of_nat (g_rows g)) (Z.of_nat i + a) || Z.ltb (Z.of_nat j + b) 0 || Z.leb (Z.of_nat (g_cols g)) (Z.of_nat j + b) then Ok None else Ok (Some (Z.to_nat (Z.of_nat i + a), Z.to_nat (Z.of_nat j + b)))) = Ok n ->
      (bb = true <-> n = Some (i', j'))).
    { intros a b bb Hb. rewrite Hb. destruct (Z.ltb_spec (Z.of_nat i + a) 0); cbn [orb]; [intros [= <-]; split; [lia|discriminate]|]. destruct (Z.leb_spec (Z.of_nat (g_rows g)) (Z.of_nat i + a)); cbn [orb]; [intros [= <-]; split; [lia|discriminate]|].
      destruct (Z.ltb_spec (Z.of_nat j + b) 0); cbn [orb]; [intros [= <-]; split; [lia|discriminate]|]. destruct (Z.leb_spec (Z.of_nat (g_cols g)) (Z.of_nat j + b)); cbn [orb]; [intros [= <-]; split; [lia|discriminate]|].
      intros [= <-]. split; [intros (A & B); f_equal; f_equal; lia|]. intros [= A B]. lia. }
    repeat match goal with |- context[Z.eqb d ?z] => destruct (Z.eqb_spec d z) as [->|?]; [apply Fin; rewrite andb_true_iff, !Nat.eqb_eq; lia|] end.
    discriminate.
Qed.

(** *** Gathering *)
Definition contrib (g : grid) (u : Z) (c : nat * nat) : option (Z * R) :=
  if Z.eqb u 0 then None else if Z.eqb (id_of g c) u then
    match next_cell g (fst c) (snd c) with Ok (Some c') => if Z.eqb (id_of g c') u then None else Some (id_of g c', g_acc g (fst c) (snd c)) | _ => None end
  else None.
Definition absorb (g : grid) (u : Z) (d : dict) (c : nat * nat) : dict := match contrib g u c with Some (v, x) => d_add d v x | None => d end.
Lemma add_flow_map t u v x : NoDup (map fst t) -> add_flow t u v x = map (fun q => (fst q, if Z.eqb (fst q) u then d_add (snd q) v x else snd q)) t.
Proof.
  induction t as [|(w, d) t IH]; cbn [add_flow map fst snd]; intro N; [reflexivity|]. inversion N as [|? ? A B]; subst. destruct (Z.eqb_spec w u) as [->|Hw]; cbn [andb].
  - assert (H : has_row t u = false). { unfold has_row. destruct (existsb _ t) eqn:E; [|reflexivity]. apply existsb_exists in E. destruct E as ((w, d') & H & K). apply Z.eqb_eq in K. cbn in K. subst w. elim A. apply in_map_iff. exists (u, d'). auto. }
    rewrite H. cbn [negb]. f_equal. rewrite <- (map_id t) at 1. apply map_ext_in. intros (w, d') Hq. cbn. destruct (Z.eqb_spec w u) as [->|]; [|reflexivity]. elim A. apply in_map_iff. exists (u, d'). auto.
  - f_equal. apply IH. exact B.
Qed.
Lemma cell_flow_map g t c t' : NoDup (map fst t) -> cell_flow g t c = Ok t' -> t' = map (fun q => (fst q, absorb g (fst q) (snd q) c)) t.
Proof.
  intros N. destruct c as (i, j). unfold cell_flow. assert (Same : (forall q, In q t -> contrib g (fst q) (i, j) = None) -> t = map (fun q => (fst q, absorb g (fst q) (snd q) (i, j))) t).
  { intro H. rewrite <- (map_id t) at 1. apply map_ext_in. intros (w, d) Hq. unfold absorb. rewrite (H _ Hq). reflexivity. }
  unfold contrib, id_of in Same. cbn [fst snd] in Same.
  destruct (Z.eqb_spec (g_id g i j) 0) as [E0|E0].
  - intros [= <-]. apply Same. intros (w, d) Hq. cbn [fst]. destruct (Z.eqb_spec w 0) as [|]; [reflexivity|]. destruct (Z.eqb_spec (g_id g i j) w); [congruence|reflexivity].
  - destruct (next_cell g i j) as [n| |] eqn:En; cbn [bind]; try discriminate. destruct n as [(i', j')|].
    2:{ intros [= <-]. apply Same. intros (w, d) Hq. cbn [fst]. destruct (Z.eqb w 0); [reflexivity|]. destruct (Z.eqb (g_id g i j) w); reflexivity. }
    destruct (Z.eqb_spec (g_id g i' j') (g_id g i j)) as [Ev|Ev].
    + intros [= <-]. apply Same. intros (w, d) Hq. cbn [fst]. destruct (Z.eqb w 0); [reflexivity|]. destruct (Z.eqb_spec (g_id g i j) w) as [<-|]; [|reflexivity]. cbn [fst snd]. rewrite (proj2 (Z.eqb_eq _ _) Ev). reflexivity.
    + destruct (has_row t (g_id g i j)); [|discriminate]. intros [= <-]. rewrite add_flow_map by exact N. apply map_ext. intros (w, d). cbn [fst snd]. f_equal. unfold absorb, contrib, id_of. cbn [fst snd].
      destruct (Z.eqb_spec w (g_id g i j)) as [->|Hw].
      * rewrite (proj2 (Z.eqb_neq _ _) E0), Z.eqb_refl, En. cbn [fst snd]. rewrite (proj2 (Z.eqb_neq _ _) Ev). reflexivity.
      * destruct (Z.eqb w 0); [reflexivity|]. destruct (Z.eqb_spec (g_id g i j) w); [congruence|reflexivity].
Qed.
Lemma cells_flow_map g l : forall t t', NoDup (map fst t) -> cells_flow g t l = Ok t' -> t' = map (fun q => (fst q, fold_left (absorb g (fst q)) l (snd q))) t.
Proof.
  induction l as [|c l IH]; intros t t' N; cbn [cells_flow fold_left].
  - intros [= <-]. rewrite <- (map_id t) at 1. apply map_ext. intros (w, d). reflexivity.
  - destruct (cell_flow g t c) as [t1| |] eqn:E; cbn [bind]; try discriminate. intro H. pose proof (cell_flow_map g t c t1 N E) as ->.
    apply IH in H; [|rewrite map_map; exact N]. rewrite H, map_map. apply map_ext. intros (w, d). reflexivity.
Qed.
(** A known direction, or no flow, at every cell that counts. *)
Lemma cells_flow_next g l : forall t t', cells_flow g t l = Ok t' -> forall c, In c l -> id_of g c <> 0%Z -> exists n, next_cell g (fst c) (snd c) = Ok n.
Proof.
  induction l as [|c l IH]; intros t t' H x Hx Nz; [destruct Hx|]. cbn [cells_flow] in H. destruct (cell_flow g t c) as [t1| |] eqn:E; cbn [bind] in H; try discriminate. destruct Hx as [<-|Hx]; [|apply (IH t1 t' H x Hx Nz)].
  destruct c as (i, j). unfold cell_flow in E. unfold id_of in Nz. cbn [fst snd] in *. destruct (Z.eqb_spec (g_id g i j) 0); [contradiction|]. destruct (next_cell g i j) as [nx| |]; cbn [bind] in E; try discriminate. exists nx. reflexivity.
Qed.
Lemma absorb_fold g u l : forall d, NoDup (map fst d) ->
  NoDup (map fst (fold_left (absorb g u) l d)) /\
  (forall k, In k (map fst (fold_left (absorb g u) l d)) <-> In k (map fst d) \/ exists c x, In c l /\ contrib g u c = Some (k, x)) /\
  forall P, val P (fold_left (absorb g u) l d) = val P d + Rsum (fun c => match contrib g u c with Some (v, x) => if P v then x else 0 | None => 0 end) l.
Proof.
  induction l as [|c l IH]; intros d N; cbn [fold_left Rsum].
  - split; [exact N|]. split; [intro k; split; [auto|intros [H|(c & x & [] & _)]; exact H]|]. intro P. lra.
  - assert (N1 : NoDup (map fst (absorb g u d c))) by (unfold absorb; destruct (contrib g u c) as [(v, x)|]; [apply nodup_add; exact N|exact N]). destruct (IH _ N1) as (A & B & C). split; [exact A|]. split.
    + intro k. rewrite B. unfold absorb. destruct (contrib g u c) as [(v, x)|] eqn:E.
      * rewrite keys_add. split.
        -- intros [[H| ->]|(c' & x' & H & K)]; [left; exact H|right; exists c, x; split; [left; reflexivity|exact E]|right; exists c', x'; split; [right; exact H|exact K]].
        -- intros [H|(c' & x' & [<-|H] & K)]; [left; left; exact H|rewrite K in E; injection E as -> ->; left; right; reflexivity|right; exists c', x'; auto].
      * split; [intros [H|(c' & x' & H & K)]; [left; exact H|right; exists c', x'; split; [right; exact H|exact K]]|].
        intros [H|(c' & x' & [<-|H] & K)]; [left; exact H|congruence|right; exists c', x'; auto].
    + intro P. rewrite C. unfold absorb. destruct (contrib g u c) as [(v, x)|]; [rewrite val_add|]; lra.
Qed.
Lemma sum_one {A} (l : list A) (f : A -> R) a : NoDup l -> In a l -> (forall b, In b l -> b <> a -> f b = 0) -> Rsum f l = f a.
Proof.
  induction l as [|b l IH]; cbn; intros N H Z0; [destruct H|]. inversion N as [|? ? A1 A2]; subst. destruct H as [->|H].
  - rewrite Rsum_zero; [lra|]. intros x Hx. apply Z0; [right; exact Hx|]. intros ->. contradiction.
  - rewrite IH; [|exact A2|exact H|intros c Hc Hn; apply Z0; [right; exact Hc|exact Hn]]. rewrite (Z0 b); [lra|left; reflexivity|]. intros ->. contradiction.
Qed.
Lemma next_in g i j c' : next_cell g i j = Ok (Some c') -> In c' (cells g).
Proof.
  unfold next_cell. destruct (Z.leb (g_dir g i j) 0); [discriminate|]. destruct (d8_offset (g_dir g i j)) as [(a, b)|]; [|discriminate]. cbv zeta.
  destruct (Z.ltb_spec (Z.of_nat i + a) 0); cbn [orb]; [discriminate|]. destruct (Z.leb_spec (Z.of_nat (g_rows g)) (Z.of_nat i + a)); cbn [orb]; [discriminate|].
  destruct (Z.ltb_spec (Z.of_nat j + b) 0); cbn [orb]; [discriminate|]. destruct (Z.leb_spec (Z.of_nat (g_cols g)) (Z.of_nat j + b)); cbn [orb]; [discriminate|].
  intros [= <-]. apply in_cells. cbn. lia.
Qed.
(** The dictionary of a unit after all the cells. *)
Lemma gathered g ids t : NoDup ids -> gather g ids = Ok t -> map fst t = ids /\ forall u d, In (u, d) t -> u <> 0%Z ->
  NoDup (map fst d) /\ (forall v, In v (map fst d) <-> v <> u /\ receives g u v) /\ forall P, val P d = flow_where g u (fun w => P w && negb (Z.eqb w u)).
Proof.
  intros N E. unfold gather in E. rewrite cells_all in E. pose proof (cells_flow_next _ _ _ _ E) as Nx. apply cells_flow_map in E; [|rewrite map_map; cbn; rewrite map_id; exact N]. rewrite map_map in E. cbn in E. split; [subst t; rewrite map_map; cbn; apply map_id|].
  intros u d Hin Hu. subst t. apply in_map_iff in Hin. destruct Hin as (w & Eq & Hw). injection Eq as -> <-.
  destruct (absorb_fold g u (cells g) [] (NoDup_nil _)) as (A & B & C). split; [exact A|]. split.
  - intro v. rewrite B. split.
    + intros [[]|(c & x & Hc & K)]. revert K. unfold contrib. destruct (Z.eqb u 0); [discriminate|]. destruct (Z.eqb_spec (id_of g c) u) as [Ec|]; [|discriminate].
      destruct (next_cell g (fst c) (snd c)) as [[c'|]| |] eqn:En; try discriminate. destruct (Z.eqb_spec (id_of g c') u) as [|Ec']; [discriminate|]. intros [= <- <-]. split; [exact Ec'|]. pose proof (next_in _ _ _ _ En) as Hc'. exists c, c'. split; [exact Hc|]. split; [exact Hc'|]. split; [|auto].
      destruct c as (i, j). apply (next_drains g i j _ En c' Hc'). reflexivity.
    + intros (Hv & c & c' & Hc & Hc' & D & Ec & Ec'). right. exists c, (g_acc g (fst c) (snd c)). split; [exact Hc|]. destruct (Nx c Hc) as (n & Hn); [congruence|]. destruct c as (i, j). apply (next_drains g i j n Hn c' Hc') in D. subst n. cbn [fst snd] in *.
      unfold contrib. rewrite (proj2 (Z.eqb_neq _ _) Hu), (proj2 (Z.eqb_eq _ _) Ec). cbn [fst snd]. rewrite Hn, Ec'. rewrite (proj2 (Z.eqb_neq _ _) Hv). reflexivity.
  - intro P. rewrite C. unfold val. cbn [Rsum]. rewrite Rplus_0_l. unfold flow_where. apply Rsum_ext_in. intros c Hc. unfold contrib. rewrite (proj2 (Z.eqb_neq _ _) Hu).
    destruct (Z.eqb_spec (id_of g c) u) as [Ec|Ec].
    2:{ symmetry. apply Rsum_zero. intros c' _. rewrite andb_false_r. reflexivity. }
    destruct (Nx c Hc) as (n & Hn); [congruence|]. rewrite Hn. destruct c as (i, j). pose proof (next_drains g i j n Hn) as D. destruct n as [c'|].
    + pose proof (next_in _ _ _ _ Hn) as Hc'. rewrite (sum_one (cells g) _ c' (nodup_cells g) Hc').
      * rewrite (proj2 (D c' Hc') eq_refl). cbn [andb]. destruct (Z.eqb (id_of g c') u); cbn [negb]; rewrite ?andb_false_r, ?andb_true_r; reflexivity.
      * intros b Hb Hne. destruct (drains g (i, j) b) eqn:Db; [|reflexivity]. apply (D b Hb) in Db. congruence.
    + symmetry. apply Rsum_zero. intros b Hb. destruct (drains g (i, j) b) eqn:Db; [apply (D b Hb) in Db; discriminate|reflexivity].
Qed.
