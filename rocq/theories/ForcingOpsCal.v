(** Lemmas: re-application of the operations on the forcing. *)
From Coq Require Import String.
From Verif Require Import BaseFacts ForcingOpsSpec ForcingOpsFacts.
Open Scope string_scope.
Open Scope R_scope.

Section Cal.
Variable pet : string -> pet_args -> outcome (list R).
Variable names : list string.
Notation apply_one := (ForcingOps.apply_one pet).
Notation apply_list := (ForcingOps.apply_list pet).
Notation apply_types := (ForcingOps.apply_types pet).
Notation apply_operations := (ForcingOps.apply_operations pet).

(** Options that do not depend on changing parameters. *)
Definition stable (op : operation) : Prop := forall n, In n (op_params op) -> ~ In n names.
Lemma existsb_in n l : existsb (String.eqb n) l = true <-> In n l.
Proof. rewrite existsb_exists. split; [intros (x & I & E); apply String.eqb_eq in E; subst; exact I|intro I; exists n; split; [exact I|apply String.eqb_refl]]. Qed.
Lemma resolve_stable p q o : differ_on names p q -> (forall n, In n (opt_params o) -> ~ In n names) -> resolve (Some p) o = resolve (Some q) o.
Proof. intros (A & B & C) H. destruct o as [a|n]; [reflexivity|]. cbn [resolve]. rewrite (C n) by (apply H; left; reflexivity). rewrite A, B. reflexivity. Qed.
Lemma resolve_fixed p q o a b : differ_on names p q -> (forall n, In n (opt_params o) -> ~ In n names) -> resolve (Some p) o = Ok (a, b) -> b = false.
Proof.
  intros (A & B & C) H. destruct o as [x|n]; cbn [resolve]; [intros [= _ <-]; reflexivity|]. destruct (pp_get p n) as [x| |]; cbn [bind]; try discriminate. intros [= _ <-].
  destruct (existsb _ _) eqn:E; [|reflexivity]. apply existsb_in in E. rewrite A in E. elim (H n (or_introl eq_refl) E).
Qed.
Lemma resolve_changing p q o a : differ_on names p q -> resolve (Some p) o = Ok (a, false) -> forall n, In n (opt_params o) -> ~ In n names.
Proof.
  intros (A & B & C) R n I K. destruct o as [x|m]; [destruct I|]. destruct I as [->|[]]. cbn [resolve] in R. destruct (pp_get p n) as [x| |]; cbn [bind] in R; try discriminate. injection R as _ R.
  apply existsb_in in K. rewrite <- A in K. congruence.
Qed.
Lemma map_out_ext {A B} (f g : A -> outcome B) l : (forall x, In x l -> f x = g x) -> map_out f l = map_out g l.
Proof. induction l as [|x l IH]; intro H; [reflexivity|]. cbn [map_out]. rewrite (H x (or_introl eq_refl)), IH by (intros y I; apply H; right; exact I). reflexivity. Qed.
Lemma options_in o x n : In x [o_ref o; o_gradient o; o_gradient_1 o; o_gradient_2 o; o_threshold o] -> In n (opt_params x) -> forall v m, In n (op_params (Spatialize v m o)).
Proof. intros I J v m. cbn [op_params]. rewrite !in_app_iff. cbn in I. destruct I as [<-|[<-|[<-|[<-|[<-|[]]]]]]; tauto. Qed.
Lemma options_stable p q v m o : differ_on names p q -> stable (Spatialize v m o) -> resolve_options (Some p) o = resolve_options (Some q) o.
Proof. intros D S. apply map_out_ext. intros x I. apply resolve_stable; [exact D|]. intros n J. apply S. exact (options_in o x n I J v m). Qed.
Lemma map_out_in {A B} (f : A -> outcome B) : forall l r, map_out f l = Ok r -> forall y, In y r -> exists x, In x l /\ f x = Ok y.
Proof.
  induction l as [|x l IH]; intros r E y I; cbn [map_out] in E; [injection E as <-; destruct I|]. destruct (f x) as [z| |] eqn:F; cbn [bind] in E; try discriminate. destruct (map_out f l) as [q| |] eqn:M; cbn [bind] in E; try discriminate. injection E as <-.
  destruct I as [<-|I]; [exists x; split; [left; reflexivity|exact F]|]. destruct (IH q eq_refl y I) as (w & W & G). exists w. split; [right; exact W|exact G].
Qed.
Lemma map_out_in2 {A B} (f : A -> outcome B) : forall l r, map_out f l = Ok r -> forall x, In x l -> exists y, In y r /\ f x = Ok y.
Proof.
  induction l as [|x l IH]; intros r E y I; cbn [map_out] in E; [destruct I|]. destruct (f x) as [z| |] eqn:F; cbn [bind] in E; try discriminate. destruct (map_out f l) as [q| |] eqn:M; cbn [bind] in E; try discriminate. injection E as <-.
  destruct I as [<-|I]; [exists z; split; [left; reflexivity|exact F]|]. destruct (IH q eq_refl y I) as (w & W & G). exists w. split; [right; exact W|exact G].
Qed.
Lemma one_stable p q t f op : differ_on names p q -> stable op -> apply_one (Some p) t f op = apply_one (Some q) t f op.
Proof.
  intros D S. destruct op as [v m c|v m o|m use kw]; cbn [ForcingOps.apply_one].
  - rewrite (resolve_stable p q c D); [reflexivity|exact S].
  - rewrite (options_stable p q v m o D S). reflexivity.
  - erewrite map_out_ext; [reflexivity|]. intros (k, x) I. cbn [fst snd]. rewrite (resolve_stable p q x D); [reflexivity|]. intros n J. apply S. cbn [op_params]. apply in_flat_map. exists (k, x). split; [exact I|exact J].
Qed.
Lemma list_stable p q t : forall l f, differ_on names p q -> (forall op, In op l -> stable op) -> apply_list (Some p) t f l = apply_list (Some q) t f l.
Proof.
  induction l as [|op l IH]; intros f D S; [reflexivity|]. cbn [ForcingOps.apply_list]. rewrite (one_stable p q t f op D) by (apply S; left; reflexivity).
  destruct (apply_one (Some q) t f op) as [f'| |]; cbn [bind]; try reflexivity. apply IH; [exact D|]. intros x I. apply S. right. exact I.
Qed.
(** What is stable is left alone when only the changing operations are applied. *)
Lemma one_left p q f op f' : differ_on names p q -> stable op -> apply_one (Some p) false f op = Ok f' -> f' = f.
Proof.
  intros D S E. destruct op as [v m c|v m o|m use kw]; cbn [ForcingOps.apply_one orb] in E.
  - destruct (resolve (Some p) c) as [(a, b)| |] eqn:R; cbn [bind snd] in E; try discriminate. rewrite (resolve_fixed p q c a b D S R) in E. injection E as <-. reflexivity.
  - destruct (resolve_options (Some p) o) as [l| |] eqn:R; cbn [bind] in E; try discriminate. destruct (any_changing l) eqn:C; [|injection E as <-; reflexivity].
    apply existsb_exists in C. destruct C as ((a, b) & I & Hb). cbn in Hb. subst b. destruct (map_out_in _ _ _ R _ I) as (x & X & Rx).
    assert (true = false) by (apply (resolve_fixed p q x a true D); [intros n J; apply S; exact (options_in o x n X J v m)|exact Rx]). discriminate.
  - destruct (map_out _ kw) as [l| |] eqn:R; cbn [bind] in E; try discriminate. destruct (existsb _ l) eqn:C; [|injection E as <-; reflexivity].
    apply existsb_exists in C. destruct C as ((k, (a, b)) & I & Hb). cbn in Hb. subst b. destruct (map_out_in _ _ _ R _ I) as ((k', x) & X & Rx). cbn [fst snd] in Rx.
    destruct (resolve (Some p) x) as [(a', b')| |] eqn:Rr; cbn [bind] in Rx; try discriminate. injection Rx as -> -> ->.
    assert (true = false); [|discriminate]. apply (resolve_fixed p q x a true D); [|exact Rr]. intros n J. apply S. cbn [op_params]. apply in_flat_map. exists (k, x). split; [exact X|exact J].
Qed.
Lemma list_left p q : forall l f f', differ_on names p q -> (forall op, In op l -> stable op) -> apply_list (Some p) false f l = Ok f' -> f' = f.
Proof.
  induction l as [|op l IH]; intros f f' D S E; cbn [ForcingOps.apply_list] in E; [injection E as <-; reflexivity|].
  destruct (apply_one (Some p) false f op) as [g| |] eqn:O; cbn [bind] in E; try discriminate. apply (one_left p q f op g D) in O; [|apply S; left; reflexivity]. subst g.
  apply (IH f f' D); [|exact E]. intros x I. apply S. right. exact I.
Qed.

(** What operations leave alone. *)
Definition same_but_1d (f f' : forcing) : Prop := fo_units f' = fo_units f /\ fo_months f' = fo_months f /\ fo_2d f' = fo_2d f /\ fo_ops f' = fo_ops f /\ fo_init f' = fo_init f.
Definition same_but_2d (f f' : forcing) : Prop := fo_units f' = fo_units f /\ fo_months f' = fo_months f /\ fo_1d f' = fo_1d f /\ fo_ops f' = fo_ops f /\ fo_init f' = fo_init f.
Lemma but_2d_trans f g h : same_but_2d f g -> same_but_2d g h -> same_but_2d f h.
Proof. unfold same_but_2d. intros (A & B & C & D & E) (A' & B' & C' & D' & E'). repeat split; etransitivity; eassumption. Qed.
Lemma but_1d_trans f g h : same_but_1d f g -> same_but_1d g h -> same_but_1d f h.
Proof. unfold same_but_1d. intros (A & B & C & D & E) (A' & B' & C' & D' & E'). repeat split; etransitivity; eassumption. Qed.
Lemma but_1d_refl f : same_but_1d f f. Proof. repeat split. Qed.
Lemma but_2d_refl f : same_but_2d f f. Proof. repeat split. Qed.
Lemma correct_keeps ps t f v m c f' : apply_one ps t f (Correct v m c) = Ok f' -> same_but_1d f f'.
Proof.
  cbn [ForcingOps.apply_one]. destruct (resolve ps c) as [(a, b)| |]; cbn [bind]; try discriminate. destruct (t || snd (a, b)); [|intros [= <-]; apply but_1d_refl].
  unfold prior_correction. destruct (get_variable v); cbn [bind]; try discriminate. destruct (look _ _); cbn [bind]; try discriminate. destruct (number _); cbn [bind]; try discriminate.
  destruct (String.eqb m "multiplicative"); [intros [= <-]; repeat split|]. destruct (String.eqb m "additive"); [intros [= <-]; repeat split|discriminate].
Qed.
Lemma corrections_keep ps t : forall l f f', (forall op, In op l -> op_type op = 0%nat) -> apply_list ps t f l = Ok f' -> same_but_1d f f'.
Proof.
  induction l as [|op l IH]; intros f f' H E; cbn [ForcingOps.apply_list] in E; [injection E as <-; apply but_1d_refl|]. destruct (apply_one ps t f op) as [g| |] eqn:O; cbn [bind] in E; try discriminate.
  assert (K : op_type op = 0%nat) by (apply H; left; reflexivity). destruct op; try discriminate. apply correct_keeps in O. eapply but_1d_trans; [exact O|]. apply IH; [|exact E]. intros x I. apply H. right. exact I.
Qed.

(** The value of a spatialisation with given parameters. *)
Definition op_value (ps : option pars) (f : forcing) (op : operation) : outcome (list (list R)) :=
  match op with
  | Spatialize v m o => bind (resolve_options ps o) (fun q => written f v m (nth_arg q 0) (nth_arg q 1) (nth_arg q 2) (nth_arg q 3) (nth_arg q 4))
  | _ => Throw
  end.
Lemma op_value_frame ps f g op : same_but_2d f g -> op_value ps g op = op_value ps f op.
Proof. intros (A & B & C & _). destruct op; try reflexivity. cbn [op_value]. unfold written. rewrite A, B, C. reflexivity. Qed.
Lemma op_value_stable p q f op : differ_on names p q -> stable op -> op_value (Some p) f op = op_value (Some q) f op.
Proof. intros D S. destruct op as [|v m o|]; try reflexivity. cbn [op_value]. rewrite (options_stable p q v m o D S). reflexivity. Qed.
(** One spatialisation: either it is left alone, and stable, or its value is stored. *)
Lemma one_spatial p q t f n m o f' : differ_on names p q -> apply_one (Some p) t f (Spatialize n m o) = Ok f' ->
  (f' = f /\ t = false /\ stable (Spatialize n m o)) \/
  exists v x, output (Spatialize n m o) = Some v /\ op_value (Some p) f (Spatialize n m o) = Ok x /\ f' = with_2d f (store (fo_2d f) v x).
Proof.
  intros D E. cbn [ForcingOps.apply_one] in E. destruct (resolve_options (Some p) o) as [l| |] eqn:R; cbn [bind] in E; try discriminate. destruct (t || any_changing l) eqn:T.
  - right. destruct (spatialize_written _ _ _ _ _ _ _ _ _ E) as (v & x & V & W & ->). exists v, x. cbn [output op_value]. rewrite V, R. cbn [bind]. rewrite W. auto.
  - left. injection E as <-. apply orb_false_elim in T. destruct T as (-> & C). repeat split. intros k I. cbn [op_params] in I.
    assert (X : exists x, In x [o_ref o; o_gradient o; o_gradient_1 o; o_gradient_2 o; o_threshold o] /\ In k (opt_params x)).
    { rewrite !in_app_iff in I. destruct I as [I|[I|[I|[I|I]]]]; [exists (o_ref o)|exists (o_gradient o)|exists (o_gradient_1 o)|exists (o_gradient_2 o)|exists (o_threshold o)]; (split; [cbn; tauto|exact I]). }
    destruct X as (x & X & Y). destruct (map_out_in2 _ _ _ R x X) as ((a, b) & Ib & Rx). assert (b = false) as ->.
    { destruct b; [|reflexivity]. exfalso. assert (any_changing l = true) by (apply existsb_exists; exists (a, true); split; [exact Ib|reflexivity]). congruence. }
    exact (resolve_changing p q x a D Rx k Y).
Qed.
(** The spatialisations: the outputs get their values, the rest is left alone. *)
Lemma spatials p q t : forall l f f', differ_on names p q -> (forall op, In op l -> op_type op = 1%nat) -> NoDup (map output l) -> apply_list (Some p) t f l = Ok f' ->
  same_but_2d f f' /\
  (forall op v, In op l -> output op = Some v -> (exists x, op_value (Some p) f op = Ok x /\ look (fo_2d f') v = Ok x) \/ (t = false /\ stable op /\ look (fo_2d f') v = look (fo_2d f) v)) /\
  (forall v, ~ In (Some v) (map output l) -> look (fo_2d f') v = look (fo_2d f) v).
Proof.
  induction l as [|op l IH]; intros f f' D H N E; cbn [ForcingOps.apply_list] in E.
  { injection E as <-. split; [apply but_2d_refl|]. split; [intros op v []|reflexivity]. }
  destruct (apply_one (Some p) t f op) as [g| |] eqn:O; cbn [bind] in E; try discriminate. cbn [map] in N. inversion N as [|? ? N1 N2]; subst.
  destruct (IH g f' D) as (A & B & C); [intros x I; apply H; right; exact I|exact N2|exact E|].
  assert (K : op_type op = 1%nat) by (apply H; left; reflexivity). destruct op as [|n m o|]; try discriminate.
  destruct (one_spatial p q t f n m o g D O) as [(-> & -> & S)|(v & x & V & X & ->)].
  - split; [exact A|]. split.
    + intros op v [<-|I] V; [right|exact (B op v I V)]. repeat split; [exact S|]. apply C. intro J. rewrite <- V in J. contradiction.
    + intros v J. apply C. intro I. apply J. right. exact I.
  - assert (F : same_but_2d f (with_2d f (store (fo_2d f) v x))) by (repeat split). split; [exact (but_2d_trans _ _ _ F A)|]. split.
    + intros op w [<-|I] W.
      * left. exists x. rewrite V in W. injection W as <-. split; [exact X|]. rewrite C by (rewrite <- V; exact N1). cbn [with_2d fo_2d]. rewrite look_store, var_eqb_refl. reflexivity.
      * destruct (B op w I W) as [(y & Y & Z)|(-> & S & Z)]; [left; exists y; split; [rewrite <- Y; symmetry; apply op_value_frame; exact F|exact Z]|]. right. repeat split; [exact S|]. rewrite Z. cbn [with_2d fo_2d]. rewrite look_store, var_eqb_neq; [reflexivity|].
        intros ->. apply N1. rewrite V, <- W. apply in_map. exact I.
    + intros w J. rewrite C by (intro I; apply J; right; exact I). cbn [with_2d fo_2d]. rewrite look_store, var_eqb_neq; [reflexivity|]. intros ->. apply J. left. exact V.
Qed.
(** PET. *)
Definition pet_value (f : forcing) (method : string) (use : list string) (kw : list (string * arg)) : outcome (list (list R)) :=
  bind (if in_use use "latitude" || in_use use "lat"
        then match kw_look kw "latitude" with
             | Some a => bind (number a) (fun x => Ok (fun _ : place => Some (x * TO_RAD)))
             | None => match kw_look kw "lat" with Some a => bind (number a) (fun x => Ok (fun _ => Some (x * TO_RAD))) | None => Ok (fun p => Some (pl_latitude p * TO_RAD)) end
             end
        else Ok (fun _ => None)) (fun lat =>
  bind (map_out get_variable (filter (fun u => negb (in_use ["latitude"; "lat"; "elevation"] u)) use)) (fun vars =>
  all_indexed (fun i p =>
          bind (map_out (fun v => bind (look (fo_2d f) v) (fun units => Ok (v, nth i units []))) vars) (fun series =>
          pet method (mkPA (lat p) (if in_use use "elevation" then Some (pl_elevation p) else None) series))) 0 (fo_units f))).
Lemma compute_pet_value f m use kw f' : compute_pet pet f m use kw = Ok f' -> exists x, pet_value f m use kw = Ok x /\ f' = with_2d f (store (fo_2d f) VPet x).
Proof.
  unfold compute_pet, pet_value. match goal with |- context [bind ?a _] => destruct a as [lat| |] end; cbn [bind]; try discriminate. destruct (map_out _ _) as [vars| |]; cbn [bind]; try discriminate.
  destruct (all_indexed _ _ _) as [x| |]; cbn [bind]; try discriminate. intros [= <-]. exists x. auto.
Qed.
Lemma all_indexed_ext {A} (f g : nat -> place -> outcome A) : forall l i, (forall i p, f i p = g i p) -> all_indexed f i l = all_indexed g i l.
Proof. induction l as [|p l IH]; intros i H; [reflexivity|]. cbn [all_indexed]. rewrite H, IH by exact H. reflexivity. Qed.
Lemma pet_value_ext f g m use kw : fo_units f = fo_units g -> (forall u v, In u use -> get_variable u = Ok v -> look (fo_2d f) v = look (fo_2d g) v) -> pet_value f m use kw = pet_value g m use kw.
Proof.
  intros U H. unfold pet_value. match goal with |- context [bind ?a _] => destruct a as [lat| |] end; cbn [bind]; try reflexivity. destruct (map_out _ _) as [vars| |] eqn:V; cbn [bind]; try reflexivity. rewrite U. apply all_indexed_ext. intros i p.
  erewrite map_out_ext; [reflexivity|]. intros v I. destruct (map_out_in _ _ _ V v I) as (u & J & G). apply filter_In in J. rewrite (H u v (proj1 J) G). reflexivity.
Qed.

(** *** All operations *)
Lemma pet_keeps ps t f m use kw f' : apply_one ps t f (ComputePet m use kw) = Ok f' -> same_but_2d f f' /\ forall v, v <> VPet -> look (fo_2d f') v = look (fo_2d f) v.
Proof.
  cbn [ForcingOps.apply_one]. destruct (map_out _ kw) as [l| |]; cbn [bind]; try discriminate. destruct (t || _); [|intros [= <-]; split; [apply but_2d_refl|reflexivity]].
  intro E. destruct (compute_pet_value _ _ _ _ _ E) as (x & _ & ->). split; [repeat split|]. intros v H. cbn [with_2d fo_2d]. rewrite look_store, var_eqb_neq; [reflexivity|]. congruence.
Qed.
Lemma one_ops ps t f op f' : apply_one ps t f op = Ok f' -> fo_ops f' = fo_ops f.
Proof.
  destruct op as [v m c|v m o|m use kw]; intro E.
  - exact (proj1 (proj2 (proj2 (proj2 (correct_keeps _ _ _ _ _ _ _ E))))).
  - cbn [ForcingOps.apply_one] in E. destruct (resolve_options ps o) as [l| |]; cbn [bind] in E; try discriminate. destruct (t || _); [|injection E as <-; reflexivity].
    destruct (spatialize_written _ _ _ _ _ _ _ _ _ E) as (w & x & _ & _ & ->). reflexivity.
  - exact (proj1 (proj2 (proj2 (proj2 (proj1 (pet_keeps _ _ _ _ _ _ _ E)))))).
Qed.
Lemma list_ops ps t : forall l f f', apply_list ps t f l = Ok f' -> fo_ops f' = fo_ops f.
Proof.
  induction l as [|op l IH]; intros f f' E; cbn [ForcingOps.apply_list] in E; [injection E as <-; reflexivity|]. destruct (apply_one ps t f op) as [g| |] eqn:O; cbn [bind] in E; try discriminate.
  rewrite (IH g f' E). exact (one_ops _ _ _ _ _ O).
Qed.
Lemma no_type_2 l : of_type 2 l = [].
Proof. induction l as [|[] l IH]; [reflexivity|exact IH|exact IH|exact IH]. Qed.
Lemma phases ps t f f' : apply_operations ps t f = Ok f' -> exists a b c, apply_list ps t f (of_type 0 (fo_ops f)) = Ok a /\ apply_list ps t a (of_type 1 (fo_ops f)) = Ok b /\
  apply_list ps t b (of_type 3 (fo_ops f)) = Ok c /\ f' = initialized c.
Proof.
  unfold ForcingOps.apply_operations. cbn [ForcingOps.apply_types]. destruct (apply_list ps t f _) as [a| |] eqn:A; cbn [bind]; try discriminate. destruct (apply_list ps t a _) as [b| |] eqn:B; cbn [bind]; try discriminate.
  rewrite no_type_2. cbn [ForcingOps.apply_list bind]. destruct (apply_list ps t b _) as [c| |] eqn:C; cbn [bind]; try discriminate. intros [= <-].
  pose proof (list_ops _ _ _ _ _ A) as Oa. rewrite Oa in B. pose proof (list_ops _ _ _ _ _ B) as Ob. rewrite Ob, Oa in C. exists a, b, c. auto.
Qed.
Lemma of_type_in ty l op : In op (of_type ty l) <-> In op l /\ op_type op = ty.
Proof. unfold of_type. rewrite filter_In, Nat.eqb_eq. reflexivity. Qed.
Lemma nodup_sub {A B} (h : A -> B) (g : A -> bool) l : NoDup (map h l) -> NoDup (map h (filter g l)).
Proof.
  induction l as [|x l IH]; intro N; [constructor|]. cbn [map] in N. inversion N as [|? ? N1 N2]; subst. cbn [filter]. destruct (g x); [|exact (IH N2)]. cbn [map]. constructor; [|exact (IH N2)].
  intro I. apply N1. apply in_map_iff in I. destruct I as (y & E & J). apply filter_In in J. rewrite <- E. apply in_map. exact (proj1 J).
Qed.
Lemma outputs_type ty l : (0 < ty)%nat -> NoDup (outputs l) -> NoDup (map output (of_type ty l)).
Proof.
  intros T N. unfold outputs in N. apply (nodup_sub _ (fun op => Nat.eqb (op_type op) ty)) in N.
  replace (of_type ty l) with (filter (fun op => Nat.eqb (op_type op) ty) (filter (fun op => match op with Correct _ _ _ => false | _ => true end) l)); [exact N|].
  clear N. unfold of_type. induction l as [|op l IH]; [reflexivity|]. cbn [filter]. destruct op as [v m c|v m o|m use kw]; cbn [op_type filter]; rewrite <- ?IH; try reflexivity. destruct ty; [lia|reflexivity].
Qed.
Lemma pets l : NoDup (outputs l) -> of_type 3 l = [] \/ exists m use kw, of_type 3 l = [ComputePet m use kw].
Proof.
  intro N. apply (outputs_type 3) in N; [|lia]. assert (H : forall op, In op (of_type 3 l) -> output op = Some VPet).
  { intros op I. apply of_type_in in I. destruct op; destruct I as (_ & I); try discriminate I. reflexivity. }
  destruct (of_type 3 l) as [|x [|y r]] eqn:E; [left; reflexivity| |].
  - right. assert (I : In x (of_type 3 l)) by (rewrite E; left; reflexivity). apply of_type_in in I. destruct x as [| |m use kw]; destruct I as (_ & I); try discriminate I. eauto.
  - exfalso. cbn [map] in N. inversion N as [|? ? N1 _]; subst. apply N1. left. rewrite (H x), (H y); [reflexivity|right; left; reflexivity|left; reflexivity].
Qed.
Lemma pet_not_spatial l m use kw op : NoDup (outputs l) -> In (ComputePet m use kw) l -> In op (of_type 1 l) -> output op <> Some VPet.
Proof.
  intros N I J E. apply of_type_in in J. destruct J as (J & T). destruct op as [|n s o|]; try discriminate T. unfold outputs in N.
  assert (X : forall L, NoDup (map output L) -> In (ComputePet m use kw) L -> In (Spatialize n s o) L -> False).
  { induction L as [|x L IH]; intros NL A B; [destruct A|]. cbn [map] in NL. inversion NL as [|? ? N1 N2]; subst. destruct A as [->|A], B as [B|B]; try discriminate B.
    - apply N1. change (output (ComputePet m use kw)) with (Some VPet). rewrite <- E. apply in_map. exact B.
    - subst x. apply N1. rewrite E. change (Some VPet) with (output (ComputePet m use kw)). apply in_map. exact A.
    - exact (IH N2 A B). }
  apply (X _ N); apply filter_In; auto.
Qed.

(** The state of a calibration: the units have the values that the last parameters give. *)
Section Inv.
Variable f fa : forcing.
Variable l : list operation.
Definition inv (p : pars) (g : forcing) : Prop := same_but_2d fa g /\ fo_ops g = l /\ fo_init g = true /\
  (forall op v, In op (of_type 1 l) -> output op = Some v -> exists x, op_value (Some p) fa op = Ok x /\ look (fo_2d g) v = Ok x) /\
  (forall v, (forall op, In op (of_type 1 l) -> output op <> Some v) -> look (fo_2d g) v = look (fo_2d fa) v).
Lemma inv_step p p' g g' : sound_operations names l -> differ_on names p p' -> inv p g -> sample_forcing pet p' g = Ok g' -> inv p' g'.
Proof.
  intros (S0 & S3 & N) D (A & B & C & V & W) E. unfold sample_forcing in E. destruct (apply_operations (Some p') false g) as [h| |] eqn:H; cbn [bind] in E; try discriminate.
  destruct (phases _ _ _ _ H) as (a & b & c & Ha & Hb & Hc & ->). cbn [run_forcing initialized fo_init] in E. unfold run_forcing in E. cbn [initialized fo_init] in E. injection E as <-. rewrite B in *.
  assert (D' : differ_on names p' p) by (destruct D as (D1 & D2 & D3); repeat split; [exact D2|exact D1|intros n I; symmetry; exact (D3 n I)]).
  assert (a = g) as ->.
  { apply (list_left p' p) with (l := of_type 0 l); [exact D'| |exact Ha]. intros op I. apply of_type_in in I. destruct I as (I & T). destruct op as [v m k| |]; try discriminate T. intros n J. exact (S0 v m k n I J). }
  assert (c = b) as ->.
  { apply (list_left p' p) with (l := of_type 3 l); [exact D'| |exact Hc]. intros op I. apply of_type_in in I. destruct I as (I & T). destruct op as [| |m use kw]; try discriminate T. exact (proj1 (S3 m use kw I)). }
  destruct (spatials p' p false (of_type 1 l) g b D') as (P & Q & R); [intros op I; apply of_type_in in I; exact (proj2 I)|apply outputs_type; [lia|exact N]|exact Hb|].
  assert (G : same_but_2d fa b) by (exact (but_2d_trans _ _ _ A P)).
  split; [destruct G as (G1 & G2 & G3 & G4 & G5); destruct A as (_ & _ & _ & _ & A5); repeat split; cbn [initialized fo_units fo_months fo_1d fo_ops fo_init]; try assumption; rewrite <- C; exact A5|].
  split; [cbn [initialized fo_ops]; rewrite <- B; exact (proj1 (proj2 (proj2 (proj2 P))))|]. split; [reflexivity|]. cbn [initialized fo_2d]. split.
  - intros op v I O. destruct (Q op v I O) as [(x & X & Y)|(_ & S & Y)].
    + exists x. split; [rewrite <- X; symmetry; apply op_value_frame; exact A|exact Y].
    + destruct (V op v I O) as (x & X & Z). exists x. split; [rewrite <- X; apply op_value_stable; [exact D'|exact S]|]. rewrite Y. exact Z.
  - intros v O. rewrite R; [exact (W v O)|]. intro I. apply in_map_iff in I. destruct I as (op & E & I). exact (O op I E).
Qed.
End Inv.
(** What the application of all operations gives. *)
Lemma full p q f fr : sound_operations names (fo_ops f) -> differ_on names p q -> apply_operations (Some p) true f = Ok fr ->
  exists a, apply_list (Some p) true f (of_type 0 (fo_ops f)) = Ok a /\ fo_units fr = fo_units a /\ fo_months fr = fo_months a /\ fo_1d fr = fo_1d a /\ fo_ops fr = fo_ops f /\ fo_init fr = true /\ fo_units a = fo_units f /\
  (forall op v, In op (of_type 1 (fo_ops f)) -> output op = Some v -> exists x, op_value (Some p) a op = Ok x /\ look (fo_2d fr) v = Ok x) /\
  (forall v, (forall op, In op (of_type 1 (fo_ops f)) -> output op <> Some v) -> (v = VPet -> of_type 3 (fo_ops f) = []) -> look (fo_2d fr) v = look (fo_2d f) v) /\
  (forall m use kw, of_type 3 (fo_ops f) = [ComputePet m use kw] -> exists kw' x, map_out (fun q => bind (resolve (Some p) (snd q)) (fun a => Ok (fst q, a))) kw = Ok kw' /\
     pet_value fr m use (map (fun q => (fst q, fst (snd q))) kw') = Ok x /\ look (fo_2d fr) VPet = Ok x).
Proof.
  intros (S0 & S3 & N) D E. destruct (phases _ _ _ _ E) as (a & b & c & Ha & Hb & Hc & ->). exists a. set (l := fo_ops f) in *.
  assert (Ka : same_but_1d f a) by (apply (corrections_keep (Some p) true (of_type 0 l)); [intros op I; apply of_type_in in I; exact (proj2 I)|exact Ha]).
  destruct (spatials p q true (of_type 1 l) a b D) as (P & Q & R); [intros op I; apply of_type_in in I; exact (proj2 I)|apply outputs_type; [lia|exact N]|exact Hb|].
  assert (Kc : same_but_2d b c /\ (forall v, (v = VPet -> of_type 3 l = []) -> look (fo_2d c) v = look (fo_2d b) v)).
  { destruct (pets l N) as [Z|(m & use & kw & Z)]; rewrite Z in Hc; cbn [ForcingOps.apply_list] in Hc; [injection Hc as <-; split; [apply but_2d_refl|reflexivity]|].
    destruct (apply_one _ _ _ _) as [c'| |] eqn:O; cbn [bind] in Hc; try discriminate. injection Hc as ->. destruct (pet_keeps _ _ _ _ _ _ _ O) as (K1 & K2). split; [exact K1|]. intros v Hv. apply K2. intros ->. rewrite Z in Hv. discriminate (Hv eq_refl). }
  destruct Kc as (Kc & Lc). destruct (but_2d_trans _ _ _ P Kc) as (T1 & T2 & T3 & T4 & _). destruct Ka as (A1 & A2 & A3 & A4 & A5).
  assert (Ls : forall op v, In op (of_type 1 l) -> output op = Some v -> v = VPet -> of_type 3 l = []).
  { intros op v I O ->. destruct (pets l N) as [Z|(m & use & kw & Z)]; [exact Z|]. exfalso. apply (pet_not_spatial l m use kw op N); [|exact I|exact O]. assert (K : In (ComputePet m use kw) (of_type 3 l)) by (rewrite Z; left; reflexivity). apply of_type_in in K. exact (proj1 K). }
  split; [exact Ha|]. cbn [initialized fo_units fo_months fo_1d fo_ops fo_init fo_2d]. do 3 (split; [assumption|]). split; [rewrite T4; exact A4|]. split; [reflexivity|]. split; [exact A1|]. split; [|split].
  - intros op v I O. destruct (Q op v I O) as [(x & X & Y)|(K & _)]; [|discriminate K]. exists x. split; [exact X|]. rewrite Lc; [exact Y|]. exact (Ls op v I O).
  - intros v O H. rewrite Lc by exact H. rewrite R; [rewrite A3; reflexivity|]. intro I. apply in_map_iff in I. destruct I as (op & F & I). exact (O op I F).
  - intros m use kw Z. rewrite Z in Hc. cbn [ForcingOps.apply_list ForcingOps.apply_one orb] in Hc. destruct (map_out _ kw) as [kw'| |] eqn:K; cbn [bind] in Hc; try discriminate.
    destruct (compute_pet _ _ _ _ _) as [c'| |] eqn:O; cbn [bind] in Hc; try discriminate. injection Hc as ->. destruct (compute_pet_value _ _ _ _ _ O) as (x & X & Ec).
    exists kw', x. split; [reflexivity|]. split; [|rewrite Ec; cbn [with_2d fo_2d]; rewrite look_store, var_eqb_refl; reflexivity].
    rewrite <- X. apply pet_value_ext; [exact (proj1 Kc)|]. intros u v Iu G. cbn [initialized fo_2d]. apply Lc. intros ->. exfalso.
    assert (Ip : In (ComputePet m use kw) (of_type 3 l)) by (rewrite Z; left; reflexivity). apply of_type_in in Ip. exact (proj1 (proj2 (S3 m use kw (proj1 Ip))) u Iu G).
Qed.
Lemma samples_inv fa l0 : forall ps p g g', sound_operations names l0 -> (forall q, In q (p :: ps) -> forall r, In r (p :: ps) -> differ_on names q r) -> inv fa l0 p g -> samples_forcing pet ps g = Ok g' ->
  inv fa l0 (last ps p) g'.
Proof.
  induction ps as [|p1 ps IH]; intros p g g' S D I E; cbn [samples_forcing] in E; [injection E as <-; exact I|]. destruct (sample_forcing pet p1 g) as [h| |] eqn:H; cbn [bind] in E; try discriminate.
  replace (last (p1 :: ps) p) with (last ps p1). 2:{ clear. revert p1 p. induction ps as [|x ps IH]; intros p1 p; [reflexivity|]. change (last (p1 :: x :: ps) p) with (last (x :: ps) p). rewrite <- (IH x p). destruct ps; [reflexivity|]. rewrite <- (IH x p1). reflexivity. }
  apply (IH p1 h g' S); [intros q Iq r Ir; apply D; right; assumption| |exact E]. apply (inv_step fa l0 p p1 g h S); [apply D; [left|right; left]; reflexivity|exact I|exact H].
Qed.
Lemma op_value_same ps f g op : fo_units g = fo_units f -> fo_months g = fo_months f -> fo_1d g = fo_1d f -> op_value ps g op = op_value ps f op.
Proof. intros A B C. destruct op; try reflexivity. cbn [op_value]. unfold written. rewrite A, B, C. reflexivity. Qed.
Lemma output_dec v l : (exists op, In op l /\ output op = Some v) \/ (forall op, In op l -> output op <> Some v).
Proof.
  induction l as [|x l [(op & I & E)|H]]; [right; intros op []|left; exists op; split; [right; exact I|exact E]|].
  destruct (output x) as [w|] eqn:O; [destruct (var_dec w v) as [->|K]|]; [left; exists x; split; [left; reflexivity|exact O]|right|right]; (intros op [<-|I] E; [congruence|exact (H op I E)]).
Qed.
Lemma samples_last p0 ps p f f' fr : sound_operations names (fo_ops f) -> (forall q r, In q (p0 :: ps ++ [p]) -> In r (p0 :: ps ++ [p]) -> differ_on names q r) ->
  calibrate_forcing pet p0 (ps ++ [p]) f = Ok f' -> apply_operations (Some p) true f = Ok fr ->
  fo_units f' = fo_units fr /\ fo_months f' = fo_months fr /\ fo_1d f' = fo_1d fr /\ fo_ops f' = fo_ops fr /\ fo_init f' = fo_init fr /\ forall v, look (fo_2d f') v = look (fo_2d fr) v.
Proof.
  intros S D E F. unfold calibrate_forcing in E. destruct (apply_operations (Some p0) true f) as [fa| |] eqn:A; cbn [bind] in E; try discriminate.
  assert (Ip : In p (p0 :: ps ++ [p])) by (right; apply in_or_app; right; left; reflexivity). assert (I0 : In p0 (p0 :: ps ++ [p])) by (left; reflexivity).
  destruct (full p0 p f fa S (D p0 p I0 Ip) A) as (a & Ea & A1 & A2 & A3 & A4 & A5 & A6 & A7 & A8 & A9). destruct (full p p0 f fr S (D p p0 Ip I0) F) as (b & Eb & B1 & B2 & B3 & B4 & B5 & B6 & B7 & B8 & B9).
  assert (b = a) as ->.
  { rewrite (list_stable p p0) in Eb; [congruence|exact (D p p0 Ip I0)|]. intros op I. apply of_type_in in I. destruct I as (I & T). destruct op as [v m k| |]; try discriminate T. intros n J. exact (proj1 S v m k n I J). }
  assert (Inv : inv fa (fo_ops f) p0 fa).
  { split; [apply but_2d_refl|]. split; [exact A4|]. split; [exact A5|]. split; [|reflexivity]. intros op v I O. destruct (A7 op v I O) as (x & X & Y). exists x. split; [rewrite <- X; apply op_value_same; assumption|exact Y]. }
  apply (samples_inv fa (fo_ops f) (ps ++ [p]) p0 fa f' S) in Inv; [|intros q Iq r Ir; apply D; assumption|exact E]. rewrite last_last in Inv. destruct Inv as ((C1 & C2 & C3 & C4 & C5) & K1 & K2 & K3 & K4).
  do 3 (split; [congruence|]). split; [congruence|]. split; [congruence|].
  assert (Spatial : forall op v, In op (of_type 1 (fo_ops f)) -> output op = Some v -> exists x, op_value (Some p) a op = Ok x /\ look (fo_2d f') v = Ok x /\ look (fo_2d fr) v = Ok x).
  { intros op v I O. destruct (K3 op v I O) as (x & X & Y). destruct (B7 op v I O) as (y & Y1 & Y2). rewrite (op_value_same _ a fa op A1 A2 A3) in X. assert (x = y) by congruence. subst y. exists x. auto. }
  assert (Rest : forall v, (forall op, In op (of_type 1 (fo_ops f)) -> output op <> Some v) -> (v = VPet -> of_type 3 (fo_ops f) = []) -> look (fo_2d fa) v = look (fo_2d fr) v).
  { intros v H K. rewrite (A8 v H K), (B8 v H K). reflexivity. }
  intro v. destruct (output_dec v (of_type 1 (fo_ops f))) as [(op & I & O)|H]; [destruct (Spatial op v I O) as (x & _ & X & Y); rewrite X, Y; reflexivity|]. rewrite (K4 v H).
  destruct (pets (fo_ops f) (proj2 (proj2 S))) as [Z|(m & use & kw & Z)]; [apply Rest; auto|]. destruct (var_dec v VPet) as [->|Hv]; [|apply Rest; [exact H|contradiction]].
  destruct (A9 m use kw Z) as (kw0 & x0 & M0 & P0 & L0). destruct (B9 m use kw Z) as (kw1 & x1 & M1 & P1 & L1).
  assert (Ic : In (ComputePet m use kw) (of_type 3 (fo_ops f))) by (rewrite Z; left; reflexivity). apply of_type_in in Ic. destruct (proj1 (proj2 S) m use kw (proj1 Ic)) as (T1 & T2 & T3).
  assert (kw1 = kw0) as ->.
  { erewrite map_out_ext in M1; [rewrite M0 in M1; injection M1; auto|]. intros (k, o) Io. cbn [fst snd]. rewrite (resolve_stable p p0 o (D p p0 Ip I0)); [reflexivity|]. intros n J. apply T1. cbn [op_params]. apply in_flat_map. exists (k, o). split; [exact Io|exact J]. }
  assert (x1 = x0); [|congruence]. rewrite (pet_value_ext fr fa) in P1; [congruence|congruence|]. intros u w Iu G. symmetry. destruct (output_dec w (of_type 1 (fo_ops f))) as [(op & I & O)|H']; [|apply Rest; [exact H'|intros ->; elim (T2 u Iu G)]].
  destruct (A7 op w I O) as (y & Y1 & Y2). destruct (B7 op w I O) as (y' & Y1' & Y2'). rewrite (op_value_stable p0 p a op) in Y1; [congruence|exact (D p0 p I0 Ip)|]. intros n J. apply of_type_in in I. destruct I as (I & T). destruct op as [|s sm so|]; try discriminate T.
  cbn [output] in O. destruct (get_variable s) as [w'| |] eqn:Gs; try discriminate O. injection O as ->. exact (T3 u s sm so w n Iu I G Gs J).
Qed.
End Cal.
