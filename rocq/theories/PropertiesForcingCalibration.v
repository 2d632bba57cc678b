(** C84: the forcing of the samples of a calibration. *)
From Coq Require Import String.
From Verif Require Import BaseFacts WitnessTools ForcingOpsSpec ForcingOpsFacts ForcingOpsCal PropertiesForcingOps PropertiesForcingUse.
Open Scope string_scope.
Open Scope R_scope.

(** The same forcing: the same data of the station, and the same series of every variable in every unit. *)
Definition same_forcing (f g : forcing) : Prop :=
  (forall v k, station f v k = station g v k) /\ (forall v i k, cell f v i k = cell g v i k) /\ fo_units f = fo_units g /\ fo_months f = fo_months g.
(** After any number of samples the forcing is the one of the last parameters alone, if the operations are sound. *)
Theorem c84_samples_partial pet names p0 ps p f f' fr : sound_operations names (fo_ops f) ->
  (forall q r, In q (p0 :: ps ++ [p]) -> In r (p0 :: ps ++ [p]) -> differ_on names q r) ->
  calibrate_forcing pet p0 (ps ++ [p]) f = Ok f' -> apply_operations pet (Some p) true f = Ok fr -> same_forcing f' fr.
Proof.
  intros S D A B. destruct (samples_last pet names p0 ps p f f' fr S D A B) as (E1 & E2 & E3 & _ & _ & E6). split; [|split; [|split; assumption]].
  - intros v k. unfold station. rewrite E3. reflexivity.
  - intros v i k. unfold cell. rewrite E6. reflexivity.
Qed.
Print Assumptions c84_samples_partial.
(** A run applies the operations only if that was not done before. *)
Theorem c84_run_once pet p p' f f' : run_forcing pet p f = Ok f' -> run_forcing pet p' f' = Ok f' /\ fo_init f' = true.
Proof.
  unfold run_forcing. destruct (fo_init f) eqn:I; [intros [= <-]; rewrite I; auto|]. intro E. unfold apply_operations in E. destruct (apply_types _ _ _ _ _) as [g| |]; cbn [bind] in E; try discriminate. injection E as <-. auto.
Qed.
Print Assumptions c84_run_once.

(** The case: the gradient of the precipitation is calibrated; temperature and PET do not depend on it. *)
Definition par (gp cf : R) (names : list string) : pars :=
  mkPP (fun n => if String.eqb n "gp" then Ok (AFloat gp) else if String.eqb n "cf" then Ok (AFloat cf) else if String.eqb n "gt" then Ok (AFloat (-1)) else Throw) names.
Definition pet_case : string -> pet_args -> outcome (list R) := fun _ a => match pa_series a with [(VT, s)] => Ok (map (fun t => Rmax 0 t) s) | _ => Throw end.
Definition ops_case : list operation := [sp "p" (Param "gp"); sp "t" (Param "gt"); cor (Param "cf"); ComputePet "oudin" ["t"; "lat"] []].
Lemma ops_case_sound : sound_operations ["gp"] ops_case.
Proof.
  split; [|split].
  - intros v m c n I J K. cbn in I. destruct I as [I|[I|[I|[I|[]]]]]; try discriminate I. injection I as <- <- <-. cbn in J, K. destruct J as [<-|[]]. destruct K as [K|[]]. discriminate K.
  - intros m use kw I. cbn in I. destruct I as [I|[I|[I|[I|[]]]]]; try discriminate I. injection I as <- <- <-. split; [intros n []|]. split.
    + intros u [<-|[<-|[]]]; vm_compute; discriminate.
    + intros u s sm so v n J L Gu Gs Q K. cbn in L. destruct L as [L|[L|[L|[L|[]]]]]; try discriminate L; injection L as <- <- <-.
      * cbn in J. destruct J as [<-|[<-|[]]]; vm_compute in Gu; try discriminate Gu. injection Gu as <-. vm_compute in Gs. discriminate Gs.
      * cbn in Q, K. destruct Q as [<-|[]]. destruct K as [K|[]]. discriminate K.
  - unfold outputs. cbn. repeat constructor; cbn; intuition discriminate.
Qed.
Example c84_case : sound_operations ["gp"] (fo_ops (case_f ops_case)) /\
  (forall q r, In q [par (1/10) 2 ["gp"]; par (1/20) 2 ["gp"]; par (3/10) 2 ["gp"]] -> In r [par (1/10) 2 ["gp"]; par (1/20) 2 ["gp"]; par (3/10) 2 ["gp"]] -> differ_on ["gp"] q r) /\
  exists f', calibrate_forcing pet_case (par (1/10) 2 ["gp"]) ([par (1/20) 2 ["gp"]] ++ [par (3/10) 2 ["gp"]]) (case_f ops_case) = Ok f' /\
  exists fr, apply_operations pet_case (Some (par (3/10) 2 ["gp"])) true (case_f ops_case) = Ok fr /\ exists y, cell f' VP 1 0 = Some y /\ y = 80.
Proof.
  split; [exact ops_case_sound|]. split.
  - intros q r Iq Ir. cbn [In] in Iq, Ir. assert (H : forall g g', differ_on ["gp"] (par g 2 ["gp"]) (par g' 2 ["gp"])).
    { intros g g'. split; [reflexivity|]. split; [reflexivity|]. intros n Hn. cbn [par pp_get]. destruct (String.eqb_spec n "gp") as [->|]; [|reflexivity]. elim Hn. left. reflexivity. }
    destruct Iq as [<-|[<-|[<-|[]]]], Ir as [<-|[<-|[<-|[]]]]; apply H.
  - eexists. split; [fgo; reflexivity|]. eexists. split; [fgo; reflexivity|]. eexists. split; [fgo; reflexivity|]. lra.
Qed.

(** *** What goes wrong otherwise *)
(** A calibrated correction factor: the factors of the samples multiply, and the precipitation of the units is that of the product.
    Two samples with the factor 2 give 4 times the precipitation. *)
Theorem c84_correction_refuted : exists f' fr, calibrate_forcing no_pet (par (1/10) 1 ["gp"; "cf"]) ([par (1/10) 2 ["gp"; "cf"]] ++ [par (1/10) 2 ["gp"; "cf"]]) (case_f [cor (Param "cf"); sp "p" (Param "gp")]) = Ok f' /\
  apply_operations no_pet (Some (par (1/10) 2 ["gp"; "cf"])) true (case_f [cor (Param "cf"); sp "p" (Param "gp")]) = Ok fr /\
  exists y yr, cell f' VP 0 0 = Some y /\ cell fr VP 0 0 = Some yr /\ y = 40 /\ yr = 20.
Proof. eexists. eexists. split; [fgo; reflexivity|]. split; [fgo; reflexivity|]. eexists. eexists. split; [fgo; reflexivity|]. split; [fgo; reflexivity|]. split; lra. Qed.
Print Assumptions c84_correction_refuted.
(** If the spatialisation itself has no calibrated parameter the factor has no effect at all on the units. *)
Theorem c84_ignored_refuted : exists f' fr, calibrate_forcing no_pet (par (1/10) 1 ["cf"]) ([] ++ [par (1/10) 2 ["cf"]]) (case_f [cor (Param "cf"); sp "p" (Param "gp")]) = Ok f' /\
  apply_operations no_pet (Some (par (1/10) 2 ["cf"])) true (case_f [cor (Param "cf"); sp "p" (Param "gp")]) = Ok fr /\
  exists y yr, cell f' VP 0 0 = Some y /\ cell fr VP 0 0 = Some yr /\ y = 10 /\ yr = 20.
Proof. eexists. eexists. split; [fgo; reflexivity|]. split; [fgo; reflexivity|]. eexists. eexists. split; [fgo; reflexivity|]. split; [fgo; reflexivity|]. split; lra. Qed.
Print Assumptions c84_ignored_refuted.
(** PET is not computed again when the temperature it is computed from changes. *)
Ltac pgo := lazy -[Rmax Rplus Rmult Rminus Rdiv Rinv Ropp IZR].
Theorem c84_pet_refuted : exists f' fr, calibrate_forcing pet_case (par (-1) 1 ["gp"]) ([] ++ [par 0 1 ["gp"]]) (case_f [sp "t" (Param "gp"); ComputePet "oudin" ["t"] []]) = Ok f' /\
  apply_operations pet_case (Some (par 0 1 ["gp"])) true (case_f [sp "t" (Param "gp"); ComputePet "oudin" ["t"] []]) = Ok fr /\
  exists y yr, cell f' VPet 1 1 = Some y /\ cell fr VPet 1 1 = Some yr /\ y = 5 /\ yr = 15.
Proof.
  eexists. eexists. split; [pgo; reflexivity|]. split; [pgo; reflexivity|]. eexists. eexists. split; [pgo; reflexivity|]. split; [pgo; reflexivity|]. split; (rewrite Rmax_right by lra; lra).
Qed.
Print Assumptions c84_pet_refuted.
(** The calibration applies the operations again to a forcing that was used for a run: a fixed correction by 6/5 becomes 36/25. *)
Theorem c84_repeated_refuted : exists f1 f2, run_forcing no_pet (par (1/10) 1 []) (case_f [cor (Given (AFloat (6/5))); sp "p" (Given (AFloat (1/10)))]) = Ok f1 /\
  calibrate_forcing no_pet (par (1/10) 1 []) [] f1 = Ok f2 /\ exists y1 y2, cell f1 VP 0 0 = Some y1 /\ cell f2 VP 0 0 = Some y2 /\ y1 = 10 * (6/5) /\ y2 = 10 * (36/25).
Proof. eexists. eexists. split; [fgo; reflexivity|]. split; [fgo; reflexivity|]. eexists. eexists. split; [fgo; reflexivity|]. split; [fgo; reflexivity|]. split; lra. Qed.
Print Assumptions c84_repeated_refuted.
