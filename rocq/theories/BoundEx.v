(** Concrete cases of C165. *)
From Coq Require Import Reals Lra String.
From Flocq Require Import Core BinarySingleNaN.
From Coq Require Import List.
From Verif Require Import Base F64 F64Lemmas Env EnvLemmas Utils Tree Spec Options Train SpecTrain SpecTot SpecLearn Examples NumErr TrainThms TrainMore TrainTot TrainEx TrainTotEx LearnEx SpecBound BoundProofs.
Open Scope Z_scope.

(** two rounds of XGB boosting with the squared error loss, L2 penalty 1 and step 1/2 *)
Definition boundO : Options := MkOpts true 2 3 0 fhalf fone fone fzero fone fone fhalf 0 "exact" false (SQErrLoss 0).
(** the same with the logistic loss *)
Definition boundMse : Options := MkOpts false 2 3 0 fhalf fone fone fzero fone fone fhalf 0 "exact" false (MSELoss 0).

Lemma one_real : ffinite fone = true /\ B2R fone = 1%R.
Proof. split; [reflexivity|apply B2R_fone]. Qed.
Lemma ex_bound : EnvOk envR /\ expAccurate envR /\ plainSquared boundO /\ o_xgb boundO = true /\ (0 < B2R (o_lambda boundO))%R /\ ffinite (o_base boundO) = true /\ ffinite (o_lr boundO) = true /\
  (length (Data exD) <= length (Labels exD))%nat /\ Z.of_nat (length (Data exD)) < 2 ^ 53 /\
  exists tr, NewMultiClass envR draws0 exD boundO = Ok tr /\ Z.of_nat (length (mc_b (tr_model tr))) < 2 ^ 40 /\ Z.of_nat (length (ClassLabels (tr_model tr))) <= 2 ^ 40 /\
    (Rabs (B2R (o_base boundO)) + INR (length (mc_b (tr_model tr))) * Rabs (B2R (o_lr boundO)) <= 600)%R.
Proof.
  destruct one_real as [F1 B1]. destruct half_real as [Fh Bh].
  split; [exact envR_ok|]. split; [exact envR_accurate|]. split.
  { split; [exists 0; reflexivity|]. split; [exact F1|]. cbn [boundO o_lambda]. rewrite B1. split; [lra|]. apply (IZR_le 1). vm_compute. discriminate. }
  split; [reflexivity|]. split; [cbn [boundO o_lambda]; rewrite B1; lra|]. split; [exact Fh|]. split; [exact Fh|]. split; [cbn; lia|]. split; [cbn; lia|].
  destruct (c98_lemma envR draws0 exD boundO envR_ok (proj1 (proj2 ex_c98)) eq_refl (proj1 (lossSized_std 0))) as (tr & Ht).
  - intros _; vm_compute; reflexivity.
  - intros _; vm_compute; reflexivity.
  - cbn; lia.
  - intros row Hr. cbn in Hr. destruct Hr as [<-|[<-|[<-|[]]]]; cbn; lia.
  - intros rd _. right. left. vm_compute. reflexivity.
  - exists tr. split; [exact Ht|]. pose proof (proj1 (c30_lemma envR draws0 exD boundO tr Ht)) as H2. cbn [o_rounds boundO] in H2. change (Z.max 0 2) with 2 in H2.
    split; [lia|]. split.
    + destruct (NewMultiClass_inv envR draws0 exD boundO tr Ht) as (_ & _ & _ & _ & _ & _ & HF & _). unfold ClassLabels.
      assert (HL : (length (mc_labels (tr_model tr)) <= 3)%nat); [|lia].
      change 3%nat with (length (Labels exD)). apply NoDup_incl_length; [apply (proj1 HF)|]. intros x Hx. apply (proj1 (proj2 HF)). exact Hx.
    + cbn [boundO o_base o_lr]. rewrite Bh. assert (INR (length (mc_b (tr_model tr))) <= 2)%R by (change 2%R with (INR 2); apply le_INR; lia). rewrite Rabs_pos_eq by lra. lra.
Qed.
(** with the logistic loss the leaves of the first round are worth 3 *)
Lemma ex_mse : exists tr ens t p, NewMultiClass env0 draws0 exD boundMse = Ok tr /\ In ens (mc_b (tr_model tr)) /\ In t ens /\ PredictSingle t [fofZ 0] = Ok p /\ fltb (fofZ 2) p = true.
Proof.
  destruct (ok_ex (NewMultiClass env0 draws0 exD boundMse) (fun tr => match mc_b (tr_model tr) with (t :: _) :: _ => match PredictSingle t [fofZ 0] with Ok p => fltb (fofZ 2) p | _ => false end | _ => false end)) as (tr & Ht & HB); [vm_compute; reflexivity|].
  destruct (mc_b (tr_model tr)) as [|[|t ens] b] eqn:Eb; try discriminate HB. destruct (PredictSingle t [fofZ 0]) as [p| |] eqn:Ep; try discriminate HB.
  exists tr, (t :: ens), t, p. rewrite Eb. repeat split; auto; left; auto.
Qed.
(** a leaf of the squared error model in env0: not zero *)
Lemma ex_leaf : exists tr ens t p, NewMultiClass env0 draws0 exD boundO = Ok tr /\ In ens (mc_b (tr_model tr)) /\ In t ens /\ PredictSingle t [fofZ 0] = Ok p /\ fltb (fdiv (fofZ 1) (fofZ 4)) p = true /\ fltb p fone = true.
Proof.
  destruct (ok_ex (NewMultiClass env0 draws0 exD boundO) (fun tr => match mc_b (tr_model tr) with (t :: _) :: _ => match PredictSingle t [fofZ 0] with Ok p => (fltb (fdiv (fofZ 1) (fofZ 4)) p && fltb p fone)%bool | _ => false end | _ => false end)) as (tr & Ht & HB); [vm_compute; reflexivity|].
  destruct (mc_b (tr_model tr)) as [|[|t ens] b] eqn:Eb; try discriminate HB. destruct (PredictSingle t [fofZ 0]) as [p| |] eqn:Ep; try discriminate HB. apply andb_prop in HB as [H1 H2].
  exists tr, (t :: ens), t, p. rewrite Eb. repeat split; auto; left; auto.
Qed.
