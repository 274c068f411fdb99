(** Witnesses for training with a single label. *)
From Coq Require Import String.
From Verif Require Import Base F64 F64Lemmas Env EnvLemmas Utils Tree Options Train Spec SpecTrain Examples TrainEx InvEx RowProofs.
From Coq Require Import List.
Open Scope Z_scope.
Definition oneO : Options := MkOpts true 3 2 0 (fdec 3 10) fone fone fzero fhalf fhalf fhalf 1 "exact" false (SQErrLoss 0).
Lemma exp_at b : feqb b fzero = false -> ffinite (e_exp env0 b) = true -> fltb fzero (e_exp env0 b) = true -> forall x, feqb x b = true -> ffinite (e_exp env0 x) = true /\ fltb fzero (e_exp env0 x) = true.
Proof. intros Hz F P x H. apply feqb_cases in H as [-> |(s & s' & _ & ->)]; [auto|destruct s'; discriminate Hz]. Qed.
Lemma ex_one : Check oneO = true /\ (exists tr preds bufs, NewMultiClass env0 draws0 exOne oneO = Ok tr /\ PredictMC (tr_model tr) (vec [5]) [] = Ok (preds, bufs)) /\
  (forall v, In v (Labels exOne) -> v = 7) /\ o_xgb oneO = true /\ o_loss oneO = SQErrLoss 0 /\ fltb (o_gamma oneO) fzero = false /\ fltb fzero (o_lambda oneO) = true /\
  ffinite (o_lr oneO) = true /\ ffinite (o_base oneO) = true /\ (forall x, feqb x (o_base oneO) = true -> ffinite (e_exp env0 x) = true /\ fltb fzero (e_exp env0 x) = true) /\
  (exists tr preds bufs, NewMultiClass env0 draws0 exOne (DefaultGOptions 0) = Ok tr /\ PredictMC (tr_model tr) (vec [5]) [] = Ok (preds, bufs) /\ preds <> []) /\
  ffinite (e_exp env0 (o_base (DefaultGOptions 0))) = true /\ fltb fzero (e_exp env0 (o_base (DefaultGOptions 0))) = true.
Proof.
  assert (R : forall O, match NewMultiClass env0 draws0 exOne O with Ok tr => match PredictMC (tr_model tr) (vec [5]) [] with Ok (p :: _, _) => true | _ => false end | _ => false end = true ->
    exists tr preds bufs, NewMultiClass env0 draws0 exOne O = Ok tr /\ PredictMC (tr_model tr) (vec [5]) [] = Ok (preds, bufs) /\ preds <> []).
  { intros O H. destruct (NewMultiClass env0 draws0 exOne O) as [tr| |]; try discriminate H. destruct (PredictMC (tr_model tr) (vec [5]) []) as [[preds bufs]| |] eqn:EP; try discriminate H.
    exists tr, preds, bufs. split; [reflexivity|]. split; [exact EP|]. intros ->. discriminate H. }
  split; [vm_compute; reflexivity|]. split. { destruct (R oneO) as (tr & preds & bufs & H1 & H2 & _); [vm_compute; reflexivity|eauto]. }
  split. { cbn [exOne Labels In]. intros v H. intuition. }
  split; [reflexivity|]. split; [reflexivity|]. do 4 (split; [vm_compute; reflexivity|]).
  split; [apply exp_at; vm_compute; reflexivity|]. split; [apply R; vm_compute; reflexivity|]. split; vm_compute; reflexivity.
Qed.
