(** Concrete cases and witnesses for gradient searches that save their best models. *)
From Coq Require Import Ascii String.
From Verif Require Import Base F64 Env EnvLemmas Utils Tree Spec Options Train SpecTrain Examples TrainEx Text Json SpecJson JsonCodec JsonMore CV CVEx Grid SpecGrid GridEx Grad SpecGrad GradEx PrintProofs PrintEx Save SpecSave SaveProofs SaveEx SaveGrad SaveGradProofs.
From Coq Require Import List.
Open Scope Z_scope.

Definition exSave : nat -> f64 -> option Options -> dir -> dir * res bool := saveOf bufSize (fun _ => allOk) codec0 env0 (fun _ => draws0) exCV 0.
Definition exGG : res (ggRet * dir) :=
  GradientGridSaving (searchCV env0 30 gOr 0 exCV) (searchStep env0 30 gOr 0 exCV 3 (gGrid false)) (q_fuzz gOr) exSave 30 0 (gGrid false) noFiles.
Definition exHG : res (ggRet * dir) :=
  HybridGradientGridSaving (searchCV env0 30 gOr 0 exCV) (searchStep env0 30 gOr 0 exCV 3 (gGrid false)) (q_fuzz gOr) exSave 30 0 (gGrid false) noFiles.
Definition otherRate (x : ggRet * dir) : bool :=
  let '(r, d') := x in
  negb (gg_err r) && match gg_accuracies r with [] => false | _ => true end &&
  match gg_opts r, d' (modelName (gg_acc r)) with
  | Some t, Some s => match UnJSONMultiClass codec0 env0 s true with Ok (Some M') => negb (feqb (mc_lr M') (o_lr t)) | _ => false end
  | _, _ => false
  end.
Lemma otherRate_ok x : otherRate x = true -> gg_err (fst x) = false /\ gg_accuracies (fst x) <> [] /\ exists t s M', gg_opts (fst x) = Some t /\ snd x (modelName (gg_acc (fst x))) = Some s /\
  UnJSONMultiClass codec0 env0 s true = Ok (Some M') /\ feqb (mc_lr M') (o_lr t) = false.
Proof.
  destruct x as [r d']. cbn [fst snd otherRate]. intros H. apply andb_true_iff in H as [H H2]. apply andb_true_iff in H as [H0 H1]. apply negb_true_iff in H0. split; [auto|].
  split; [intros E; rewrite E in H1; discriminate H1|]. destruct (gg_opts r) as [t|]; [|discriminate H2]. destruct (d' (modelName (gg_acc r))) as [s|]; [|discriminate H2].
  exists t, s. destruct (UnJSONMultiClass codec0 env0 s true) as [[M'|]| |]; try discriminate H2. exists M'. apply negb_true_iff in H2. auto.
Qed.
Lemma ref_c116 : exists r d', exGG = Ok (r, d') /\ gg_err r = false /\ gg_accuracies r <> [] /\ exists t s M', gg_opts r = Some t /\ d' (modelName (gg_acc r)) = Some s /\
  UnJSONMultiClass codec0 env0 s true = Ok (Some M') /\ feqb (mc_lr M') (o_lr t) = false.
Proof. destruct (ok_ex exGG otherRate) as ([r d'] & Hr & HB); [vm_compute; reflexivity|]. exists r, d'. split; [exact Hr|]. apply otherRate_ok in HB. exact HB. Qed.
Lemma ref_c116_h : exists r d', exHG = Ok (r, d') /\ gg_err r = false /\ gg_accuracies r <> [] /\ exists t s M', gg_opts r = Some t /\ d' (modelName (gg_acc r)) = Some s /\
  UnJSONMultiClass codec0 env0 s true = Ok (Some M') /\ feqb (mc_lr M') (o_lr t) = false.
Proof. destruct (ok_ex exHG otherRate) as ([r d'] & Hr & HB); [vm_compute; reflexivity|]. exists r, d'. split; [exact Hr|]. apply otherRate_ok in HB. exact HB. Qed.
Lemma ex_c116 : (exists T, savesText T exSave) /\ cvRaises (searchCV env0 30 gOr 0 exCV) /\
  (exists r d', exGG = Ok (r, d') /\ gg_err r = false /\ gg_accuracies r <> []) /\ exists r d', exHG = Ok (r, d') /\ gg_err r = false /\ gg_accuracies r <> [].
Proof.
  split; [apply saveOf_savesText|]. split; [apply searchCV_raises|]. destruct ref_c116 as (r & d' & H1 & H2 & H3 & _). destruct ref_c116_h as (r' & d1 & K1 & K2 & K3 & _).
  split; [exists r, d'|exists r', d1]; auto.
Qed.
