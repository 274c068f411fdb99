(** C146: processors with a fused multiply-add. *)
From Coq Require Import Reals.
From Verif Require Import Base F64 Env Utils Tree Spec SpecErr Options Train SpecTrain SpecLearn LearnEx JsonMore SpecScore TrainEx ScoreEx Fma FmaProofs FmaGain FmaEx.
From Coq Require Import List.
Open Scope R_scope.

(** C146: without fused operations, the functions are those of the other claims *)
Theorem c146_plain : forall M row bufs, rawScoresF false M row = rawScores M row /\
  (forall ps, PredictMCF false M row = Ok ps <-> PredictMC M row bufs = Ok (ps, bufs)) /\ (forall c, PredictSingleClassF false M row = Ok c <-> PredictSingleClass M row bufs = Ok (c, bufs)).
Proof. exact plain_lemma. Qed.
(** both processors get scores for the same rows, one for each class *)
Theorem c146_same_rows : forall f1 f2 M row o1, rawScoresF f1 M row = Ok o1 -> exists o2, rawScoresF f2 M row = Ok o2 /\ length o2 = length o1.
Proof. exact rawScoresF_any. Qed.
(** the error bound of C136 holds on both *)
Theorem c146_score_error : forall fuse M row out j s S A, rawScoresF fuse M row = Ok out -> nth_error out j = Some s -> classScore M row j S A -> ffinite s = true ->
  fits (length (positionTrees (mc_b M) j) + 1) -> Rabs (B2R s - S) <= scoreError (length (positionTrees (mc_b M) j)) A.
Proof. exact class_errorF. Qed.
Theorem c146_score_finite : forall fuse M row out j s S A, rawScoresF fuse M row = Ok out -> nth_error out j = Some s -> classScore M row j S A ->
  (Z.of_nat (length (positionTrees (mc_b M) j)) < 2 ^ 40)%Z -> A <= 600 -> ffinite s = true /\ Rabs (B2R s) <= 610.
Proof. exact class_finiteF. Qed.
(** so the two scores of a class differ by at most twice the bound *)
Theorem c146_difference : forall M row o1 o2 j s1 s2 S A, rawScoresF true M row = Ok o1 -> rawScoresF false M row = Ok o2 -> nth_error o1 j = Some s1 -> nth_error o2 j = Some s2 ->
  classScore M row j S A -> ffinite s1 = true -> ffinite s2 = true -> fits (length (positionTrees (mc_b M) j) + 1) ->
  Rabs (B2R s1 - B2R s2) <= 2 * scoreError (length (positionTrees (mc_b M) j)) A.
Proof. exact difference_lemma. Qed.
(** and the class with the margin of C136 is returned by both *)
Theorem c146_margin : forall fuse E M row out k, EnvOk E -> expAccurate E -> mc_pt M = softmaxOf E -> rawScoresF fuse M row = Ok out -> (k < length out)%nat ->
  (Z.of_nat (length out) <= 2 ^ 40)%Z -> (forall j, (j < length out)%nat -> (Z.of_nat (length (positionTrees (mc_b M) j)) < 2 ^ 40)%Z) ->
  (forall j, (j < length out)%nat -> exists Sj Aj Sk Ak, classScore M row j Sj Aj /\ classScore M row k Sk Ak /\ Aj <= 600 /\
    (j <> k -> Sj + scoreError (length (positionTrees (mc_b M) j)) Aj + scoreError (length (positionTrees (mc_b M) k)) Ak + two (-34) <= Sk)) ->
  PredictSingleClassF fuse M row = Ok (Z.of_nat k).
Proof. exact margin_lemmaF. Qed.
(** the gain of a split is the same number, unless the bracket it halves is finite and below 2^-1021 *)
Theorem c146_gain : forall gl hl gr hr g h lambda gamma,
  let x := fsub (fadd (fdiv (fmul gl gl) (fadd hl lambda)) (fdiv (fmul gr gr) (fadd hr lambda))) (fdiv (fmul g g) (fadd h lambda)) in
  (ffinite x = true -> B2R x = 0 \/ two (-1021) <= Rabs (B2R x)) ->
  xgbGainF true gl hl gr hr g h lambda gamma = xgbGain F fhalf gl hl gr hr g h lambda gamma.
Proof. exact gain_fused. Qed.
(** without a margin the class can differ *)
Theorem c146_class_refuted : exists M row, PredictSingleClassF false M row = Ok 0%Z /\ PredictSingleClassF true M row = Ok 1%Z.
Proof. exact fma_class. Qed.
(** where the prediction is fused, the scores the training ended with need not be those the model predicts with for the training rows:
    in the training, the product and the sum are two steps (xgb.go:100-104) *)
Theorem c146_training_scores_refuted : exists (D : DataBunch unit) O tr row out y v, NewMultiClass env0 draws0 D O = Ok tr /\ nth_error (Data D) 0 = Some row /\
  rawScoresF true (tr_model tr) row = Ok out /\ nth_error out 0 = Some y /\ entry (s_raw (tr_state tr)) 0 0 v /\ ffinite y = true /\ ffinite v = true /\ feqb y v = false.
Proof. exact fma_training. Qed.
Example c146_nonvacuous : exists out, EnvOk envR /\ expAccurate envR /\ mc_pt scM = softmaxOf envR /\ rawScoresF true scM scRow = Ok out /\ (1 < length out)%nat /\
  (Z.of_nat (length out) <= 2 ^ 40)%Z /\ (forall j, (j < length out)%nat -> (Z.of_nat (length (positionTrees (mc_b scM) j)) < 2 ^ 40)%Z) /\
  (forall j, (j < length out)%nat -> exists Sj Aj Sk Ak, classScore scM scRow j Sj Aj /\ classScore scM scRow 1 Sk Ak /\ Aj <= 600 /\
    (j <> 1%nat -> Sj + scoreError (length (positionTrees (mc_b scM) j)) Aj + scoreError (length (positionTrees (mc_b scM) 1)) Ak + two (-34) <= Sk)).
Proof. exact ex_fma. Qed.
Example c146_gain_nonvacuous : let x := fsub (fadd (fdiv (fmul fone fone) (fadd fone fone)) (fdiv (fmul fone fone) (fadd fone fone))) (fdiv (fmul fzero fzero) (fadd ftwo fone)) in feqb x fone = true.
Proof. exact fma_gain. Qed.
Print Assumptions c146_plain.
Print Assumptions c146_same_rows.
Print Assumptions c146_score_error.
Print Assumptions c146_score_finite.
Print Assumptions c146_difference.
Print Assumptions c146_margin.
Print Assumptions c146_gain.
Print Assumptions c146_class_refuted.
Print Assumptions c146_training_scores_refuted.
