(** C136: how exact scores are, and what that means for the class. *)
From Coq Require Import Reals.
From Verif Require Import Base F64 Env Utils Tree Spec SpecErr Train SpecTrain SpecLearn LearnEx JsonMore SpecScore ScoreProofs ScoreEx.
From Coq Require Import List.
Open Scope R_scope.

(** C136: a finite raw score with [n] trees is within (n+1) 2^-52 A + n 2^-1074 of the exact score, where A is the sum of the
    magnitudes of its terms *)
Theorem c136_score_error : forall M row out j s S A, rawScores M row = Ok out -> nth_error out j = Some s -> classScore M row j S A -> ffinite s = true ->
  fits (length (positionTrees (mc_b M) j) + 1) -> Rabs (B2R s - S) <= scoreError (length (positionTrees (mc_b M) j)) A.
Proof. exact class_error. Qed.
(** scores do not overflow if the terms sum up to at most 600 *)
Theorem c136_score_finite : forall M row out j s S A, rawScores M row = Ok out -> nth_error out j = Some s -> classScore M row j S A ->
  (Z.of_nat (length (positionTrees (mc_b M) j)) < 2 ^ 40)%Z -> A <= 600 -> ffinite s = true /\ Rabs (B2R s) <= 610.
Proof. exact class_finite. Qed.
(** a class whose exact score leads by the two error bounds and 2^-34 is the class returned *)
Theorem c136_margin : forall E M row bufs out k, EnvOk E -> expAccurate E -> mc_pt M = softmaxOf E -> rawScores M row = Ok out -> (k < length out)%nat ->
  (Z.of_nat (length out) <= 2 ^ 40)%Z -> (forall j, (j < length out)%nat -> (Z.of_nat (length (positionTrees (mc_b M) j)) < 2 ^ 40)%Z) ->
  (forall j, (j < length out)%nat -> exists Sj Aj Sk Ak, classScore M row j Sj Aj /\ classScore M row k Sk Ak /\ Aj <= 600 /\
    (j <> k -> Sj + scoreError (length (positionTrees (mc_b M) j)) Aj + scoreError (length (positionTrees (mc_b M) k)) Ak + two (-34) <= Sk)) ->
  PredictSingleClass M row bufs = Ok (Z.of_nat k, bufs).
Proof. exact margin_lemma. Qed.
Example c136_nonvacuous : exists out, EnvOk envR /\ expAccurate envR /\ mc_pt scM = softmaxOf envR /\ rawScores scM scRow = Ok out /\ (1 < length out)%nat /\
  (Z.of_nat (length out) <= 2 ^ 40)%Z /\ (forall j, (j < length out)%nat -> (Z.of_nat (length (positionTrees (mc_b scM) j)) < 2 ^ 40)%Z) /\
  (forall j, (j < length out)%nat -> exists Sj Aj Sk Ak, classScore scM scRow j Sj Aj /\ classScore scM scRow 1 Sk Ak /\ Aj <= 600 /\
    (j <> 1%nat -> Sj + scoreError (length (positionTrees (mc_b scM) j)) Aj + scoreError (length (positionTrees (mc_b scM) 1)) Ak + two (-34) <= Sk)).
Proof. exact ex_score. Qed.
Print Assumptions c136_score_error.
Print Assumptions c136_score_finite.
Print Assumptions c136_margin.
