(** C165: with the squared error loss a tree moves a score by at most the learning rate. *)
From Coq Require Import Reals.
From Flocq Require Import BinarySingleNaN.
From Verif Require Import Base F64 Env Utils Tree Spec Options Train SpecTrain SpecLearn SpecScore Examples TrainEx LearnEx SpecBound BoundProofs BoundEx.
Open Scope R_scope.

(** what a tree of a trained model answers to any row is NaN or at most 1 in magnitude, for both kinds of boosting *)
Theorem c165_tree : forall K E rnd (D : DataBunch K) O tr, EnvOk E -> NewMultiClass E rnd D O = Ok tr -> (length (Data D) <= length (Labels D))%nat -> plainSquared O ->
  (Z.of_nat (length (Data D)) < 2 ^ 53)%Z -> forall ens t, In ens (mc_b (tr_model tr)) -> In t ens -> forall row p, PredictSingle t row = Ok p -> fnanb p = true \/ upTo 1 p.
Proof. exact @tree_lemma. Qed.
(** the exact score of a class is the BaseScore up to the number of trees times the learning rate *)
Theorem c165_score : forall K E rnd (D : DataBunch K) O tr, EnvOk E -> NewMultiClass E rnd D O = Ok tr -> (length (Data D) <= length (Labels D))%nat -> plainSquared O ->
  (Z.of_nat (length (Data D)) < 2 ^ 53)%Z -> forall row j S A, classScore (tr_model tr) row j S A ->
  let T := INR (length (positionTrees (mc_b (tr_model tr)) j)) in
  Rabs (S - B2R (o_base O)) <= T * Rabs (B2R (o_lr O)) /\ A <= Rabs (B2R (o_base O)) + T * Rabs (B2R (o_lr O)).
Proof. exact @score_lemma. Qed.
(** hence the exact probabilities keep away from 0 and 1 *)
Theorem c165_confidence : forall K E rnd (D : DataBunch K) O tr, EnvOk E -> NewMultiClass E rnd D O = Ok tr -> (length (Data D) <= length (Labels D))%nat -> plainSquared O ->
  (Z.of_nat (length (Data D)) < 2 ^ 53)%Z -> forall row S, (forall j, (j < length S)%nat -> exists A, classScore (tr_model tr) row j (nth j S 0) A) ->
  let B := INR (length (mc_b (tr_model tr))) * Rabs (B2R (o_lr O)) in forall j, (j < length S)%nat ->
  / (1 + (INR (length S) - 1) * exp (2 * B)) <= exactShare S j <= / (1 + (INR (length S) - 1) * exp (- (2 * B))).
Proof. exact @confidence_lemma. Qed.
(** XGB with a positive L2 penalty, an accurate exponential and scores that stay below 600: no NaN and no infinity in any tree, score or probability *)
Theorem c165_finite : forall K E (HE : EnvOk E) (HA : expAccurate E) rnd (D : DataBunch K) O tr, NewMultiClass E rnd D O = Ok tr -> (length (Data D) <= length (Labels D))%nat ->
  plainSquared O -> (Z.of_nat (length (Data D)) < 2 ^ 53)%Z -> o_xgb O = true -> 0 < B2R (o_lambda O) -> ffinite (o_base O) = true -> ffinite (o_lr O) = true ->
  (Z.of_nat (length (mc_b (tr_model tr))) < 2 ^ 40)%Z -> (Z.of_nat (length (ClassLabels (tr_model tr))) <= 2 ^ 40)%Z ->
  Rabs (B2R (o_base O)) + INR (length (mc_b (tr_model tr))) * Rabs (B2R (o_lr O)) <= 600 ->
  (forall ens t, In ens (mc_b (tr_model tr)) -> In t ens -> forall row p, PredictSingle t row = Ok p -> upTo 1 p) /\
  (forall row out, rawScores (tr_model tr) row = Ok out -> forall s, In s out -> upTo 610 s) /\
  (forall row bufs preds bufs', PredictMC (tr_model tr) row bufs = Ok (preds, bufs') -> forall p, In p preds -> ffinite p = true /\ 0 <= B2R p <= 1).
Proof.
  exact (fun K E HE HA rnd D O tr H1 H2 H3 H4 H5 H6 H7 H8 H9 Ha Hb => conj (tree_unit E HE HA rnd D O tr H1 H2 H3 H4 H5 H6 H7 H8 H9 Ha Hb)
    (conj (scores_unit E HE HA rnd D O tr H1 H2 H3 H4 H5 H6 H7 H8 H9 Ha Hb) (preds_unit E HE HA rnd D O tr H1 H2 H3 H4 H5 H6 H7 H8 H9 Ha Hb))).
Qed.
(** not so for the other loss: a tree trained with MSELoss can answer more than 2 *)
Theorem c165_mse_refuted : exists tr ens t p, NewMultiClass env0 draws0 exD boundMse = Ok tr /\ In ens (mc_b (tr_model tr)) /\ In t ens /\ PredictSingle t [fofZ 0] = Ok p /\ fltb (fofZ 2) p = true.
Proof. exact ex_mse. Qed.
Example c165_nonvacuous : EnvOk envR /\ expAccurate envR /\ plainSquared boundO /\ o_xgb boundO = true /\ 0 < B2R (o_lambda boundO) /\ ffinite (o_base boundO) = true /\ ffinite (o_lr boundO) = true /\
  (length (Data exD) <= length (Labels exD))%nat /\ (Z.of_nat (length (Data exD)) < 2 ^ 53)%Z /\
  exists tr, NewMultiClass envR draws0 exD boundO = Ok tr /\ (Z.of_nat (length (mc_b (tr_model tr))) < 2 ^ 40)%Z /\ (Z.of_nat (length (ClassLabels (tr_model tr))) <= 2 ^ 40)%Z /\
    Rabs (B2R (o_base boundO)) + INR (length (mc_b (tr_model tr))) * Rabs (B2R (o_lr boundO)) <= 600.
Proof. exact ex_bound. Qed.
Example c165_leaf : exists tr ens t p, NewMultiClass env0 draws0 exD boundO = Ok tr /\ In ens (mc_b (tr_model tr)) /\ In t ens /\ PredictSingle t [fofZ 0] = Ok p /\ fltb (fdiv (fofZ 1) (fofZ 4)) p = true /\ fltb p fone = true.
Proof. exact ex_leaf. Qed.
Print Assumptions c165_tree.
Print Assumptions c165_score.
Print Assumptions c165_confidence.
Print Assumptions c165_finite.
Print Assumptions c165_mse_refuted.
