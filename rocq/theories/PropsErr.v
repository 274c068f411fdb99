(** Property theorems about rounding errors: C113, C114 and C115. *)
From Coq Require Import Reals Lra.
From Verif Require Import Base F64 F64Lemmas Env EnvLemmas Utils Tree Spec Options Train Examples TrainEx SpecErr ErrProofs ErrEx.
Open Scope R_scope.

(** C113 *)
Theorem c113_loss_error : forall L id y p, (L = SQErrLoss id \/ L = MSELoss id) -> length y = length p -> y <> [] -> fits (length y) ->
  ffinite (l_loss L y p) = true ->
  allFinite y /\ allFinite p /\
  Rabs (B2R (l_loss L y p) - meanSquare (exact y) (exact p)) <= (INR (length y) + 3) * two (-52) * meanSquare (exact y) (exact p) + two (-1073).
Proof. exact c113_lemma. Qed.
Theorem c113_loss_exact : forall y p : list R, length y = length p -> sqLoss RN y p = meanSquare y p.
Proof. exact loss_exact. Qed.
Theorem c113_perfect : forall L id y, (L = SQErrLoss id \/ L = MSELoss id) -> y <> [] -> allFinite y -> fits (length y) ->
  ffinite (l_loss L y y) = true /\ B2R (l_loss L y y) = 0.
Proof. exact c113_perfect_lemma. Qed.
(** a loss of zero does not mean that the predictions are the labels *)
Theorem c113_zero_refuted : exists y p, length y = length p /\ allFinite y /\ allFinite p /\ exact y <> exact p /\ B2R (l_loss (MSELoss 0%Z) y p) = 0.
Proof. exact ref_c113. Qed.
Example c113_nonvacuous : ffinite (l_loss (MSELoss 0%Z) (vec [1; 2]%Z) (vec [3; 5]%Z)) = true /\ fits 2 /\ meanSquare (exact (vec [1; 2]%Z)) (exact (vec [3; 5]%Z)) = 13 / 2.
Proof. exact ex_c113. Qed.
Print Assumptions c113_loss_error.
Print Assumptions c113_loss_exact.
Print Assumptions c113_perfect.
Print Assumptions c113_zero_refuted.

(** C114: the value of every node, whatever the order of the additions *)
Theorem c114_mean_value : forall E X o t d l r, EnvOk E -> NewTree E X o = Ok t -> sub (Node d l r) t -> to_xgb o = false ->
  (t_nsamples d <= 2 ^ 50)%Z -> ffinite (t_value d) = true ->
  exists ix y, t_samples d = Some ix /\ Forall2 (look (to_y o)) ix y /\ y <> [] /\ allFinite y /\
  Rabs (B2R (t_value d) - mean (exact y)) <= two (-52) * absSum (exact y) + two (-1074).
Proof. exact c114_mean_lemma. Qed.
Theorem c114_xgb_value : forall E X o t d l r, EnvOk E -> NewTree E X o = Ok t -> sub (Node d l r) t -> to_xgb o = true ->
  (t_nsamples d <= 2 ^ 50)%Z -> ffinite (t_value d) = true ->
  (forall x, In x (orNil (to_hess o)) -> fleb fzero x = true /\ fleb x fone = true) ->
  ffinite (to_lambda o) = true -> 0 <= B2R (to_lambda o) <= two 1000 ->
  exists ix g h, t_samples d = Some ix /\ Forall2 (look (orNil (to_grads o))) ix g /\ Forall2 (look (orNil (to_hess o))) ix h /\ allFinite g /\
  (ix <> [] -> let D := rsum (exact h) + B2R (to_lambda o) in
    0 < D /\ Rabs (B2R (t_value d) - - rsum (exact g) / D) <= INR (length ix) * two (-50) * (absSum (exact g) / D) + two (-1074)).
Proof. exact c114_xgb_lemma. Qed.
(** a leaf all of whose targets are 0.1 does not predict 0.1 *)
Theorem c114_equal_targets_refuted : exists X o t d ix, NewTree env0 X o = Ok t /\ to_xgb o = false /\ sub (Node d Nil Nil) t /\ t_samples d = Some ix /\
  (forall i, In i ix -> look (to_y o) i tenth) /\ feqb (t_value d) tenth = false.
Proof. exact ref_c114. Qed.
Example c114_nonvacuous : (exists t d l r, NewTree env0 exX exOg = Ok t /\ sub (Node d l r) t /\ (t_nsamples d <= 2 ^ 50)%Z /\ ffinite (t_value d) = true) /\
  (exists t d l r, NewTree env0 exX exO = Ok t /\ sub (Node d l r) t /\ (t_nsamples d <= 2 ^ 50)%Z /\ ffinite (t_value d) = true) /\
  forallb (fun x => fleb fzero x && fleb x fone) (orNil (to_hess exO)) = true /\ ffinite (to_lambda exO) = true /\ to_lambda exO = fzero.
Proof. exact ex_c114. Qed.
Print Assumptions c114_mean_value.
Print Assumptions c114_xgb_value.
Print Assumptions c114_equal_targets_refuted.

(** C115: the exact sum of the returned numbers *)
Theorem c115_softmax_sum : forall E p q out, EnvOk E -> fits (length p) -> length q = length p -> SoftMax E p q = Ok out ->
  (forall x, In x out -> fnanb x = false) -> (exists x, In x out /\ fltb fzero x = true) ->
  Rabs (rsum (exact out) - 1) <= INR (length p) * two (-51).
Proof. exact softmax_sum. Qed.
Theorem c115_normalization_sum : forall p q out, fits (length p) -> length q = length p -> Normalization p q = Ok out -> (forall x, In x p -> fleb fzero x = true) ->
  (forall x, In x out -> fnanb x = false) -> (exists x, In x out /\ fltb fzero x = true) ->
  Rabs (rsum (exact out) - 1) <= INR (length p) * two (-51).
Proof. exact normalization_sum. Qed.
Theorem c115_predictions : forall K E rnd (D : DataBunch K) O tr row bufs preds bufs', EnvOk E -> NewMultiClass E rnd D O = Ok tr ->
  PredictMC (tr_model tr) row bufs = Ok (preds, bufs') -> fits (length preds) ->
  (forall x, In x preds -> fnanb x = false) -> (exists x, In x preds /\ fltb fzero x = true) ->
  Rabs (rsum (exact preds) - 1) <= INR (length preds) * two (-51).
Proof. exact @c115_model_lemma. Qed.
(** the sum need not be exactly 1 *)
Theorem c115_exact_sum_refuted : exists p q out, Normalization p q = Ok out /\ (forall x, In x p -> fleb fzero x = true) /\ rsum (exact out) <> 1.
Proof. exact ref_c115. Qed.
Example c115_nonvacuous : exists tr preds, NewMultiClass env0 draws0 exD (mkO true 0 3 2 (fdec 3 10))%Z = Ok tr /\
  PredictMC (tr_model tr) (vec [1]%Z) [] = Ok (preds, []) /\ fits (length preds) /\ forallb (fun x => negb (fnanb x)) preds = true /\ existsb (fltb fzero) preds = true.
Proof. exact ex_c115. Qed.
Print Assumptions c115_softmax_sum.
Print Assumptions c115_normalization_sum.
Print Assumptions c115_predictions.
Print Assumptions c115_exact_sum_refuted.
