(** The gradient searches over ordinary data return: C140. *)
From Coq Require Import Reals.
From Verif Require Import Base F64 F64Lemmas Env EnvLemmas Utils Tree Options Train Spec SpecTot TrainEx CV SpecCV CVEx Grid SpecGrid GridProofs SpecGridTot Grad SpecGrad GradEx SpecGradTot GradRet GradRetEx.
Open Scope Z_scope.

(** C140: both searches return, and the options they return can be trained with (C98) *)
Theorem c140_gradient_returns : forall K E q id (D : DataBunch K) nfold options, EnvOk E -> goodTable (Data D) -> (2 <= length (Data D))%nat ->
  length (Labels D) = length (Data D) -> sizesOk (Data D) -> goodOracles (length (Data D)) q -> (forall o, options = Some o -> goodClimb o) ->
  exists fuel r, GradientGrid E fuel q id D nfold options = Ok r /\ forall o, gg_opts r = Some o -> optsOk o.
Proof. exact @gradient_returns. Qed.
Theorem c140_hybrid_returns : forall K E q id (D : DataBunch K) nfold options, EnvOk E -> goodTable (Data D) -> (2 <= length (Data D))%nat ->
  length (Labels D) = length (Data D) -> sizesOk (Data D) -> goodOracles (length (Data D)) q ->
  (forall o, options = Some o -> goodClimb o /\ 1 <= r_step (g_rounds o) /\ fairStep (g_lambda o)) ->
  exists fuel r, HybridGradientGrid E fuel q id D nfold options = Ok r /\ forall o, gg_opts r = Some o -> optsOk o.
Proof. exact @hybridgrid_returns. Qed.
(** at most NSteps + 1 evaluations for every starting point *)
Theorem c140_gradient_evaluations : forall K E fuel q id (D : DataBunch K) nfold o r lw ld, GradientGrid E fuel q id D nfold (Some o) = Ok r ->
  rangeF (g_mcw o) lw -> rangeZ (g_maxdepth o) ld -> (length (gg_evals r) <= length lw * (length ld * S (Z.to_nat (g_nsteps o))))%nat.
Proof. exact @gradient_count. Qed.
Theorem c140_hybrid_evaluations : forall K E fuel q id (D : DataBunch K) nfold o r lr lw ld ll, HybridGradientGrid E fuel q id D nfold (Some o) = Ok r ->
  rangeZ (g_rounds o) lr -> rangeF (g_mcw o) lw -> rangeZ (g_maxdepth o) ld -> rangeF (g_lambda o) ll ->
  (length (gg_evals r) <= length lr * (length lw * (length ld * (length ll * S (Z.to_nat (g_nsteps o))))))%nat.
Proof. exact @hybrid_count. Qed.
(** no error with at least four rows, whatever the number of folds asked for *)
Theorem c140_no_error : forall K E fuel q id (D : DataBunch K) nfold options r, goodOracles (length (Data D)) q -> length (Labels D) = length (Data D) ->
  (4 <= length (Data D))%nat -> GradientGrid E fuel q id D nfold options = Ok r \/ HybridGradientGrid E fuel q id D nfold options = Ok r -> gg_err r = false.
Proof. exact @gg_noerr. Qed.
(** an error with fewer, if there is a starting point *)
Theorem c140_gradient_error : forall K E fuel q id (D : DataBunch K) nfold o r, goodOracles (length (Data D)) q -> length (Labels D) = length (Data D) ->
  (length (Data D) < 4)%nat -> fleb (r_lo (g_mcw o)) (r_hi (g_mcw o)) = true -> r_lo (g_maxdepth o) <= r_hi (g_maxdepth o) -> goodClimb o ->
  GradientGrid E fuel q id D nfold (Some o) = Ok r -> gg_err r = true /\ gg_acc r = fofZ (-1) /\ gg_accuracies r = [] /\ gg_opts r = None.
Proof. exact @gg_error. Qed.
Theorem c140_hybrid_error : forall K E fuel q id (D : DataBunch K) nfold o r, goodOracles (length (Data D)) q -> length (Labels D) = length (Data D) ->
  (length (Data D) < 4)%nat -> fleb (r_lo (g_mcw o)) (r_hi (g_mcw o)) = true -> r_lo (g_maxdepth o) <= r_hi (g_maxdepth o) ->
  r_lo (g_rounds o) <= r_hi (g_rounds o) -> fleb (r_lo (g_lambda o)) (r_hi (g_lambda o)) = true ->
  goodClimb o -> 1 <= r_step (g_rounds o) -> fairStep (g_lambda o) ->
  HybridGradientGrid E fuel q id D nfold (Some o) = Ok r -> gg_err r = true /\ gg_acc r = fofZ (-1) /\ gg_accuracies r = [] /\ gg_opts r = None.
Proof. exact @hyb_error. Qed.
Example c140_nonvacuous : goodTable (Data exCV) /\ (4 <= length (Data exCV))%nat /\ length (Labels exCV) = length (Data exCV) /\ sizesOk (Data exCV) /\
  goodOracles (length (Data exCV)) gOr /\ goodClimb DefaultXGridOptions /\ 1 <= r_step (g_rounds DefaultXGridOptions) /\ fairStep (g_lambda DefaultXGridOptions).
Proof. exact ex_c140. Qed.

Print Assumptions c140_gradient_returns.
Print Assumptions c140_hybrid_returns.
Print Assumptions c140_gradient_evaluations.
Print Assumptions c140_hybrid_evaluations.
Print Assumptions c140_no_error.
Print Assumptions c140_gradient_error.
Print Assumptions c140_hybrid_error.
