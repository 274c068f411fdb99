(** C121: plain gradient boosting with trees deep enough learns every training set without repeated rows. *)
From Coq Require Import Reals.
From Flocq Require Import Core.
From Verif Require Import Base F64 Env Utils Tree Spec Options Train SpecTrain SpecTot SpecLearn TrainEx LearnProofs LearnEx.
Open Scope R_scope.

(** training succeeds, every training row is given its own label, and [Accuracy] on the training set is 100 *)
Theorem c121_learns : forall K E rnd (D : DataBunch K) O, EnvOk E -> expAccurate E ->
  goodTable (Data D) -> length (Labels D) = length (Data D) -> distinctRows (Data D) ->
  (Z.of_nat (length (Data D)) <= 2 ^ 40)%Z -> (forall row, In row (Data D) -> Z.of_nat (length row) < 2 ^ 62)%Z -> (2 <= distinctCount (Labels D))%nat ->
  deepPlain O (length (Data D)) -> stepsBounded O (distinctCount (Labels D)) -> fractionOk (o_ss O) -> fractionOk (o_css O) ->
  exists tr, NewMultiClass E rnd D O = Ok tr /\
  (forall i row y, nth_error (Data D) i = Some row -> nth_error (Labels D) i = Some y -> predictsLabel (tr_model tr) row y) /\
  exists a, Accuracy (tr_model tr) D = Ok a /\ feqb a (fofZ 100) = true.
Proof. exact @c121_lemma. Qed.
(** the bound on the scores cannot be dropped: with BaseScore 800 no more than a third of the rows of a learnable set are right *)
Theorem c121_high_base_refuted : exists tr a, NewMultiClass env0 draws0 exD learnHigh = Ok tr /\ Accuracy (tr_model tr) exD = Ok a /\ fltb a (fofZ 34) = true.
Proof. exact ex_c121_high. Qed.
Example c121_nonvacuous : EnvOk envR /\ expAccurate envR /\ goodTable (Data exD) /\ length (Labels exD) = length (Data exD) /\ distinctRows (Data exD) /\
  distinctCount (Labels exD) = 3%nat /\ deepPlain learnSq (length (Data exD)) /\ stepsBounded learnSq 3 /\ deepPlain learnMse (length (Data exD)) /\ stepsBounded learnMse 3 /\
  fractionOk (o_ss learnSq) /\ fractionOk (o_css learnSq).
Proof. exact ex_c121. Qed.

Print Assumptions c121_learns.
Print Assumptions c121_high_base_refuted.
Print Assumptions c121_nonvacuous.
