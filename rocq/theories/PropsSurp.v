(** C148: data whose number of labels is not the number of rows. *)
From Coq Require Import String.
From Verif Require Import Base F64 Env Utils Tree Spec Options Train TrainEx SpecSurp SurpProofs SurpEx.
From Coq Require Import List.
Open Scope Z_scope.

(** Labels beyond the rows, if they are labels of some row, do not change the model (without early stopping). *)
Theorem c148_surplus : forall K E rnd (D : DataBunch K) S O tr, rowwise (o_loss O) -> o_earlystop O <= 0 -> length (Labels D) = length (Data D) ->
  (forall v, In v S -> In v (Labels D)) -> NewMultiClass E rnd D O = Ok tr ->
  exists tr', NewMultiClass E rnd (moreLabels D S) O = Ok tr' /\ tr_model tr' = tr_model tr /\ tr_opts tr' = tr_opts tr.
Proof. exact more_lemma. Qed.
Theorem c148_losses : forall id, rowwise (SQErrLoss id) /\ rowwise (MSELoss id).
Proof. exact rowwise_std. Qed.
(** The classes are the labels in the order of their first occurrence, surplus ones included. *)
Theorem c148_classes : forall K E rnd (D : DataBunch K) O tr, NewMultiClass E rnd D O = Ok tr -> firstOccurrences (Labels D) (mc_labels (tr_model tr)).
Proof. exact classes_lemma. Qed.
(** With early stopping they do: the training goes on. *)
Theorem c148_early_stop_refuted : exists (D : DataBunch unit) S O tr tr', rowwise (o_loss O) /\ length (Labels D) = length (Data D) /\ (forall v, In v S -> In v (Labels D)) /\
  NewMultiClass env0 draws0 D O = Ok tr /\ NewMultiClass env0 draws0 (moreLabels D S) O = Ok tr' /\
  map (@length tree) (mc_b (tr_model tr)) = [3; 0; 0; 0]%nat /\ map (@length tree) (mc_b (tr_model tr')) = [3; 3; 3; 3]%nat.
Proof. exact ref_c148. Qed.
(** With fewer labels than rows training cannot return a model with trees: every round was skipped for want of samples. *)
Theorem c148_fewer : forall K E rnd (D : DataBunch K) O tr, (length (Labels D) < length (Data D))%nat -> NewMultiClass E rnd D O = Ok tr ->
  mc_b (tr_model tr) = [] /\
  forall rd, (rd < Z.to_nat (o_rounds O))%nat -> exists ix cols, roundSamples O (Data D) (rnd rd) = Ok (ix, cols) /\ Z.of_nat (length (orNil ix)) < o_minsample O.
Proof. exact few_lemma. Qed.
Theorem c148_none : forall K E rnd (D : DataBunch K) O, Labels D = [] -> NewMultiClass E rnd D O = Panic.
Proof. exact none_lemma. Qed.
(** The accuracy ignores surplus labels and is never computed with too few. *)
Theorem c148_accuracy : forall K M (D : DataBunch K) S,
  (length (Labels D) = length (Data D) -> Accuracy M (moreLabels D S) = Accuracy M D) /\
  ((length (Labels D) < length (Data D))%nat -> forall a, Accuracy M D <> Ok a).
Proof. exact accuracy_lemma. Qed.

Example c148_nonvacuous : rowwise (o_loss surO) /\ o_earlystop surO <= 0 /\ length (Labels exD) = length (Data exD) /\ (forall v, In v [5] -> In v (Labels exD)) /\
  length (Labels surD) = 4%nat /\ exists tr, NewMultiClass env0 draws0 exD surO = Ok tr /\ map (@length tree) (mc_b (tr_model tr)) = [3; 3; 3]%nat.
Proof. exact ex_c148. Qed.
(** a label that no row has becomes a class *)
Example c148_new_class : exists tr, NewMultiClass env0 draws0 (moreLabels exD [9]) surO = Ok tr /\ mc_labels (tr_model tr) = [7; 5; 6; 9] /\
  map (@length tree) (mc_b (tr_model tr)) = [4; 4; 4]%nat.
Proof. exact ex_new_class. Qed.
Example c148_nonvacuous_few : (length (Labels fewD) < length (Data fewD))%nat /\ (match NewMultiClass env0 draws0 fewD surO with Panic => true | _ => false end = true) /\
  exists tr, NewMultiClass env0 draws0 fewD (MkOpts true 3 2 0 (fdec 3 10) fone fone fzero fone fone fhalf 5 "exact"%string false (SQErrLoss 0)) = Ok tr.
Proof. exact ex_few. Qed.

Print Assumptions c148_surplus.
Print Assumptions c148_classes.
Print Assumptions c148_losses.
Print Assumptions c148_early_stop_refuted.
Print Assumptions c148_fewer.
Print Assumptions c148_none.
Print Assumptions c148_accuracy.
