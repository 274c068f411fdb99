(** C166: predictions are constant between thresholds; training rows can be moved a little. *)
From Coq Require Import Reals.
From Verif Require Import Base F64 Env Utils Tree Spec Options Train SpecTrain SpecTot Examples TrainEx BoundEx SpecShift ShiftProofs ShiftEx.
Open Scope Z_scope.

(** rows on the same side of every threshold of a model are predicted alike *)
Theorem c166_alike : forall M row row', (forall ens t p, In ens (mc_b M) -> In t ens -> In p (splitsOf t) -> sameSide row row' p) ->
  rawScores M row' = rawScores M row /\ forall bufs, PredictMC M row' bufs = PredictMC M row bufs /\ PredictSingleClass M row' bufs = PredictSingleClass M row bufs.
Proof. exact alike_model. Qed.
(** without sub-sampling of rows, a training row whose values are moved less than half-way to the other values of their columns is predicted as before *)
Theorem c166_training_row : forall K E rnd (D : DataBunch K) O tr, EnvOk E -> NewMultiClass E rnd D O = Ok tr -> (length (Data D) <= length (Labels D))%nat -> goodTable (Data D) -> finiteTable (Data D) ->
  o_xgb O = false \/ fltb (o_ss O) fone = false -> forall row row' bufs, In row (Data D) -> movedLittle (Data D) row row' ->
  rawScores (tr_model tr) row' = rawScores (tr_model tr) row /\ PredictMC (tr_model tr) row' bufs = PredictMC (tr_model tr) row bufs /\ PredictSingleClass (tr_model tr) row' bufs = PredictSingleClass (tr_model tr) row bufs.
Proof. exact @moved_lemma. Qed.
(** in real numbers: less than half the distance to any other value, less the rounding error of the half-way point *)
Theorem c166_distance : forall X row row', goodTable X -> finiteTable X -> In row X -> length row' = length row ->
  (forall f v v', look row f v -> look row' f v' -> closeTo X f v v') -> movedLittle X row row'.
Proof. exact close_moved. Qed.
(** with sub-sampling a threshold can fall on a row that was left out *)
Theorem c166_left_out_refuted : movedLittle (Data exD) [fofZ 1] [quarter5] /\ In [fofZ 1] (Data exD) /\ exists tr, NewMultiClass env0 shiftDraws exD shiftO = Ok tr /\
  PredictSingleClass (tr_model tr) [fofZ 1] [] = Ok (0, []) /\ PredictSingleClass (tr_model tr) [quarter5] [] = Ok (2, []).
Proof. exact (conj ex_moved (conj (or_intror (or_introl eq_refl)) ex_left_out)). Qed.
Example c166_nonvacuous : EnvOk env0 /\ goodTable (Data exD) /\ finiteTable (Data exD) /\ (length (Data exD) <= length (Labels exD))%nat /\ In [fofZ 1] (Data exD) /\ movedLittle (Data exD) [fofZ 1] [quarter5] /\
  fltb (o_ss boundO) fone = false /\ exists tr, NewMultiClass env0 draws0 exD boundO = Ok tr /\ PredictSingleClass (tr_model tr) [fofZ 1] [] = Ok (1, []).
Proof. exact ex_shift. Qed.
Example c166_close : closeTo (Data exD) 0 (fofZ 1) quarter5.
Proof. exact ex_close. Qed.
Print Assumptions c166_alike.
Print Assumptions c166_training_row.
Print Assumptions c166_distance.
Print Assumptions c166_left_out_refuted.
