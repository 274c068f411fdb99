(** C167: in exact arithmetic BaseScore cancels; a BaseScore that is NaN or has no finite positive exponential silently gives a
    model that knows nothing. *)
From Coq Require Import Reals.
From Verif Require Import Base F64 Env EnvLemmas Utils Tree Options Train Spec SpecTrain RealProofs Examples TrainEx SpecFar FarProofs FarEx.
Open Scope Z_scope.

(** adding the same number to all scores does not change the probabilities on paper *)
Theorem c167_cancels : forall (b : R) (p : list R), softmax RN exp rsum (map (fun s => (b + s)%R) p) = softmax RN exp rsum p.
Proof. exact softmax_shift. Qed.

(** the option check does not look at BaseScore *)
Theorem c167_unchecked : forall O b, Check (withBase O b) = Check O.
Proof. exact far_check. Qed.

(** every tree is a single leaf without knowledge, and every trained round has a tree for every class: early stopping never
    stops a class because the loss is NaN *)
Theorem c167_trees : forall K E rnd (D : DataBunch K) O tr id, EnvOk E -> NewMultiClass E rnd D O = Ok tr -> (length (Data D) <= length (Labels D))%nat ->
  o_loss O = SQErrLoss id \/ o_loss O = MSELoss id -> farScore E (o_base O) ->
  (forall ens t, In ens (mc_b (tr_model tr)) -> In t ens -> blankLeaf t) /\
  (Data D <> [] -> (forall ens, In ens (mc_b (tr_model tr)) -> length ens = length (ClassLabels (tr_model tr))) /\
                   forall e, In e (concat (tr_hist tr)) -> fnanb (g_loss e) = true).
Proof. exact far_trees_lemma. Qed.

(** every prediction is NaN in every class, the predicted class is the first, and the accuracy is the share of its label *)
Theorem c167_predictions : forall K E rnd (D : DataBunch K) O tr id, EnvOk E -> NewMultiClass E rnd D O = Ok tr -> (length (Data D) <= length (Labels D))%nat ->
  o_loss O = SQErrLoss id \/ o_loss O = MSELoss id -> farScore E (o_base O) ->
  (forall row bufs preds bufs', PredictMC (tr_model tr) row bufs = Ok (preds, bufs') -> forall p, In p preds -> fnanb p = true) /\
  (forall row bufs k bufs', PredictSingleClass (tr_model tr) row bufs = Ok (k, bufs') -> k = 0) /\
  exists l0, look (ClassLabels (tr_model tr)) 0 l0 /\ forall K' (D' : DataBunch K') a, Accuracy (tr_model tr) D' = Ok a ->
    a = fmul (fofZ 100) (fdiv (fofZ (Z.of_nat (count_occ Z.eq_dec (firstn (length (Data D')) (Labels D')) l0))) (fofZ (Z.of_nat (length (Data D'))))).
Proof. exact far_predictions_lemma. Qed.

Example c167_nonvacuous : Check (withBase farO (fofZ 710)) = true /\ (length (Data exD) <= length (Labels exD))%nat /\ Data exD <> [] /\ o_loss farO = SQErrLoss 0 /\
  farScore env0 (fofZ 710) /\ farScore env0 (fofZ (-746)) /\ farScore env0 fnan /\
  (forall b, In b [fhalf; fofZ (-700)] -> exists tr a, NewMultiClass env0 draws0 exD (withBase farO b) = Ok tr /\ Accuracy (tr_model tr) exD = Ok a /\ fleb (fofZ 100) a = true) /\
  (forall b, In b [fofZ 710; fofZ (-746); fnan; fofZ 709] -> exists tr a, NewMultiClass env0 draws0 exD (withBase farO b) = Ok tr /\ Accuracy (tr_model tr) exD = Ok a /\ fleb a (fofZ 34) = true) /\
  (exists tr ps bufs, NewMultiClass env0 draws0 exD (withBase farO (fofZ 710)) = Ok tr /\ PredictMC (tr_model tr) (vec [1]) [] = Ok (ps, bufs) /\ length (mc_b (tr_model tr)) = 4%nat /\ length ps = 3%nat).
Proof. exact ex_far. Qed.
Print Assumptions c167_cancels.
Print Assumptions c167_unchecked.
Print Assumptions c167_trees.
Print Assumptions c167_predictions.
