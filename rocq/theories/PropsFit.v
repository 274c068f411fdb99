(** C117-C119 and C120: redundant columns, what splits achieve, memorisation, saturation. *)
From Coq Require Import Reals String.
From Verif Require Import Base F64 F64Lemmas Env EnvLemmas Utils Tree Spec Options Train SpecTrain SpecTot SpecInv SpecFit Examples TrainEx InvMore DupProofs FitProofs MemProofs SatProofs InvEx FitEx.
From Coq Require Import List.
Open Scope Z_scope.

(** C117: a column that orders the rows like an earlier one changes nothing. *)
Theorem c117_tree_redundant : forall E X n f col o t, EnvOk E -> sortsByComparison E -> 0 <= f < Z.of_nat n ->
  (forall row, In row X -> length row = n) -> followsColumn X f col -> to_allowed o = [] ->
  NewTree E X o = Ok t -> NewTree E (appendColumn X col) o = Ok t.
Proof. intros E X n f col o t HE HN Hf HR HC. exact (c117_tree_lemma E HE HN X n f col Hf HR HC o t). Qed.
Theorem c117_training_redundant : forall K E rnd (D : DataBunch K) O tr n f col, EnvOk E -> sortsByComparison E -> 0 <= f < Z.of_nat n ->
  (forall row, In row (Data D) -> length row = n) -> followsColumn (Data D) f col ->
  (o_xgb O = false \/ fltb (o_css O) fone = false) -> NewMultiClass E rnd D O = Ok tr ->
  forall keys : list K, NewMultiClass E rnd (MkData (appendColumn (Data D) col) keys (Labels D)) O = Ok tr.
Proof. exact @c117_ens_lemma. Qed.
Example c117_nonvacuous : EnvOk env0 /\ sortsByComparison env0 /\ 0 <= 0 < Z.of_nat 1 /\ (forall row, In row (Data exD) -> length row = 1%nat) /\
  followsColumn (Data exD) 0 (vec [-7; 20; 400]) /\ fltb (o_css exFullO) fone = false /\
  exists tr, NewMultiClass env0 draws0 exD exFullO = Ok tr.
Proof. exact ex_c117. Qed.

(** C118: the leaves' best objective, the gains and the depth limit. *)
Theorem c118_objective : forall E X o t (g h : Z -> R) (lambda gamma : R), NewTree E X o = Ok t -> (forall i, 0 <= h i)%R -> (0 < lambda)%R ->
  leafSum (fun ix => bestObjective g h lambda ix + gamma / 2)%R t =
  (bestObjective g h lambda (initialSamples X o) + gamma / 2 - innerSum (exactGain g h lambda gamma) t)%R.
Proof. exact c118_xgb_lemma. Qed.
Theorem c118_best : forall (g h : Z -> R) (lambda : R) ix, (0 < sumH (pairsOf g h ix) + lambda)%R ->
  (forall w, bestObjective g h lambda ix <= leafObjective (pairsOf g h ix) lambda w)%R /\
  leafObjective (pairsOf g h ix) lambda (- sumG (pairsOf g h ix) / (sumH (pairsOf g h ix) + lambda))%R = bestObjective g h lambda ix.
Proof. exact c118_best_lemma. Qed.
Theorem c118_regression : forall E X o t (y : Z -> R), NewTree E X o = Ok t ->
  leafSum (spread y) t = (spread y (initialSamples X o) - innerSum (fun il ir => spread y (il ++ ir) - spread y il - spread y ir) t)%R /\
  (leafSum (spread y) t <= spread y (initialSamples X o))%R.
Proof. exact c118_reg_lemma. Qed.
Theorem c118_deeper : forall E X o n m u t (y : Z -> R), n <= m -> NewTree E X (withDepth o m) = Ok u -> NewTree E X (withDepth o n) = Ok t ->
  (leafSum (spread y) u <= leafSum (spread y) t)%R.
Proof. exact c118_depth_lemma. Qed.
Example c118_nonvacuous : exists t, NewTree env0 exX exO = Ok t /\ (2 <= length (leaves t))%nat.
Proof. exact ex_c118. Qed.
Example c118_depth_nonvacuous : exists u t, NewTree env0 exX (withDepth exOg 4) = Ok u /\ NewTree env0 exX (withDepth exOg 1) = Ok t /\
  (length (leaves t) < length (leaves u))%nat.
Proof. exact ex_c118_depth. Qed.

(** C119: with enough depth the leaves are the groups of equal rows, and targets are reproduced. *)
Theorem c119_separated : forall E X o t, EnvOk E -> goodTable X -> NewTree E X o = Ok t -> to_xgb o = false -> to_allowed o = [] ->
  (forall y, In y (to_y o) -> moderate y) -> ftoZ (to_mcw o) <= 1 -> initialSamples X o <> [] ->
  Z.of_nat (length (initialSamples X o)) <= to_maxdepth o -> Z.of_nat (length (initialSamples X o)) < 2 ^ 51 ->
  (forall z, In z (initialSamples X o) -> 0 <= z < Z.of_nat (length X)) ->
  forall d i, In d (leaves t) -> In i (samplesOf d) -> forall j, In j (samplesOf d) <-> In j (initialSamples X o) /\ sameRow X i j.
Proof. intros E X o t HE HG. exact (c119_separated_lemma E HE X HG o t). Qed.
Theorem c119_memorised : forall E X o t, EnvOk E -> goodTable X -> NewTree E X o = Ok t -> to_xgb o = false -> to_allowed o = [] ->
  (forall y, In y (to_y o) -> moderate y) -> ftoZ (to_mcw o) <= 1 -> initialSamples X o <> [] ->
  Z.of_nat (length (initialSamples X o)) <= to_maxdepth o -> Z.of_nat (length (initialSamples X o)) < 2 ^ 51 ->
  (forall z, In z (initialSamples X o) -> 0 <= z < Z.of_nat (length X)) -> NoDup (initialSamples X o) ->
  (forall i j, In i (initialSamples X o) -> In j (initialSamples X o) -> sameRow X i j -> i = j) ->
  forall i row y, In i (initialSamples X o) -> look X i row -> look (to_y o) i y ->
  exists v, PredictSingle t row = Ok v /\ feqb v y = true.
Proof. intros E X o t HE HG. exact (c119_memorised_lemma E HE X HG o t). Qed.
Example c119_nonvacuous : goodTable (Data exD) /\ to_xgb memO = false /\ to_allowed memO = [] /\ (forall y, In y (to_y memO) -> moderate y) /\
  ftoZ (to_mcw memO) <= 1 /\ initialSamples (Data exD) memO = [0; 1; 2] /\ to_maxdepth memO = 3 /\ NoDup (initialSamples (Data exD) memO) /\
  (forall i j, In i (initialSamples (Data exD) memO) -> In j (initialSamples (Data exD) memO) -> sameRow (Data exD) i j -> i = j) /\
  exists t, NewTree env0 (Data exD) memO = Ok t.
Proof. exact ex_c119. Qed.

(** C120: a leaf whose samples are all predicted exactly becomes NaN, and with it all predictions of its rows. *)
Theorem c120_nan_tree : forall K E rnd (D : DataBunch K) O tr, EnvOk E -> NewMultiClass E rnd D O = Ok tr ->
  forall ens t row v bufs, In ens (mc_b (tr_model tr)) -> In t ens -> PredictSingle t row = Ok v -> fnanb v = true ->
  (forall preds bufs', PredictMC (tr_model tr) row bufs = Ok (preds, bufs') -> forall p, In p preds -> fnanb p = true) /\
  (forall k bufs', PredictSingleClass (tr_model tr) row bufs = Ok (k, bufs') -> k = 0).
Proof. exact @c120_nan_lemma. Qed.
Theorem c120_saturated : forall K E rnd (D : DataBunch K) O0 tr id, EnvOk E -> NewMultiClass E rnd D O0 = Ok tr ->
  (length (Data D) <= length (Labels D))%nat -> o_xgb O0 = false -> o_loss O0 = MSELoss id ->
  forall es1 e es2, concat (tr_hist tr) = es1 ++ e :: es2 -> exists lab pr,
    indicator (Labels D) (ClassLabels (tr_model tr)) (g_class e) lab /\
    probsAt E (tr_opts tr) (Data D) (length (ClassLabels (tr_model tr))) es1 (g_class e) pr /\
    forall d, In d (leaves (g_tree e)) ->
      (forall i, In i (samplesOf d) -> exists a b, look lab i a /\ look pr i b /\ feqb a b = true) ->
      fnanb (t_value d) = true /\
      forall i row bufs, In i (samplesOf d) -> look (Data D) i row ->
        (forall preds bufs', PredictMC (tr_model tr) row bufs = Ok (preds, bufs') -> forall p, In p preds -> fnanb p = true) /\
        (forall k bufs', PredictSingleClass (tr_model tr) row bufs = Ok (k, bufs') -> k = 0).
Proof. exact @c120_saturated_lemma. Qed.
(** more rounds keep a perfect training accuracy: false *)
Theorem c120_more_rounds_refuted : exists tr18 tr19 a18 a19 ps bufs,
  NewMultiClass env0 draws0 satD (satO 18) = Ok tr18 /\ NewMultiClass env0 draws0 satD (satO 19) = Ok tr19 /\
  Accuracy (tr_model tr18) satD = Ok a18 /\ feqb a18 (fofZ 100) = true /\
  Accuracy (tr_model tr19) satD = Ok a19 /\ feqb a19 (fofZ 50) = true /\
  PredictMC (tr_model tr19) (vec [1]) [] = Ok (ps, bufs) /\ forall p, In p ps -> fnanb p = true.
Proof. exact ex_c120. Qed.

Print Assumptions c117_tree_redundant.
Print Assumptions c117_training_redundant.
Print Assumptions c118_objective.
Print Assumptions c118_best.
Print Assumptions c118_regression.
Print Assumptions c118_deeper.
Print Assumptions c119_separated.
Print Assumptions c119_memorised.
Print Assumptions c120_nan_tree.
Print Assumptions c120_saturated.
Print Assumptions c120_more_rounds_refuted.
