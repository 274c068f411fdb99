(** Properties C101-C106: pairs of runs. *)
From Verif Require Import Base F64 Env EnvLemmas Utils Tree Spec Options Train SpecTrain SpecTot SpecInv Examples TrainEx TreeInv InvMore InvEx.
Open Scope Z_scope.

(** C101: only the order of the values of a feature matters for what is learned. *)
Theorem c101_tree_order : forall E X X' o t, EnvOk E -> sortsByComparison E -> goodTable X -> goodTable X' -> sameOrder X X' ->
  NewTree E X o = Ok t -> exists t', NewTree E X' o = Ok t' /\ noThr t = noThr t' /\
  forall i row row', In i (initialSamples X o) -> look X i row -> look X' i row' -> exists v, PredictSingle t row = Ok v /\ PredictSingle t' row' = Ok v.
Proof. intros E X X' o t HE HN HG HG' HO. exact (tree_rel E HE HN X X' HG HG' HO o t). Qed.
Theorem c101_training_order : forall K K' E rnd (D : DataBunch K) (D' : DataBunch K') O tr, EnvOk E -> sortsByComparison E ->
  goodTable (Data D) -> goodTable (Data D') -> sameOrder (Data D) (Data D') -> Labels D = Labels D' ->
  (o_xgb O = false \/ fltb (o_ss O) fone = false) -> NewMultiClass E rnd D O = Ok tr ->
  exists tr', NewMultiClass E rnd D' O = Ok tr' /\ tr_state tr' = tr_state tr /\ mc_labels (tr_model tr') = mc_labels (tr_model tr) /\
    map (map noThr) (mc_b (tr_model tr')) = map (map noThr) (mc_b (tr_model tr)).
Proof. exact @c101_ens_lemma. Qed.
Theorem c101_sort_exists : EnvOk env0 /\ sortsByComparison env0.
Proof. exact (conj env0_ok isort_natural). Qed.
Example c101_nonvacuous : EnvOk env0 /\ sortsByComparison env0 /\ goodTable (Data exD) /\ goodTable (Data exD2) /\ sameOrder (Data exD) (Data exD2) /\
  Labels exD = Labels exD2 /\ fltb (o_ss exFullO) fone = false /\ exists tr, NewMultiClass env0 draws0 exD exFullO = Ok tr.
Proof. exact ex_c101. Qed.

(** C102: a smaller depth limit gives the same tree, cut. *)
Theorem c102_depth_cut : forall E X o n m u, n <= m -> NewTree E X (withDepth o m) = Ok u ->
  exists t, NewTree E X (withDepth o n) = Ok t /\ cutAt (Z.to_nat n) u t.
Proof. exact c102_lemma. Qed.
Example c102_nonvacuous : exists u, NewTree env0 (mat [[0]; [1]; [2]]) (withDepth exOg 3) = Ok u /\ (1 < depth u)%nat.
Proof. exact ex_c102. Qed.

(** C103: fewer rounds give the first ensembles of the longer training. *)
Theorem c103_rounds_prefix : forall K E rnd (D : DataBunch K) O n m tr, n <= m -> NewMultiClass E rnd D (withRounds O m) = Ok tr ->
  exists tr0 rest, NewMultiClass E rnd D (withRounds O n) = Ok tr0 /\ mc_b (tr_model tr) = mc_b (tr_model tr0) ++ rest /\
    mc_lr (tr_model tr) = mc_lr (tr_model tr0) /\ mc_labels (tr_model tr) = mc_labels (tr_model tr0) /\
    mc_base (tr_model tr) = mc_base (tr_model tr0) /\ mc_xgb (tr_model tr) = mc_xgb (tr_model tr0).
Proof. exact @c103_lemma. Qed.
Example c103_nonvacuous : exists tr, NewMultiClass env0 draws0 exD (withRounds exFullO 3) = Ok tr.
Proof. exact ex_c103. Qed.

(** C104: a constant column changes nothing. *)
Theorem c104_tree_constant : forall E X c n o t, EnvOk E -> (1 <= n)%nat -> (forall row, In row X -> length row = n) -> fnanb c = false ->
  to_allowed o = [] -> NewTree E X o = Ok t -> NewTree E (addColumn X c) o = Ok t.
Proof. intros E X c n o t HE Hn HR Hc. exact (c104_tree_lemma E HE X c n Hn HR Hc o t). Qed.
Theorem c104_training_constant : forall K E rnd (D : DataBunch K) O tr c n, EnvOk E -> (1 <= n)%nat ->
  (forall row, In row (Data D) -> length row = n) -> fnanb c = false ->
  (o_xgb O = false \/ fltb (o_css O) fone = false) -> NewMultiClass E rnd D O = Ok tr ->
  forall keys : list K, NewMultiClass E rnd (MkData (addColumn (Data D) c) keys (Labels D)) O = Ok tr.
Proof. exact @c104_ens_lemma. Qed.
Theorem c104_prediction_constant : forall K E rnd (D : DataBunch K) O tr c n, EnvOk E -> (1 <= n)%nat ->
  (forall row, In row (Data D) -> length row = n) -> fnanb c = false ->
  (o_xgb O = false \/ fltb (o_css O) fone = false) -> NewMultiClass E rnd D O = Ok tr ->
  forall row bufs, length row = n -> PredictMC (tr_model tr) (row ++ [c]) bufs = PredictMC (tr_model tr) row bufs /\
    PredictSingleClass (tr_model tr) (row ++ [c]) bufs = PredictSingleClass (tr_model tr) row bufs.
Proof. exact @c104_predict_lemma. Qed.
Example c104_nonvacuous : fltb (o_css exFullO) fone = false /\ fnanb (fZ 9) = false /\ (forall row, In row (Data exD) -> length row = 1%nat) /\
  exists tr, NewMultiClass env0 draws0 exD exFullO = Ok tr.
Proof. exact ex_c104. Qed.

(** C105: the label values are names only. *)
Theorem c105_training_renamed : forall f : Z -> Z, (forall a b, f a = f b -> a = b) -> forall K E rnd (D : DataBunch K) O tr,
  NewMultiClass E rnd D O = Ok tr ->
  NewMultiClass E rnd (MkData (Data D) (Keys D) (map f (Labels D))) O = Ok (MkTr (renameModel f (tr_model tr)) (tr_opts tr) (tr_state tr) (tr_hist tr)).
Proof. exact @c105_lemma. Qed.
Theorem c105_accuracy_renamed : forall f : Z -> Z, (forall a b, f a = f b -> a = b) -> forall K M (D : DataBunch K),
  Accuracy (renameModel f M) (MkData (Data D) (Keys D) (map f (Labels D))) = Accuracy M D.
Proof. exact @c105_accuracy_lemma. Qed.
Example c105_nonvacuous : (forall a b : Z, a + 100 = b + 100 -> a = b) /\ exists tr, NewMultiClass env0 draws0 exD exFullO = Ok tr.
Proof. exact ex_c105. Qed.

(** C106: a single label. *)
Theorem c106_single_label : forall K E rnd (D : DataBunch K) O tr a, (forall v, In v (Labels D) -> v = a) -> NewMultiClass E rnd D O = Ok tr ->
  ClassLabels (tr_model tr) = [a] /\ forall row bufs k bufs', PredictSingleClass (tr_model tr) row bufs = Ok (k, bufs') -> k = 0.
Proof. exact @c106_lemma. Qed.
Example c106_nonvacuous : (forall v, In v (Labels exOne) -> v = 7) /\ exists tr k, NewMultiClass env0 draws0 exOne exFullO = Ok tr /\
  PredictSingleClass (tr_model tr) (vec [5]) [] = Ok (k, []).
Proof. exact ex_c106. Qed.

Print Assumptions c101_tree_order.
Print Assumptions c101_training_order.
Print Assumptions c101_sort_exists.
Print Assumptions c102_depth_cut.
Print Assumptions c103_rounds_prefix.
Print Assumptions c104_tree_constant.
Print Assumptions c104_training_constant.
Print Assumptions c104_prediction_constant.
Print Assumptions c105_training_renamed.
Print Assumptions c105_accuracy_renamed.
Print Assumptions c106_single_label.
