(** C129-C134: what a prediction depends on. *)
From Coq Require Import String.
From Verif Require Import Base F64 Env EnvLemmas Utils Tree Options Train Spec SpecTrain SpecTot Examples TrainEx Feats SpecFeats Text Json SpecJson JsonCodec JsonMore
  SpecUse UseProofs UseEx.
From Coq Require Import List.
Open Scope Z_scope.

(** C129: rows that agree on the features reported by FeatureImportance get the same predictions. *)
Theorem c129_unused_features : forall E M f x y bufs, EnvOk E -> FeatureImportance E M = Ok f -> agreeOn (fe_feat f) x y ->
  PredictMC M x bufs = PredictMC M y bufs /\ PredictSingleClass M x bufs = PredictSingleClass M y bufs.
Proof. exact c129_lemma. Qed.
Theorem c129_tree : forall E xgb t f x y, EnvOk E -> TreeImportance E xgb t = Ok (Some f) -> agreeOn (fe_feat f) x y -> PredictSingle t x = PredictSingle t y.
Proof. exact c129_tree_lemma. Qed.
Theorem c129_leaf : forall E xgb t x y, TreeImportance E xgb t = Ok None -> PredictSingle t x = PredictSingle t y.
Proof. exact c129_leaf_lemma. Qed.
Theorem c129_no_feature : forall E M f, EnvOk E -> FeatureImportance E M = Ok f -> fe_feat f = [] -> forall x y bufs, PredictMC M x bufs = PredictMC M y bufs.
Proof. exact c129_empty_lemma. Qed.
(** but a reported feature need not matter *)
Theorem c129_converse_refuted : exists tr f, NewMultiClass env0 draws0 exD zeroO = Ok tr /\ FeatureImportance env0 (tr_model tr) = Ok f /\ In 0 (fe_feat f) /\
  forall x y bufs k k' b b', PredictSingleClass (tr_model tr) x bufs = Ok (k, b) -> PredictSingleClass (tr_model tr) y bufs = Ok (k', b') -> k = k'.
Proof. exact ref_c129. Qed.
Example c129_nonvacuous : EnvOk env0 /\ agreeOn [0] (vec [1; 4]) (vec [1; 9]) /\ exists tr f, NewMultiClass env0 draws0 useD useO = Ok tr /\
  FeatureImportance env0 (tr_model tr) = Ok f /\ fe_feat f = [0].
Proof. exact ex_c129. Qed.
Example c129_tree_nonvacuous : exists t f, NewTree env0 exX exO = Ok t /\ TreeImportance env0 (to_xgb exO) t = Ok (Some f) /\ fe_feat f <> [].
Proof. exact ex_c129_tree. Qed.

(** C130: rows that cannot be told apart get one label, so conflicting labels bound the accuracy. *)
Theorem c130_ceiling : forall K E M f (D : DataBunch K) key a, EnvOk E -> FeatureImportance E M = Ok f ->
  (forall x y, In x (Data D) -> In y (Data D) -> key x = key y -> agreeOn (fe_feat f) x y) -> Accuracy M D = Ok a ->
  exists right, (right <= ceiling key D)%nat /\ (right <= length (Data D))%nat /\ a = fmul (fofZ 100) (fdiv (fofZ (Z.of_nat right)) (fofZ (Z.of_nat (length (Data D))))).
Proof. exact c130_count_lemma. Qed.
Theorem c130_conflict : forall K E M f (D : DataBunch K) a i j x y l l', EnvOk E -> FeatureImportance E M = Ok f ->
  nth_error (Data D) i = Some x -> nth_error (Data D) j = Some y -> nth_error (Labels D) i = Some l -> nth_error (Labels D) j = Some l' ->
  agreeOn (fe_feat f) x y -> l <> l' -> Z.of_nat (length (Data D)) <= 2 ^ 40 -> Accuracy M D = Ok a -> fltb a (fofZ 100) = true.
Proof. exact c130_conflict_lemma. Qed.
Example c130_nonvacuous : ceiling rowKey conD = 3%nat /\ (forall fs x y, In x (Data conD) -> In y (Data conD) -> rowKey x = rowKey y -> agreeOn fs x y) /\
  exists tr f a, NewMultiClass env0 draws0 conD useO = Ok tr /\ FeatureImportance env0 (tr_model tr) = Ok f /\ Accuracy (tr_model tr) conD = Ok a /\ feqb a (fofZ 75) = true.
Proof. exact ex_c130. Qed.

(** C131: every save/load cycle loses a round. *)
Theorem c131_cycles : forall C E k M, CodecOk C -> writable M -> modelFinite M -> mc_pt M = softmaxOf E ->
  (exists M', reloaded C E k M M') /\ forall M', reloaded C E k M M' ->
    length (mc_b M') = (length (mc_b M) - k)%nat /\
    (forall row bufs, PredictMC M' row bufs = PredictMC (withRounds M (firstn (length (mc_b M) - k) (mc_b M))) row bufs) /\
    ((length (mc_b M) <= k)%nat -> forall row bufs, PredictMC M' row bufs = Panic).
Proof. exact c131_all_lemma. Qed.
Example c131_nonvacuous : CodecOk codec0 /\ exists tr, NewMultiClass env0 draws0 exD useO = Ok tr /\ writable (tr_model tr) /\ modelFinite (tr_model tr) /\
  mc_pt (tr_model tr) = softmaxOf env0 /\ length (mc_b (tr_model tr)) = 3%nat.
Proof. exact ex_c131. Qed.

(** C132: beyond the values of the training data predictions no longer change; NaN counts as very large. *)
Theorem c132_tree : forall E X o t x y, EnvOk E -> goodTable X -> NewTree E X o = Ok t -> differOutside X x y -> PredictSingle t x = PredictSingle t y.
Proof. exact c132_tree_lemma. Qed.
Theorem c132_model : forall K E rnd (D : DataBunch K) O tr x y bufs, EnvOk E -> goodTable (Data D) -> (length (Data D) <= length (Labels D))%nat ->
  NewMultiClass E rnd D O = Ok tr -> differOutside (Data D) x y ->
  PredictMC (tr_model tr) x bufs = PredictMC (tr_model tr) y bufs /\ PredictSingleClass (tr_model tr) x bufs = PredictSingleClass (tr_model tr) y bufs.
Proof. exact c132_lemma. Qed.
(** values without a midpoint between them break this: infinity is predicted as NaN, the largest training value is not *)
Theorem c132_close_values_refuted : exists X o t x y v w, (forall row c, In row X -> In c row -> ffinite c = true) /\ NewTree env0 X o = Ok t /\ differOutside X x y /\
  PredictSingle t x = Ok v /\ PredictSingle t y = Ok w /\ fnanb v = false /\ fnanb w = true.
Proof. exact ref_c132. Qed.
Example c132_nonvacuous : goodTable (Data exD) /\ differOutside (Data exD) (vec [-5]) [fninf] /\ differOutside (Data exD) (vec [100]) [finf] /\ differOutside (Data exD) (vec [100]) [fnan] /\
  exists tr, NewMultiClass env0 draws0 exD useO = Ok tr.
Proof. exact ex_c132. Qed.

(** C133: with learning rate 0 the first label is predicted for every row. *)
Theorem c133_no_learning : forall K E rnd (D : DataBunch K) O tr, EnvOk E -> NewMultiClass E rnd D O = Ok tr -> feqb (o_lr O) fzero = true -> o_base O <> fopp fzero ->
  (forall row bufs k bufs', PredictSingleClass (tr_model tr) row bufs = Ok (k, bufs') -> k = 0) /\
  exists l0, look (ClassLabels (tr_model tr)) 0 l0 /\ forall K' (D' : DataBunch K') a, Accuracy (tr_model tr) D' = Ok a ->
    a = fmul (fofZ 100) (fdiv (fofZ (Z.of_nat (count_occ Z.eq_dec (firstn (length (Data D')) (Labels D')) l0))) (fofZ (Z.of_nat (length (Data D'))))).
Proof. exact c133_lemma. Qed.
Example c133_nonvacuous : feqb (o_lr zeroO) fzero = true /\ o_base zeroO <> fopp fzero.
Proof. exact zeroO_facts. Qed.
Example c133_nonvacuous_run : exists tr a, NewMultiClass env0 draws0 exD zeroO = Ok tr /\ Accuracy (tr_model tr) exD = Ok a /\ fltb a (fofZ 34) = true.
Proof. exact ex_c133. Qed.

(** C134: probabilities are ordered like the scores; the class returned has the largest score unless probabilities coincide. *)
Theorem c134_order : forall E p q out, EnvOk E -> length q = length p -> SoftMax E p q = Ok out -> (forall x, In x out -> fnanb x = false) -> keepsOrder (e_exp E) p ->
  forall i j a b a' b', nth_error p i = Some a -> nth_error p j = Some b -> nth_error out i = Some a' -> nth_error out j = Some b' -> fleb a b = true -> fleb a' b' = true.
Proof. exact c134_order_lemma. Qed.
Theorem c134_class : forall K E rnd (D : DataBunch K) O tr row bufs scores preds bufs' k bufs'', EnvOk E -> NewMultiClass E rnd D O = Ok tr ->
  rawScores (tr_model tr) row = Ok scores -> PredictMC (tr_model tr) row bufs = Ok (preds, bufs') -> PredictSingleClass (tr_model tr) row bufs = Ok (k, bufs'') ->
  (forall x, In x preds -> fnanb x = false) -> keepsOrder (e_exp E) scores ->
  exists sk pk, look scores k sk /\ look preds k pk /\
    (forall j sj pj, look scores j sj -> look preds j pj -> fltb sk sj = true -> feqb pk pj = true) /\
    (forall j sj, 0 <= j < k -> look scores j sj -> fltb sj sk = true).
Proof. exact c134_lemma. Qed.
(** different scores can get equal probabilities, so that the class with the larger score loses *)
Theorem c134_strict_refuted : exists out a b, SoftMax env0 [fzero; tiny60] (vec [0; 0]) = Ok out /\ fltb fzero tiny60 = true /\ out = [a; b] /\ feqb a b = true.
Proof. exact ref_c134. Qed.
Example c134_nonvacuous : EnvOk env0 /\ exists tr scores preds k, NewMultiClass env0 draws0 exD useO = Ok tr /\ rawScores (tr_model tr) (vec [1]) = Ok scores /\
  PredictMC (tr_model tr) (vec [1]) [] = Ok (preds, []) /\ PredictSingleClass (tr_model tr) (vec [1]) [] = Ok (k, []) /\
  (forall x, In x preds -> fnanb x = false) /\ keepsOrder (e_exp env0) scores.
Proof. exact ex_c134. Qed.

Print Assumptions c129_unused_features.
Print Assumptions c129_tree.
Print Assumptions c129_leaf.
Print Assumptions c129_no_feature.
Print Assumptions c129_converse_refuted.
Print Assumptions c130_ceiling.
Print Assumptions c130_conflict.
Print Assumptions c131_cycles.
Print Assumptions c132_tree.
Print Assumptions c132_model.
Print Assumptions c132_close_values_refuted.
Print Assumptions c133_no_learning.
Print Assumptions c134_order.
Print Assumptions c134_class.
Print Assumptions c134_strict_refuted.
