(** Property theorems about the printed descriptions of trees, feature sets, options and matrices: C107-C110. *)
From Coq Require Import Reals Ascii String.
From Flocq Require Import IEEE754.BinarySingleNaN.
From Verif Require Import Base F64 Env EnvLemmas Utils Tree Spec Options Train SpecTrain Examples TrainEx Text Confu Readers Feats SpecFeats Print SpecPrint PrintProofs PrintEx.
From Coq Require Import List.
Open Scope Z_scope.

(** C107. Printing returns exactly for trees whose inner nodes have two children and whose features have names. *)
Theorem c107_returns : forall names t spacing, (exists s, PrintTree names spacing t = Ok s) <-> exists p, shows names t p.
Proof. exact (fun names t => print_shows names t). Qed.
Theorem c107_trained_tree_prints : forall E X o t names spacing, NewTree E X o = Ok t -> (forall row0, look X 0 row0 -> enoughNames names (length row0)) ->
  exists s, PrintTree names spacing t = Ok s.
Proof. exact c107_trained_lemma. Qed.
(** the text determines the shape, the feature names, the samples of the leaves, and the numbers to three decimals *)
Theorem c107_faithful : forall names names' spacing t t' s p p', namesOneLine names -> namesOneLine names' -> oneLineT spacing ->
  PrintTree names spacing t = Ok s -> PrintTree names' spacing t' = Ok s -> shows names t p -> shows names' t' p' -> samePrinted p p'.
Proof. exact c107_faithful_lemma. Qed.
Theorem c107_feature_number : forall f g n, shownName None f n -> shownName None g n -> f = g.
Proof. exact c107_name_lemma. Qed.
Theorem c107_three_decimals : forall x y, same3 x y -> is_finite x = true -> (Rabs (B2R x - B2R y) <= / 1000)%R.
Proof. exact same3_close. Qed.
Theorem c107_lines : forall names, namesOneLine names -> forall t spacing s p, oneLineT spacing -> PrintTree names spacing t = Ok s -> shows names t p ->
  count_occ ascii_dec s NL = printedLines p.
Proof. exact c107_lines_lemma. Qed.
(** reading the printed rules as they stand predicts as PredictSingle does, if no feature is equal to a threshold *)
Theorem c107_reading : forall row t v,
  (forall d l r x, sub (Node d l r) t -> t_leaf d = false -> look row (t_split d) x -> fltb x (t_thr d) = fleb x (t_thr d)) ->
  readsRule row t v <-> PredictSingle t row = Ok v.
Proof. exact c107_reading_lemma. Qed.
Theorem c107_reading_refuted : exists X o row t v w, NewTree env0 X o = Ok t /\ PredictSingle t row = Ok v /\ readsRule row t w /\ ftoZ v = 2 /\ ftoZ w = -2.
Proof. exists exX, shallow, atThr. exact ref_c107. Qed.
Example c107_nonvacuous : exists t, NewTree env0 exX shallow = Ok t /\ PrintTree None [] t = Ok shallowText.
Proof. exact ex_c107. Qed.

(** C108 *)
Theorem c108_text : forall f, ((exists s, StringFeats f = Ok s) <-> (length (fe_feat f) <= length (fe_gains f))%nat) /\
  forall s, StringFeats f = Ok s -> exists ls, s = joinT (featHeader (fe_xgb f) :: ls) [NL] /\ length ls = length (fe_feat f) /\
    forall k v, nth_error (fe_feat f) k = Some v -> exists g, nth_error (fe_gains f) k = Some g /\ nth_error ls k = Some (featLine k v g).
Proof. exact c108_lemma. Qed.
Theorem c108_faithful : forall f f' s, StringFeats f = Ok s -> StringFeats f' = Ok s -> fe_xgb f = fe_xgb f' /\ fe_feat f = fe_feat f' /\
  forall k g g', (k < length (fe_feat f))%nat -> nth_error (fe_gains f) k = Some g -> nth_error (fe_gains f') k = Some g' -> same3 g g'.
Proof. exact c108_faithful_lemma. Qed.
(** the header says "in descending order" whether or not the set has been sorted *)
Theorem c108_order_refuted : exists f s, (f1 <- Feats.Add (NewFeats true) 1 (fdec 5 10) ;; Feats.Add f1 2 (fofZ 3)) = Ok f /\ StringFeats f = Ok s /\
  firstn 39 s = tx "Feature Importance in descending order," /\ ~ bestFirst true f.
Proof. exact ref_c108. Qed.
Example c108_nonvacuous : StringFeats twoFeats =
  Ok (joinT [tx "Feature Importance in descending order, for xgboost:"; tx "1 Feature 1 with score: 0.500"; tx "2 Feature 2 with score: 3.000"] [NL]).
Proof. exact ex_c108. Qed.

(** C109 *)
Theorem c109_faithful : forall O O', StringOptions O = StringOptions O' -> sameOptions3 O O'.
Proof. exact c109_lemma. Qed.
Theorem c109_text : forall O, StringOptions O = (if o_xgb O then tx "xgboost " else tx "gboost ") ++ withUnits
  ([(decZ (o_rounds O), tx "r"); (decZ (o_maxdepth O), tx "md"); (fmt3 (o_lr O), tx "lr")] ++
   (if o_xgb O then [(fmt3 (o_ss O), tx "ss"); (fmt3 (o_base O), tx "bs"); (fmt3 (o_gamma O), tx "gam"); (fmt3 (o_lambda O), tx "lam")] else []) ++
   [(fmt3 (o_mcw O), tx "mcw")] ++ (if o_xgb O then [(fmt3 (o_css O), tx "css")] else [])).
Proof. exact c109_text_lemma. Qed.
Theorem c109_all_fields_refuted : exists O O', StringOptions O = StringOptions O' /\ o_earlystop O <> o_earlystop O'.
Proof. exact ref_c109. Qed.
Example c109_nonvacuous : StringOptions (DefaultXOptions 0) = tx "xgboost 20 r/5 md/0.300 lr/0.800 ss/0.500 bs/0.200 gam/1.500 lam/3.000 mcw/0.800 css".
Proof. exact ex_c109. Qed.

(** C110. [fv] is the text of one number. *)
Theorem c110_matrix : forall fv m, (d_r m = 0%nat -> PrintDenseMatrix fv m = Panic) /\
  (d_r m <> 0%nat -> PrintDenseMatrix fv m = Ok (tx "[" ++ joinT (map (fun i => listText (map fv (rowView m i))) (seq 0 (d_r m))) [NL] ++ tx "]")).
Proof. exact c110_lemma. Qed.
Example c110_nonvacuous : PrintDenseMatrix fmt3 (Dense 2 2 (vec [1; 2; 3; 4])) = Ok (tx "[[1.000 2.000]" ++ [NL] ++ tx "[3.000 4.000]]").
Proof. exact ex_c110. Qed.

Print Assumptions c107_returns.
Print Assumptions c107_trained_tree_prints.
Print Assumptions c107_faithful.
Print Assumptions c107_feature_number.
Print Assumptions c107_three_decimals.
Print Assumptions c107_lines.
Print Assumptions c107_reading.
Print Assumptions c107_reading_refuted.
Print Assumptions c108_text.
Print Assumptions c108_faithful.
Print Assumptions c108_order_refuted.
Print Assumptions c109_faithful.
Print Assumptions c109_text.
Print Assumptions c109_all_fields_refuted.
Print Assumptions c110_matrix.
