(** Property theorems about training, ensemble prediction and options: C28-C40, C66, C67, C81, C82. *)
From Coq Require Import Reals Sorted String.
From Verif Require Import Base F64 F64Lemmas Env EnvLemmas Utils Tree Spec Options Train SpecTrain TrainProofs TrainThms TrainSteps TrainMore TrainEx Examples.
From Coq Require Import List.
Open Scope Z_scope.

(** C28. [tr_state] holds the score and probability matrices at the end of training, [tr_model] is the returned
    ensemble. The first theorem covers every run in which no class was dropped from a round, the second derives that
    from EarlyStop <= 0. *)
Theorem c28_training_scores {K} E rnd (D : DataBunch K) O tr : NewMultiClass E rnd D O = Ok tr ->
  (length (Data D) <= length (Labels D))%nat -> mc_b (tr_model tr) <> [] ->
  (forall ens, In ens (mc_b (tr_model tr)) -> length ens = length (ClassLabels (tr_model tr))) ->
  forall i row bufs, nth_error (Data D) i = Some row ->
    rawScores (tr_model tr) row = Ok (rowView (s_raw (tr_state tr)) i) /\
    PredictMC (tr_model tr) row bufs = Ok (rowView (s_probs (tr_state tr)) i, bufs).
Proof. exact (c28_lemma E rnd D O tr). Qed.
Theorem c28_no_early_stop {K} E rnd (D : DataBunch K) O tr : NewMultiClass E rnd D O = Ok tr ->
  (length (Data D) <= length (Labels D))%nat -> mc_b (tr_model tr) <> [] -> o_earlystop O <= 0 ->
  forall i row bufs, nth_error (Data D) i = Some row ->
    rawScores (tr_model tr) row = Ok (rowView (s_raw (tr_state tr)) i) /\
    PredictMC (tr_model tr) row bufs = Ok (rowView (s_probs (tr_state tr)) i, bufs).
Proof. exact (fun H HL HB HE => c28_lemma E rnd D O tr H HL HB (no_earlystop_full E rnd D O tr H HE)). Qed.
Example c28_nonvacuous : exists tr, NewMultiClass env0 draws0 exD (mkO true 0 3 2 (fdec 3 10)) = Ok tr /\
  (length (Data exD) <= length (Labels exD))%nat /\ mc_b (tr_model tr) <> [] /\ o_earlystop (mkO true 0 3 2 (fdec 3 10)) <= 0.
Proof. exact ex_c28. Qed.
Print Assumptions c28_training_scores.
Print Assumptions c28_no_early_stop.

(** C29. [tr_hist] lists, per stored round, the trees with the class they were trained for. Training scores sum the
    trees of a class, prediction sums the trees at a position. *)
Theorem c29_round_contents {K} E rnd (D : DataBunch K) O0 tr : NewMultiClass E rnd D O0 = Ok tr ->
  let M := tr_model tr in let O := tr_opts tr in let nl := length (ClassLabels M) in let hist := tr_hist tr in
  mc_b M = map (map g_tree) hist /\
  (forall m cl, nth_error hist m = Some cl ->
     StronglySorted lt (map g_class cl) /\
     forall k, In k (map g_class cl) <-> (k < nl)%nat /\ ~ hasStopped O (concat (firstn m hist)) k) /\
  (forall i row k, (length (Data D) <= length (Labels D))%nat -> nth_error (Data D) i = Some row -> (k < nl)%nat ->
     exists v, entry (s_raw (tr_state tr)) i k v /\ accumulated (o_lr O) row (o_base O) (classTrees (concat hist) k) v) /\
  (forall row out, rawScores M row = Ok out -> forall j, (j < length out)%nat ->
     exists y, nth_error out j = Some y /\ accumulated (o_lr O) row (o_base O) (positionTrees (mc_b M) j) y).
Proof. exact (c29_lemma E rnd D O0 tr). Qed.
(** with early stopping the ensemble does not reproduce the training scores *)
Theorem c29_reproduction_refuted : exists E rnd (D : DataBunch unit) O tr row out,
  EnvOk E /\ length (Data D) = length (Labels D) /\ 0 < o_earlystop O /\ NewMultiClass E rnd D O = Ok tr /\
  nth_error (Data D) 0 = Some row /\ rawScores (tr_model tr) row = Ok out /\
  map (map g_class) (tr_hist tr) = [[0; 1; 2]; [0; 1; 2]; [1; 2]]%nat /\
  forall k a b, nth_error out k = Some a -> nth_error (rowView (s_raw (tr_state tr)) 0) k = Some b -> feqb a b = false.
Proof. exact c29_refuted_lemma. Qed.
Print Assumptions c29_round_contents.
Print Assumptions c29_reproduction_refuted.

(** C30 *)
Theorem c30_shape {K} E rnd (D : DataBunch K) O tr : NewMultiClass E rnd D O = Ok tr ->
  let M := tr_model tr in let nl := length (ClassLabels M) in
  (Z.of_nat (length (mc_b M)) <= Z.max 0 (o_rounds O)) /\
  (forall ens, In ens (mc_b M) -> (length ens <= nl)%nat) /\
  (forall b0 rest, mc_b M = b0 :: rest -> length b0 = nl) /\
  firstOccurrences (Labels D) (ClassLabels M) /\ ClassLabels M <> [].
Proof. exact (c30_lemma E rnd D O tr). Qed.
Example c30_nonvacuous : exists tr, NewMultiClass env0 draws0 exD (mkO false 1 3 1 (fofZ 16)) = Ok tr /\
  map (@length tree) (mc_b (tr_model tr)) = [3; 3; 2]%nat /\ ClassLabels (tr_model tr) = [7; 5; 6].
Proof. exact ex_c30. Qed.
Print Assumptions c30_shape.

(** C31 *)
Theorem c31_trained_rounds {K} E rnd (D : DataBunch K) O tr : NewMultiClass E rnd D O = Ok tr ->
  length (mc_b (tr_model tr)) =
  length (filter (fun rd => o_minsample O <=? sampledRows O (length (Data D)) (fst (rnd rd))) (seq 0 (Z.to_nat (o_rounds O)))).
Proof. exact (c31_lemma E rnd D O tr). Qed.
Theorem c31_nothing_trained {K} E rnd (D : DataBunch K) O tr : NewMultiClass E rnd D O = Ok tr ->
  1 <= o_minsample O -> o_xgb O = false \/ fltb (o_ss O) fone = false ->
  mc_b (tr_model tr) = [] /\ Rounds (tr_model tr) None = Ok (-1) /\ forall row bufs, PredictMC (tr_model tr) row bufs = Panic.
Proof. exact (c31_empty_lemma E rnd D O tr). Qed.
(** the regular-boosting defaults with MinSample 1, as Options.Check demands *)
Example c31_nonvacuous : exists tr, NewMultiClass env0 draws0 exD
    (MkOpts false 10 4 0 (fdec 1 10) fzero (fofZ 3) fzero fzero fzero fzero 1 "" false (MSELoss 0)) = Ok tr.
Proof. exact ex_c31. Qed.
Print Assumptions c31_trained_rounds.
Print Assumptions c31_nothing_trained.

(** C32. [L] is the sequence of (round, loss) of class k; that these are the losses of the current ensemble is C81. *)
Theorem c32_early_stop {K} E rnd (D : DataBunch K) O0 tr : NewMultiClass E rnd D O0 = Ok tr ->
  forall k, (k < length (ClassLabels (tr_model tr)))%nat ->
  let O := tr_opts tr in let hist := tr_hist tr in let L := lossesOf (concat hist) k in
  (nth_error (s_stopped (tr_state tr)) k = Some true <-> 0 < o_earlystop O /\ mustStop (o_earlystop O) L (length L)) /\
  (0 < o_earlystop O -> forall n, (n < length L)%nat -> ~ mustStop (o_earlystop O) L n) /\
  (forall m cl, nth_error hist m = Some cl -> ((exists e, In e cl /\ g_class e = k) <-> ~ hasStopped O (concat (firstn m hist)) k)).
Proof. exact (c32_lemma E rnd D O0 tr). Qed.
Example c32_nonvacuous : exists tr, NewMultiClass env0 draws0 exD (mkO false 1 3 1 (fofZ 16)) = Ok tr /\
  s_stopped (tr_state tr) = [true; false; false].
Proof. exact ex_c32. Qed.
Print Assumptions c32_early_stop.

(** C33 *)
Theorem c33_subsample n p draw : 0 <= n ->
  (forall l, SubSample n p draw = Ok l ->
     StronglySorted Z.lt l /\ (forall i, In i l <-> 0 <= i < n /\ fleb (draw (Z.to_nat i)) p = true) /\
     (fleb fone p = true -> (forall i, fleb fzero (draw i) = true /\ fltb (draw i) fone = true) -> l = iota (Z.to_nat n))) /\
  (SubSample n p draw <> Diverge) /\ (fleb fzero p = true -> n < 2 ^ 62 -> fleb p fone = true -> exists l, SubSample n p draw = Ok l).
Proof. exact (c33_lemma n p draw). Qed.
Example c33_nonvacuous : SubSample 4 fhalf (fun i => if Nat.even i then fzero else fdec 3 4) = Ok [0; 2].
Proof. vm_compute. reflexivity. Qed.
Print Assumptions c33_subsample.

(** C34 *)
Theorem c34_update_leaves grad hess t t' : updateLeaves t grad hess = Ok t' -> leavesUpdated grad hess t t'.
Proof. exact (updateLeaves_spec grad hess t t'). Qed.
Example c34_nonvacuous : exists t t', NewTree env0 exX exOg = Ok t /\ updateLeaves t (vec [1; 2; 3; 4]) (vec [1; 1; 1; 1]) = Ok t'.
Proof. exact ex_c34. Qed.
Print Assumptions c34_update_leaves.

(** C35 *)
Theorem c35_rounds_classes_swapped {K} E rnd (D : DataBunch K) O tr : NewMultiClass E rnd D O = Ok tr ->
  let M := tr_model tr in
  Classes M = Z.of_nat (length (mc_b M)) /\
  (mc_b M <> [] -> Rounds M None = Ok (Z.of_nat (length (ClassLabels M)))) /\
  (mc_b M = [] -> Classes M = 0 /\ Rounds M None = Ok (-1)).
Proof. exact (c35_lemma E rnd D O tr). Qed.
Example c35_nonvacuous : exists tr, NewMultiClass env0 draws0 exD (mkO true 0 2 2 fone) = Ok tr /\
  Classes (tr_model tr) = 2 /\ Rounds (tr_model tr) None = Ok 3.
Proof. exact ex_c35. Qed.
Print Assumptions c35_rounds_classes_swapped.

(** C36 *)
Theorem c36_first_maximum M row bufs k bufs' : PredictSingleClass M row bufs = Ok (k, bufs') -> exists preds,
  PredictMC M row bufs = Ok (preds, bufs') /\ 0 <= k < Z.of_nat (length preds) /\
  ((forall x, In x preds -> fnanb x = false) -> firstMax preds k) /\ (forall x, nth_error preds 0 = Some x -> fnanb x = true -> k = 0).
Proof. exact (c36_lemma M row bufs k bufs'). Qed.
Theorem c36_index_in_labels {K} E rnd (D : DataBunch K) O tr : NewMultiClass E rnd D O = Ok tr ->
  forall row bufs k bufs', PredictSingleClass (tr_model tr) row bufs = Ok (k, bufs') ->
    0 <= k < Z.of_nat (length (ClassLabels (tr_model tr))).
Proof. exact (c36_trained E rnd D O tr). Qed.
Example c36_nonvacuous : exists tr, NewMultiClass env0 draws0 exD (mkO true 0 3 2 (fdec 3 10)) = Ok tr /\
  map (fun row => PredictSingleClass (tr_model tr) row []) (Data exD) = [Ok (0, []); Ok (1, []); Ok (2, [])].
Proof. exact ex_c36. Qed.
Print Assumptions c36_first_maximum.
Print Assumptions c36_index_in_labels.

(** C37 *)
Theorem c37_accuracy {K} M (D : DataBunch K) a : Accuracy M D = Ok a -> exists ps,
  Forall2 (predictsLabel M) (Data D) ps /\ (length (Data D) <= length (Labels D))%nat /\
  let right := Z.of_nat (length (filter (fun p => fst p =? snd p) (combine ps (Labels D)))) in
  a = fmul (fofZ 100) (fdiv (fofZ right) (fofZ (Z.of_nat (length (Data D))))) /\
  (Data D = [] -> fnanb a = true) /\
  (Data D <> [] -> Z.of_nat (length (Data D)) < 2 ^ 63 -> fleb fzero a = true /\ fleb a (fofZ 100) = true).
Proof. exact (c37_lemma M D a). Qed.
Example c37_nonvacuous : exists tr a, NewMultiClass env0 draws0 exD (mkO true 0 3 2 (fdec 3 10)) = Ok tr /\
  Accuracy (tr_model tr) exD = Ok a /\ feqb a (fofZ 100) = true.
Proof. exact ex_c37. Qed.
Print Assumptions c37_accuracy.

(** C38: same outcome and untouched buffers *)
Theorem c38_buffers_ignored M row b b' :
  match PredictMC M row b, PredictMC M row b' with
  | Ok (p, c), Ok (p', c') => p = p' /\ c = b /\ c' = b'
  | Panic, Panic => True | Diverge, Diverge => True | _, _ => False end /\
  match PredictSingleClass M row b, PredictSingleClass M row b' with
  | Ok (p, c), Ok (p', c') => p = p' /\ c = b /\ c' = b'
  | Panic, Panic => True | Diverge, Diverge => True | _, _ => False end.
Proof. exact (conj (PredictMC_bufs M row b b') (PredictSingleClass_bufs M row b b')). Qed.
Print Assumptions c38_buffers_ignored.

(** C39 *)
Theorem c39_classes_from_probs P : wfDense P -> (forall x, In x (d_data P) -> fnanb x = false) ->
  exists D, ClassesFromProbs P = Ok D /\ d_r D = d_r P /\ d_c D = 1%nat /\
  forall i, (i < d_r P)%nat -> exists k, entry D i 0 (fofZ k) /\ firstMax (rowView P i) k.
Proof. exact (c39_lemma P). Qed.
Example c39_nonvacuous : wfDense (Dense 2 2 (vec [1; 2; 3; 3])) /\
  match ClassesFromProbs (Dense 2 2 (vec [1; 2; 3; 3])) with Ok D => map ftoZ (d_data D) = [1; 0] | _ => False end.
Proof. split; [repeat split; simpl; lia|vm_compute; reflexivity]. Qed.
Print Assumptions c39_classes_from_probs.

(** C40: the formula is the one of the model at the reals, and the float64 function is the same formula *)
Theorem c40_not_log_odds s v : (0 < v < s)%R -> let e : R := logOddsEntry RN ln s v in
  e = ln (v * (s - v)) /\ (e = ln (v / (s - v)) <-> (s - v = 1)%R).
Proof. exact (c40_real s v). Qed.
Theorem c40_float_entries E P : wfDense P -> exists D, LogOddsFromProbs E P = Ok D /\ d_r D = d_r P /\ d_c D = d_c P /\
  forall i j v, entry P i j v -> (i < d_r P)%nat -> entry D i j (e_log E (fmul v (fsub (e_sum E (rowView P i)) v))).
Proof. exact (c40_float E P). Qed.
Example c40_nonvacuous : (0 < 1 / 4 < 1)%R /\ (1 - 1 / 4 <> 1)%R.
Proof. exact ex_c40. Qed.
Print Assumptions c40_not_log_odds.
Print Assumptions c40_float_entries.

(** C66 *)
Theorem c66_clone_equal o :
  Clone o = MkOpts (o_xgb o) (o_rounds o) (o_maxdepth o) 0 (o_lr o) (o_lambda o) (o_mcw o) (o_gamma o) (o_ss o) (o_css o)
                   (o_base o) (o_minsample o) "exact" (o_verbose o) (o_loss o) /\
  (Equal o (Clone o) = true <-> noNaN o) /\
  (forall O n, Equal o (withEarlyStop O n) = Equal o O /\ Equal (withEarlyStop o n) O = Equal o O) /\
  (Equal o o = true <-> noNaN o /\ o_method o = "exact"%string).
Proof. exact (c66_lemma o). Qed.
Theorem c66_equal_characterised o O : Equal o O = true <->
  o_xgb O = o_xgb o /\ o_rounds O = o_rounds o /\ feqb (o_ss O) (o_ss o) = true /\ feqb (o_css O) (o_css o) = true /\
  feqb (o_lambda O) (o_lambda o) = true /\ feqb (o_mcw O) (o_mcw o) = true /\ feqb (o_gamma O) (o_gamma o) = true /\
  o_maxdepth O = o_maxdepth o /\ feqb (o_lr O) (o_lr o) = true /\ feqb (o_base O) (o_base o) = true /\
  o_method O = "exact"%string /\ l_name (o_loss O) = l_name (o_loss o) /\ o_verbose O = o_verbose o /\ o_minsample O = o_minsample o.
Proof. exact (Equal_iff o O). Qed.
Theorem c66_reflexive_symmetric_refuted : exists o O, noNaN o /\
  Equal o o = false /\ Equal o O = true /\ Equal O o = false.
Proof. exact c66_refuted_lemma. Qed.
Print Assumptions c66_clone_equal.
Print Assumptions c66_equal_characterised.
Print Assumptions c66_reflexive_symmetric_refuted.

(** C67 *)
Theorem c67_check o : Check o = true <->
  0 < o_rounds o /\ 1 <= o_minsample o /\ 2 <= o_maxdepth o /\
  ~ (fleb (o_lr o) fzero = true) /\ ~ (fleb (o_ss o) fzero = true) /\ ~ (fltb fone (o_ss o) = true) /\
  ~ (fleb (o_css o) fzero = true) /\ ~ (fltb fone (o_css o) = true) /\ ~ (fltb (o_lambda o) fzero = true) /\
  ~ (fltb (o_mcw o) fone = true) /\ ~ (fltb (o_gamma o) fzero = true).
Proof. exact (c67_lemma o). Qed.
Theorem c67_default_options id : Check (DefaultXOptions id) = true /\ Check (DefaultGOptions id) = false.
Proof. exact (c67_defaults id). Qed.
Theorem c67_nan_rejected_refuted : exists o, Check o = true /\ fnanb (o_lr o) = true /\ fnanb (o_ss o) = true /\ fnanb (o_lambda o) = true.
Proof. exact (ex_intro _ nanOptions (conj c67_nan (conj eq_refl (conj eq_refl eq_refl)))). Qed.
Print Assumptions c67_check.
Print Assumptions c67_default_options.
Print Assumptions c67_nan_rejected_refuted.

(** C81 *)
Theorem c81_gradient_boosting {K} E rnd (D : DataBunch K) O0 tr : NewMultiClass E rnd D O0 = Ok tr ->
  (length (Data D) <= length (Labels D))%nat ->
  let O := tr_opts tr in let nl := length (ClassLabels (tr_model tr)) in
  forall es1 e es2, concat (tr_hist tr) = es1 ++ e :: es2 -> exists lab pr pr',
    indicator (Labels D) (ClassLabels (tr_model tr)) (g_class e) lab /\
    probsAt E O (Data D) nl es1 (g_class e) pr /\
    fitted E O (Data D) (rnd (g_round e)) lab pr (g_tree e) /\
    probsAt E O (Data D) nl (es1 ++ [e]) (g_class e) pr' /\
    g_loss e = l_loss (o_loss O) lab pr'.
Proof. exact (c81_lemma E rnd D O0 tr). Qed.
Example c81_nonvacuous : exists tr, NewMultiClass env0 draws0 exD (mkO true 0 3 2 (fdec 3 10)) = Ok tr /\
  (length (Data exD) <= length (Labels exD))%nat /\ map g_class (concat (tr_hist tr)) = [0; 1; 2; 0; 1; 2; 0; 1; 2]%nat.
Proof. exact ex_c81. Qed.
Print Assumptions c81_gradient_boosting.

(** C82 *)
Theorem c82_prediction_total {K} E rnd (D : DataBunch K) O tr : NewMultiClass E rnd D O = Ok tr ->
  forall row0 row bufs, (length (Data D) <= length (Labels D))%nat -> mc_b (tr_model tr) <> [] ->
  nth_error (Data D) 0 = Some row0 -> (length row0 <= length row)%nat ->
  exists preds k, PredictMC (tr_model tr) row bufs = Ok (preds, bufs) /\ length preds = length (ClassLabels (tr_model tr)) /\
    PredictSingleClass (tr_model tr) row bufs = Ok (k, bufs) /\ 0 <= k < Z.of_nat (length (ClassLabels (tr_model tr))).
Proof. exact (c82_lemma E rnd D O tr). Qed.
(** a wider row than the training rows *)
Example c82_nonvacuous : exists tr, NewMultiClass env0 draws0 exD (mkO true 0 3 2 (fdec 3 10)) = Ok tr /\
  (length (Data exD) <= length (Labels exD))%nat /\ mc_b (tr_model tr) <> [] /\ nth_error (Data exD) 0 = Some (vec [0]) /\
  exists ps, PredictMC (tr_model tr) (vec [17; 4]) [] = Ok (ps, []) /\ length ps = 3%nat.
Proof. exact ex_c82. Qed.
Print Assumptions c82_prediction_total.
