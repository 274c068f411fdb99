(** What is printed and logged: C157-C160. *)
From Verif Require Import Base F64 Env Utils Tree Options Train Spec SpecTrain Examples TrainEx Text Readers Print CV SpecCV CVEx Grid SpecGrid GridProofs GridEx Grad SpecGrad GradEx Verbose SpecVerbose VerboseProofs VerboseCV VerboseGrid VerboseGrad VerboseEx.
From Coq Require Import String List.
Import ListNotations.
Open Scope list_scope.
Open Scope Z_scope.

(** C157. The trained model does not depend on Verbose or on what is printed. *)
Theorem c157_same {K} E rnd (D : DataBunch K) O : snd (NewMultiClassV E rnd D O) = NewMultiClass E rnd D O.
Proof. exact (snd_NewMultiClassV E rnd D O). Qed.
Theorem c157_quiet {K} E rnd (D : DataBunch K) O : o_verbose O = false -> fst (NewMultiClassV E rnd D O) = [].
Proof. exact (c157_quiet_lemma E rnd D O). Qed.
(** for every tree one line with its round, class and loss, followed at once by the line about the class when it stops for lack of
    progress; the classes that stop so are told once each *)
Theorem c157_training {K} E rnd (D : DataBunch K) O tr : o_verbose O = true -> snd (NewMultiClassV E rnd D O) = Ok tr ->
  let out := fst (NewMultiClassV E rnd D O) in let es := concat (tr_hist tr) in
  (exists saids, Forall2 entrySays es saids /\ out = concat saids) /\ NoDup (map fst (stopLines out)) /\
  (forall k r, In (k, r) (stopLines out) <->
     (k < length (ClassLabels (tr_model tr)))%nat /\ 0 < o_earlystop O /\ exists L l, lossesOf es k = L ++ [(r, l)] /\ fleb l epsilon = false /\
     o_earlystop O <= Z.of_nat (length (L ++ [(r, l)])) /\
     forall j, (length (L ++ [(r, l)]) - Z.to_nat (o_earlystop O) <= j < length (L ++ [(r, l)]))%nat -> stalled (L ++ [(r, l)]) j).
Proof. exact (c157_lemma E rnd D O tr). Qed.
Theorem c157_train_lines es saids : Forall2 entrySays es saids -> trainLines (concat saids) = map (fun e => (g_round e, g_class e, g_loss e)) es.
Proof. exact (trainLines_says es saids). Qed.
Example c157_nonvacuous : let O := loud (mkO false 1 3 1 (fofZ 16)) in o_verbose O = true /\ (exists tr, snd (NewMultiClassV env0 draws0 exD O) = Ok tr) /\
  stopLines (fst (NewMultiClassV env0 draws0 exD O)) = [(0, 1)%nat] /\ length (fst (NewMultiClassV env0 draws0 exD O)) = 9%nat.
Proof. exact ex_c157. Qed.
(** where the lines go, and some texts *)
Theorem c157_streams fv l : fst (lineText fv l) = Log <-> isLogged l.
Proof. exact (streams_lemma fv l). Qed.
Theorem c157_texts fv :
  lineText fv (LTrain 3 1 (fdec 1 8)) = (StdOut, tx "round: 3, class: 1 train loss = 0.125"%string ++ [NL]) /\
  lineText fv (LStop 0 12) = (Log, tx "Class 0 stopped early at round 12"%string ++ [NL]) /\
  lineText fv (LNoModel 5) = (Log, tx "The 5-th fold didn't produce a boosting ensemble, will continue with the others"%string ++ [NL]) /\
  fst (lineText fv (LBestG (fdec 995 10) (mkO true 0 3 2 (fdec 3 10)))) = StdOut /\
  firstn 24 (snd (lineText fv (LBestG (fdec 995 10) (mkO true 0 3 2 (fdec 3 10))))) = tx "New Best Accuracy 100%, "%string.
Proof. exact (ex_texts fv). Qed.
Print Assumptions c157_same.
Print Assumptions c157_quiet.
Print Assumptions c157_training.
Print Assumptions c157_train_lines.
Print Assumptions c157_streams.
Print Assumptions c157_texts.

(** C158 *)
Theorem c158_same {K} E fuel ints rndf id (D : DataBunch K) nfold O conc :
  snd (MultiClassCrossValidationV E fuel ints rndf id D nfold O conc) = MultiClassCrossValidation E fuel ints rndf id D nfold O conc.
Proof. exact (c158_same_lemma E fuel ints rndf id D nfold O conc). Qed.
Theorem c158_says {K} E fuel ints rndf id (D : DataBunch K) nfold O conc r : validInts (Z.of_nat (length (Data D))) ints -> length (Labels D) = length (Data D) ->
  snd (MultiClassCrossValidationV E fuel ints rndf id D nfold O conc) = Ok r ->
  let out := fst (MultiClassCrossValidationV E fuel ints rndf id D nfold O conc) in
  let n := Nat.min (requested nfold) (length (Data D) / 2) in
  if cv_err r then out = []
  else exists folds pairs outs saids, goodFolds (length (Data D)) n folds /\ length pairs = n /\ length outs = n /\ length saids = n /\
    (forall i p o, nth_error pairs i = Some p -> nth_error outs i = Some o -> foldPair D folds i p /\ foldOutcome E (rndf i) id O p o) /\
    cv_acc r = fdiv (fold_left fadd (somes outs) fzero) (fofZ (Z.of_nat n)) /\
    (forall i p o said, nth_error pairs i = Some p -> nth_error outs i = Some o -> nth_error saids i = Some said -> foldSays E n (rndf i) id O p o said) /\
    out = (if Nat.ltb n (requested nfold) then [LFewer n (length (Data D)) (fewerText (S n) (Z.of_nat (length (Data D))) (downTo (requested nfold) (S n)))] else []) ++ concat saids.
Proof. exact (c158_lemma E fuel ints rndf id D nfold O conc r). Qed.
(** every fold without an ensemble is called "the 3-th fold" when there are three *)
Theorem c158_fold_number_refuted : validInts (Z.of_nat (length (Data exCV))) ints0 /\ length (Labels exCV) = length (Data exCV) /\
  let m := MultiClassCrossValidationV env0 10 ints0 (fun _ => draws0) 0 exCV 10 (Some (mkO true 0 0 2 (fdec 3 10))) false in
  exists r, snd m = Ok r /\ cv_err r = false /\ fst m = [LFewer 3 7 (tx "The 4-fold crossvalidation requested leaves only 1 sample(s) per fold, when the minimum allowed is 2. Will use 3-fold.N-folds already tried: [10 9 8 7 6 5]"%string);
    LNoModel 3; LNoModel 3; LNoModel 3].
Proof. exact ex_c158. Qed.
Example c158_nonvacuous : validInts (Z.of_nat (length (Data exCV))) ints0 /\ length (Labels exCV) = length (Data exCV) /\
  let m := MultiClassCrossValidationV env0 10 ints0 (fun _ => draws0) 0 exCV 10 (Some (mkO true 0 0 2 (fdec 3 10))) false in
  exists r, snd m = Ok r /\ cv_err r = false /\ fst m = [LFewer 3 7 (tx "The 4-fold crossvalidation requested leaves only 1 sample(s) per fold, when the minimum allowed is 2. Will use 3-fold.N-folds already tried: [10 9 8 7 6 5]"%string);
    LNoModel 3; LNoModel 3; LNoModel 3].
Proof. exact ex_c158. Qed.
Print Assumptions c158_same.
Print Assumptions c158_says.
Print Assumptions c158_fold_number_refuted.

(** C159 *)
Theorem c159_same {K} E fuel ints rndf id (D : DataBunch K) nfold o : snd (GridV E fuel ints rndf id D nfold o) = Grid E fuel ints rndf id D nfold o.
Proof. exact (snd_GridWithV fuel id _ _ (fun k t r H => MCCV_tells E fuel (ints k) (rndf k) id D nfold t r H)). Qed.
Theorem c159_quiet {K} E fuel ints rndf id (D : DataBunch K) nfold o : g_verbose o = false -> fst (GridV E fuel ints rndf id D nfold (Some o)) = [].
Proof. exact (GridWithV_quiet id _ o fuel). Qed.
Theorem c159_says {K} E fuel ints rndf id (D : DataBunch K) nfold o a r : 1 <= g_ncpus o -> axesOf o a -> g_verbose o = true ->
  snd (GridV E fuel ints rndf id D nfold (Some o)) = Ok r ->
  let eval := fun k t => MultiClassCrossValidation E fuel (ints k) (rndf k) id D nfold (Some t) true in
  let out := fst (GridV E fuel ints rndf id D nfold (Some o)) in let n := length (gr_spawned r) in let N := Z.to_nat (g_ncpus o) in
  (exists rest, list_prod (x_rounds a) (x_mcw a) = heads out ++ rest /\ (gr_err r = false -> rest = [])) /\
  (gr_err r = false -> exists outs, length outs = (N * (n / N))%nat /\
    (forall k out, nth_error outs k = Some out -> outcomeAt eval (gr_spawned r) k (Some out)) /\ firstBest outs (gr_acc r) (gr_opts r) /\
    gridBests out = records fzero outs /\
    match rev (gridBests out) with [] => gr_acc r = fzero /\ gr_opts r = None | last :: _ => last = (gr_acc r, gr_opts r) end).
Proof. exact (fun HN HA HV H => GridWithV_result id _ o fuel a r (fun k t r' H' => MCCV_shape E fuel (ints k) (rndf k) id D nfold (Some t) r' H') HN HA HV H). Qed.
Example c159_nonvacuous : axesOf (loudG (exGrid 1)) exAxes /\ g_verbose (loudG (exGrid 1)) = true /\
  exists r, snd (exGridV 1) = Ok r /\ gr_err r = false /\ map kind (fst (exGridV 1)) = [(4%nat, 1, 0); (5%nat, 1, 0); (4%nat, 2, 0)].
Proof. exact (conj (loud_axes 1) (conj eq_refl ex_c159)). Qed.
(** a new best accuracy can be told below the heading of another combination *)
Theorem c159_heading_refuted : exists r, snd (exGridV 2) = Ok r /\ gr_err r = false /\ map kind (fst (exGridV 2)) = [(4%nat, 1, 0); (4%nat, 2, 0); (5%nat, 1, 0)].
Proof. exact ex_heading. Qed.
Print Assumptions c159_same.
Print Assumptions c159_quiet.
Print Assumptions c159_says.
Print Assumptions c159_heading_refuted.

(** C160, for arbitrary cross-validation, gradient step and fuzzing *)
Theorem c160_same cv gstep fz fuel id o : snd (GradientGridWithV cv gstep fz fuel id o) = GradientGridWith cv gstep fz fuel id o /\
  snd (HybridGradientGridWithV cv gstep fz fuel id o) = HybridGradientGridWith cv gstep fz fuel id o.
Proof. exact (conj (c160_same_lemma cv gstep fz fuel id o) (c160_same_h_lemma cv gstep fz fuel id o)). Qed.
Theorem c160_quiet cv gstep fz fuel id o : g_verbose o = false -> fst (GradientGridWithV cv gstep fz fuel id o) = [] /\ fst (HybridGradientGridWithV cv gstep fz fuel id o) = [].
Proof. exact (c160_quiet_lemma cv gstep fz fuel id o). Qed.
Theorem c160_gradient_says cv gstep fz fuel id o xc r : g_verbose o = true -> rangeF (g_mcw o) xc -> snd (GradientGridWithV cv gstep fz fuel id o) = Ok r ->
  let out := fst (GradientGridWithV cv gstep fz fuel id o) in
  saysBests out r /\ exists rest, xc = weights out ++ rest /\ (gg_err r = false -> rest = []).
Proof. exact (c160_lemma cv gstep fz fuel id o xc r). Qed.
Theorem c160_hybrid_says cv gstep fz fuel id o xr xc r : g_verbose o = true -> rangeZ (g_rounds o) xr -> rangeF (g_mcw o) xc ->
  snd (HybridGradientGridWithV cv gstep fz fuel id o) = Ok r ->
  let out := fst (HybridGradientGridWithV cv gstep fz fuel id o) in
  saysBests out r /\ exists rest, list_prod xr xc = heads out ++ rest /\ (gg_err r = false -> rest = []).
Proof. exact (c160_h_lemma cv gstep fz fuel id o xr xc r). Qed.
Example c160_nonvacuous : g_verbose (loudG (gGrid false)) = true /\ rangeF (g_mcw (loudG (gGrid false))) [fone] /\ rangeZ (g_rounds (loudG (gGrid false))) [1].
Proof. exact (conj eq_refl (conj (proj1 gGrid_axes) (proj1 (proj2 (proj2 gGrid_axes))))). Qed.
(** the options returned are not those printed with the best accuracy *)
Theorem c160_printed_options_refuted :
  (let m := GradientGridV env0 30 gOr 0 exCV 3 (Some (loudG (gGrid false))) in
   exists r, snd m = Ok r /\ gg_err r = false /\ exists a o t, climbBests (fst m) = [(a, o)] /\ gg_opts r = Some t /\ feqb (o_lr o) (o_lr t) = false) /\
  (let m := HybridGradientGridV env0 30 gOr 0 exCV 3 (Some (loudG (gGrid false))) in
   exists r, snd m = Ok r /\ gg_err r = false /\ exists a o t, climbBests (fst m) = [(a, o)] /\ gg_opts r = Some t /\ feqb (o_lr o) (o_lr t) = false).
Proof. exact (conj ex_c160 ex_c160_h). Qed.
Print Assumptions c160_same.
Print Assumptions c160_quiet.
Print Assumptions c160_gradient_says.
Print Assumptions c160_hybrid_says.
Print Assumptions c160_printed_options_refuted.
