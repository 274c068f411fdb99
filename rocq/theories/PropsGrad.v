(** Gradient searches: C59-C65, C87-C94. *)
From Coq Require Import Reals Lra.
From Verif Require Import Base F64 Env Utils Tree Options Train Spec SpecTrain TrainEx CV SpecCV CVEx Grid SpecGrid GridProofs Grad GradConc SpecGrad GradProofs GradConcProofs GradMore GradSearch GradNum GradTot GradEx.
Open Scope Z_scope.

(** C59. [eval] is the cross-validation, which reports what it returns ([MCCV_shape]) *)
Theorem c59_step_in_box fuel eval co p step fd curr central Op sent v : (forall up o r, eval up o = Ok r -> sentShape r) ->
  ParamaterGradStep fuel eval co p step fd curr central Op = Ok sent -> In v sent ->
  exists c, copyOf Op c /\ o_earlystop c = 0 /\ sameBut p v c /\ (v = c \/ inBox co v).
Proof. exact (fun H => c59_lemma fuel eval co p step fd curr central H Op sent v). Qed.
Example c59_nonvacuous : (forall up o r, gEval PGamma up o = Ok r -> sentShape r) /\
  exists sent, ParamaterGradStep 30 (gEval PGamma) (gBox (fofZ 10)) PGamma fone (fdec 1 10) fzero true gP = Ok sent /\ length sent = 2%nat.
Proof. exact (conj (fun up o r H => gEval_shape PGamma up o r H) ex_twice). Qed.
Print Assumptions c59_step_in_box.

(** C60 *)
Theorem c60_sends fuel eval co p step fd curr central Op sent : (forall up o r, eval up o = Ok r -> sentShape r) ->
  ParamaterGradStep fuel eval co p step fd curr central Op = Ok sent -> exists c pO rp, copyOf Op c /\
  shifted fd true p c pO /\ eval true pO = Ok rp /\
  if central then exists mO rm, shifted fd false p c mO /\ eval false mO = Ok rm /\
    length sent = (1 + b2n (negb (Check mO)) + b2n (cv_err rp) + b2n (cv_err rm))%nat
  else length sent = (1 + b2n (cv_err rp))%nat.
Proof. exact (fun H => c60_lemma fuel eval co p step fd curr central H Op sent). Qed.
(** in GradStep, a parameter step that sends twice never ends, whatever the interleaving *)
Theorem c60_blocked fuel evs co step fd curr central O s p src o l sent :
  gsteps (stepActs fuel evs co step fd curr central) (ginit O) s -> m_ws s p = PRun src o l ->
  ParamaterGradStep fuel (evs p) co p step fd curr central src = Ok sent -> (2 <= length sent)%nat -> ~ ended (m_ws s p).
Proof. exact (blocked fuel evs co step fd curr central O s p src o l sent). Qed.
Example c60_nonvacuous : (exists sent, ParamaterGradStep 30 (gEval PGamma) (gBox (fofZ 10)) PGamma fone (fdec 1 10) fzero true gP = Ok sent /\ length sent = 2%nat) /\
  exists s src o l, gsteps (stepActs 30 gEval (gBox (fofZ 10)) fone (fdec 1 10) fzero true) (ginit gP) s /\ m_ws s PGamma = PRun src o l /\ src = gP.
Proof. exact (conj ex_twice ex_twice_run). Qed.
Print Assumptions c60_sends.
Print Assumptions c60_blocked.

(** C61. The sequential result is that of every interleaving in which each parameter step has read the options before the
    first receive, and of one interleaving at least; another interleaving can end with other options. *)
Theorem c61_read_first fuel evs co step fd curr central evc Ori O R s1 s : parShape evs ->
  gradBegin evc central Ori = Ok (inl (curr, O)) -> GradStep fuel evc evs co step fd central Ori = Ok R ->
  gsteps (stepActs fuel evs co step fd curr central) (ginit O) s1 -> m_main s1 = GRecv gradOrder -> (forall p, In p gradOrder -> m_ws s1 p <> PStart) ->
  gsteps (stepActs fuel evs co step fd curr central) s1 s -> m_main s = GDone -> sendOnce fuel evs co step fd curr central s -> m_O s = R.
Proof. exact (fun H => run_determined fuel evs co step fd curr central H evc Ori O R s1 s). Qed.
Theorem c61_some_run fuel evs co step fd curr central evc Ori O R :
  gradBegin evc central Ori = Ok (inl (curr, O)) -> GradStep fuel evc evs co step fd central Ori = Ok R ->
  exists s, gsteps (stepActs fuel evs co step fd curr central) (ginit O) s /\ m_main s = GDone /\ m_O s = R.
Proof. exact (run_exists fuel evs co step fd curr central evc Ori O R). Qed.
Theorem c61_race_refuted : exists s1 s2, gsteps (stepActs 30 gEval (gBox million) fone (fdec 1 10) fzero true) (ginit gX) s1 /\ m_main s1 = GDone /\
  gsteps (stepActs 30 gEval (gBox million) fone (fdec 1 10) fzero true) (ginit gX) s2 /\ m_main s2 = GDone /\ fltb (o_lambda (m_O s1)) (o_lambda (m_O s2)) = true.
Proof. exact ex_race. Qed.
(** GradStep never blocks: it has returned, or some goroutine can go on, or a parameter step has not begun and will not end *)
Theorem c61_progress fuel evs co step fd curr central O s : parShape evs -> gsteps (stepActs fuel evs co step fd curr central) (ginit O) s ->
  m_main s = GDone \/ (exists s', gstep (stepActs fuel evs co step fd curr central) s s') \/
  exists p, In p gradOrder /\ m_ws s p = PStart /\ forall l, ParamaterGradStep fuel (evs p) co p step fd curr central (m_O s) <> Ok l.
Proof. exact (fun H => run_progress fuel evs co step fd curr central H O s). Qed.
Example c61_nonvacuous : parShape gEval /\ gradBegin gCur true gS = Ok (inl (fzero, gS)) /\
  exists R s1 s, GradStep 30 gCur gEval (gBox million) fone (fdec 1 10) true gS = Ok R /\
  gsteps (stepActs 30 gEval (gBox million) fone (fdec 1 10) fzero true) (ginit gS) s1 /\ m_main s1 = GRecv gradOrder /\ (forall p, In p gradOrder -> m_ws s1 p <> PStart) /\
  gsteps (stepActs 30 gEval (gBox million) fone (fdec 1 10) fzero true) s1 s /\ m_main s = GDone /\ sendOnce 30 gEval (gBox million) fone (fdec 1 10) fzero true s.
Proof. exact (conj gEval_shape (conj eq_refl ex_gS_run)). Qed.
Print Assumptions c61_read_first.
Print Assumptions c61_some_run.
Print Assumptions c61_race_refuted.
Print Assumptions c61_progress.

(** C62. [searchOk]: increasing positive accuracies, the last one is the best, nothing evaluated is above it *)
Theorem c62_gradient {K} E fuel q id (D : DataBunch K) nfold o r : GradientGrid E fuel q id D nfold o = Ok r -> searchOk (searchCV E fuel q id D) r.
Proof. exact (gg_ok E fuel q id D nfold o r). Qed.
Theorem c62_hybrid {K} E fuel q id (D : DataBunch K) nfold o r : HybridGradientGrid E fuel q id D nfold o = Ok r -> searchOk (searchCV E fuel q id D) r.
Proof. exact (hyb_ok E fuel q id D nfold o r). Qed.
Example c62_nonvacuous : (exists r, GradientGrid env0 30 gOr 0 exCV 3 (Some (gGrid false)) = Ok r /\ gg_err r = false /\ fltb fzero (gg_acc r) = true) /\
  exists r, HybridGradientGrid env0 30 gOr 0 exCV 3 (Some (gGrid false)) = Ok r /\ gg_err r = false /\ fltb fzero (gg_acc r) = true.
Proof.
  exact (conj (let '(ex_intro _ r (conj A (conj B (conj C _)))) := ex_spoiled in ex_intro _ r (conj A (conj B C)))
              (let '(ex_intro _ r (conj A (conj B (conj C _)))) := ex_spoiled_h in ex_intro _ r (conj A (conj B C)))).
Qed.
Print Assumptions c62_gradient.
Print Assumptions c62_hybrid.

(** C63. One cross-validation is made; the returned options have another learning rate than those evaluated (before or after
    the evaluation), and a SubSample above 1. *)
Theorem c63_returned_best_refuted : exists r, GradientGrid env0 30 gOr 0 exCV 3 (Some (gGrid false)) = Ok r /\ gg_err r = false /\ fltb fzero (gg_acc r) = true /\ length (gg_evals r) = 1%nat /\
  exists t, gg_opts r = Some t /\ fltb fone (o_ss t) = true /\
  forall o o' a, In (o, o', a) (gg_evals r) -> feqb (o_lr o) (o_lr t) = false /\ feqb (o_lr o') (o_lr t) = false.
Proof. exact ex_spoiled. Qed.
Theorem c63_hybrid_refuted : exists r, HybridGradientGrid env0 30 gOr 0 exCV 3 (Some (gGrid false)) = Ok r /\ gg_err r = false /\ fltb fzero (gg_acc r) = true /\ length (gg_evals r) = 1%nat /\
  exists t, gg_opts r = Some t /\ fltb fone (o_ss t) = true /\
  forall o o' a, In (o, o', a) (gg_evals r) -> feqb (o_lr o) (o_lr t) = false /\ feqb (o_lr o') (o_lr t) = false.
Proof. exact ex_spoiled_h. Qed.
Print Assumptions c63_returned_best_refuted.
Print Assumptions c63_hybrid_refuted.

(** C64: exact arithmetic, float64, and the option record *)
Theorem c64_fuzz_real u neg f q : (0 <= u < 1 -> Rabs (fuzz RN u neg f q - f) <= Rabs (q * f))%R.
Proof. exact (fuzz_real u neg f q). Qed.
Theorem c64_fuzz_float u neg f q : ffinite u = true -> (0 <= B2R u < 1)%R -> ffinite q = true -> (0 <= B2R q <= 1)%R -> ffinite f = true -> fuzzed q f (fuzz F u neg f q).
Proof. exact (fuzz_float u neg f q). Qed.
Theorem c64_fuzz_options d perc o : let q := match perc with Some x => if fltb fzero x then x else fdec 1 10 | None => fdec 1 10 end in
  ffinite q = true -> (B2R q <= 1)%R -> (forall i, ffinite (fst (d i)) = true /\ (0 <= B2R (fst (d i)) < 1)%R) ->
  ffinite (o_ss o) = true -> ffinite (o_css o) = true -> ffinite (o_lambda o) = true -> ffinite (o_gamma o) = true -> ffinite (o_lr o) = true -> ffinite (o_base o) = true ->
  let o' := fuzzOptions d perc o in
  fuzzed q (o_ss o) (o_ss o') /\ fuzzed q (o_css o) (o_css o') /\ fuzzed q (o_lambda o) (o_lambda o') /\ fuzzed q (o_gamma o) (o_gamma o') /\
  fuzzed q (o_lr o) (o_lr o') /\ fuzzed q (o_base o) (o_base o') /\ (exists x, (ffinite (fofZ (o_rounds o)) = true -> fuzzed q (fofZ (o_rounds o)) x) /\ o_rounds o' = ftoZ x) /\
  (o_xgb o', o_maxdepth o', o_earlystop o', o_mcw o', o_minsample o', o_method o', o_verbose o', o_loss o') =
  (o_xgb o, o_maxdepth o, o_earlystop o, o_mcw o, o_minsample o, o_method o, o_verbose o, o_loss o).
Proof. exact (fuzz_options d perc o). Qed.
Example c64_nonvacuous : ffinite (fdec 1 10) = true /\ (B2R (fdec 1 10) <= 1)%R /\ forall i, ffinite (fst (gDraw i)) = true /\ fleb fzero (fst (gDraw i)) = true /\ fltb (fst (gDraw i)) fone = true.
Proof. exact (conj eq_refl (conj tenth_le_1 (proj1 (proj2 ex_fuzz)))). Qed.
Print Assumptions c64_fuzz_real.
Print Assumptions c64_fuzz_float.
Print Assumptions c64_fuzz_options.

(** C65: the derivative used with central differences, in exact arithmetic *)
Theorem c65_central pacc macc h : h <> 0%R -> (centralDer RN pacc macc h = (pacc - macc) / (2 * h) <-> pacc = macc \/ h = 1 \/ h = -1)%R.
Proof. exact (central_real pacc macc h). Qed.
Print Assumptions c65_central.

(** C87: in every interleaving of GradStep, as long as each begun parameter step sends once, the options are those given or
    in the box; and this can fail if a step sends twice *)
Theorem c87_box_all_schedules fuel evs co step fd curr central O s : parShape evs -> gsteps (stepActs fuel evs co step fd curr central) (ginit O) s ->
  sendOnce fuel evs co step fd curr central s -> m_O s = O \/ inBox co (m_O s).
Proof. exact (fun H => boxed_run fuel evs co step fd curr central H O s). Qed.
Theorem c87_escape_refuted : exists s, gsteps (stepActs 30 gEval (gBox (fofZ 10)) fone (fdec 1 10) fzero true) (ginit gP) s /\ m_main s = GDone /\
  fltb (r_hi (g_gamma (gBox (fofZ 10)))) (o_gamma (m_O s)) = true.
Proof. exact ex_escape. Qed.
Example c87_nonvacuous : exists R s1 s, GradStep 30 gCur gEval (gBox million) fone (fdec 1 10) true gS = Ok R /\
  gsteps (stepActs 30 gEval (gBox million) fone (fdec 1 10) fzero true) (ginit gS) s1 /\ m_main s1 = GRecv gradOrder /\ (forall p, In p gradOrder -> m_ws s1 p <> PStart) /\
  gsteps (stepActs 30 gEval (gBox million) fone (fdec 1 10) fzero true) s1 s /\ m_main s = GDone /\ sendOnce 30 gEval (gBox million) fone (fdec 1 10) fzero true s.
Proof. exact ex_gS_run. Qed.
Print Assumptions c87_box_all_schedules.
Print Assumptions c87_escape_refuted.

(** C88: options with MinSample below 1, such as the defaults of plain gradient boosting, are not moved *)
Theorem c88_plain_not_moved fuel evc evs co step fd central Ori R : parShape evs -> o_minsample Ori < 1 -> GradStep fuel evc evs co step fd central Ori = Ok R ->
  (forall r o, evc Ori = Ok r -> cv_opts r = Some o -> o_minsample o < 1) ->
  exists b, gradBegin evc central Ori = Ok b /\ R = match b with inl (_, o) => o | inr o => o end.
Proof. exact (fun H => plain_step fuel evc evs co step fd central H Ori R). Qed.
Theorem c88_plain_all_schedules fuel evs co step fd curr central O s : parShape evs -> o_minsample O < 1 -> gsteps (stepActs fuel evs co step fd curr central) (ginit O) s ->
  sendOnce fuel evs co step fd curr central s -> m_O s = O.
Proof. exact (fun H => plain_run fuel evs co step fd curr central H O s). Qed.
Theorem c88_default_plain id : o_minsample (DefaultGOptions id) < 1.
Proof. exact eq_refl. Qed.
Example c88_nonvacuous : parShape gEval /\ o_minsample gP < 1 /\ exists R, GradStep 30 gCur gEval (gBox (fofZ 10)) fone (fdec 1 10) true gP = Ok R.
Proof. exact (conj gEval_shape (conj eq_refl ex_plain)). Qed.
Print Assumptions c88_plain_not_moved.
Print Assumptions c88_plain_all_schedules.
Print Assumptions c88_default_plain.

(** C89: 5 folds whatever [nfold] *)
Theorem c89_five_folds {K} E fuel q id (D : DataBunch K) nfold o r :
  GradientGrid E fuel q id D nfold o = Ok r \/ HybridGradientGrid E fuel q id D nfold o = Ok r -> forall k t t' a, nth_error (gg_evals r) k = Some (t, t', a) ->
  exists c, MultiClassCrossValidation E fuel (fst (q_cv q k)) (snd (q_cv q k)) id D 5 (Some t) false = Ok c /\ cv_acc c = a.
Proof. exact (fun H => five E fuel q id D r (match H with or_introl A => gg_ok E fuel q id D nfold o r A | or_intror A => hyb_ok E fuel q id D nfold o r A end)). Qed.
Example c89_nonvacuous : exists r, GradientGrid env0 30 gOr 0 exCV 3 (Some (gGrid false)) = Ok r /\ length (gg_evals r) = 1%nat.
Proof. exact (let '(ex_intro _ r (conj A (conj _ (conj _ (conj D _))))) := ex_spoiled in ex_intro _ r (conj A D)). Qed.
Print Assumptions c89_five_folds.

(** C90: GradientGrid does not look at EarlyStop or NCPUs *)
Theorem c90_ignored {K} E fuel q id (D : DataBunch K) nfold o o' : sameSearch o o' -> GradientGrid E fuel q id D nfold (Some o) = GradientGrid E fuel q id D nfold (Some o').
Proof. exact (gg_ignores E fuel q id D nfold o o'). Qed.
Example c90_nonvacuous : exists o o', sameSearch o o' /\ g_earlystop o <> g_earlystop o' /\ g_ncpus o <> g_ncpus o'.
Proof.
  exists (MkGO true 5 (MkRange 1 2 1) (MkRange 2 2 1) (MkRange fone fone fone) (MkRange fone fone fone) (MkRange fone fone fone) (MkRange fone fone fone) (MkRange fone fone fone) (MkRange fone fone fone) fone fone false 1 true 4 false),
    (MkGO true 7 (MkRange 1 2 1) (MkRange 2 2 1) (MkRange fone fone fone) (MkRange fone fone fone) (MkRange fone fone fone) (MkRange fone fone fone) (MkRange fone fone fone) (MkRange fone fone fone) fone fone false 1 true 0 false).
  split; [reflexivity|]. split; discriminate.
Qed.
Print Assumptions c90_ignored.

(** C91: every combination is a starting point and is evaluated *)
Theorem c91_gradient_starts {K} E fuel q id (D : DataBunch K) nfold o r : GradientGrid E fuel q id D nfold (Some o) = Ok r -> gg_err r = false ->
  forall lw ld, rangeF (g_mcw o) lw -> rangeZ (g_maxdepth o) ld -> forall cw md, In cw lw -> In md ld -> evaluated r (isGradStart id o cw md).
Proof. exact (gg_starts E fuel q id D nfold o r). Qed.
Theorem c91_hybrid_starts {K} E fuel q id (D : DataBunch K) nfold o r : HybridGradientGrid E fuel q id D nfold (Some o) = Ok r -> gg_err r = false ->
  forall lr lw ld ll, rangeZ (g_rounds o) lr -> rangeF (g_mcw o) lw -> rangeZ (g_maxdepth o) ld -> rangeF (g_lambda o) ll ->
  forall rounds cw md lam, In rounds lr -> In cw lw -> In md ld -> In lam ll -> evaluated r (isHybridStart id o rounds cw md lam).
Proof. exact (hyb_starts E fuel q id D nfold o r). Qed.
Example c91_nonvacuous : (rangeF (g_mcw (gGrid false)) [fone] /\ rangeZ (g_maxdepth (gGrid false)) [2] /\ rangeZ (g_rounds (gGrid false)) [1] /\ rangeF (g_lambda (gGrid false)) [fone]) /\
  exists r, HybridGradientGrid env0 30 gOr 0 exCV 3 (Some (gGrid false)) = Ok r /\ gg_err r = false.
Proof. exact (conj gGrid_axes (let '(ex_intro _ r (conj A (conj B _))) := ex_spoiled_h in ex_intro _ r (conj A B))). Qed.
Print Assumptions c91_gradient_starts.
Print Assumptions c91_hybrid_starts.

(** C92: GradStep ends if its cross-validations do and a positive step is not below 2^-990; with the smallest positive step
    and options outside the box it does not *)
Theorem c92_terminates fuel co step fd central evc evs Ori b : (12 <= fuel)%nat -> (fltb fzero step = true -> fleb (flit 1 (-990)) step = true) ->
  gradBegin evc central Ori = Ok b ->
  (forall curr o, b = inl (curr, o) -> forall p up o', In p gradOrder -> shifted fd up p (Clone o) o' -> exists r, evs p up o' = Ok r) -> parShape evs ->
  exists R, GradStep fuel evc evs co step fd central Ori = Ok R.
Proof. exact (fun H1 H2 => grad_total fuel co step fd central H1 H2 evc evs Ori b). Qed.
Theorem c92_smallest_step fuel eval co p fd curr Op : In p gradOrder -> o_minsample Op < 1 -> fltb (fmul fd (currentValue Op p)) fzero = false ->
  (forall o', shifted fd true p (Clone Op) o' -> exists r, eval true o' = Ok r /\ sentShape r) ->
  forall l, ParamaterGradStep fuel eval co p tiny fd curr false Op <> Ok l.
Proof. exact (par_stuck fuel eval co p fd curr Op). Qed.
Example c92_nonvacuous : (fltb fzero fone = true -> fleb (flit 1 (-990)) fone = true) /\ gradBegin gCur true gS = Ok (inl (fzero, gS)) /\
  (forall p up o', In p gradOrder -> shifted (fdec 1 10) up p (Clone gS) o' -> exists r, gEval p up o' = Ok r) /\ parShape gEval /\
  o_minsample gP < 1 /\ fltb (fmul (fdec 1 10) (currentValue gP PLambda)) fzero = false /\
  (forall o', shifted (fdec 1 10) true PLambda (Clone gP) o' -> exists r, gEval PLambda true o' = Ok r /\ sentShape r).
Proof. exact (conj (fun _ => eq_refl) (conj eq_refl (conj ex_evals (conj gEval_shape (conj eq_refl (conj eq_refl ex_tiny_evals)))))). Qed.
Print Assumptions c92_terminates.
Print Assumptions c92_smallest_step.

(** C93: forward differences turn a parameter that is 0 into NaN when the accuracy does not change, and NaN passes the bounds check *)
Theorem c93_zero_to_nan fuel eval co p step fd curr Op r : (1 <= fuel)%nat -> fltb (fmul (fdec 1 10) step) step = true -> ffinite fd = true -> ffinite curr = true ->
  paramOf p Op = inl fzero -> inBox co Op ->
  (forall o', shifted fd true p (Clone Op) o' -> eval true o' = Ok r) -> sentShape r -> cv_err r = false -> cv_acc r = curr ->
  exists v, ParamaterGradStep fuel eval co p step fd curr false Op = Ok [v] /\ paramOf p v = inl fnan.
Proof. exact (par_nan fuel eval co p step fd curr Op r). Qed.
Example c93_nonvacuous : inBox (gBox million) gZ /\ paramOf PGamma gZ = inl fzero /\ exists r, ffinite (cv_acc r) = true /\ cv_err r = false /\ sentShape r /\
  forall o', shifted (fdec 1 10) true PGamma (Clone gZ) o' -> gEval PGamma true o' = Ok r.
Proof. exact (conj gZ_box (conj eq_refl ex_zero)). Qed.
Print Assumptions c93_zero_to_nan.

(** C94: fuzzing valid options can make them invalid: no rounds, SubSample above 1 *)
Theorem c94_fuzz_invalid_refuted : Check gV = true /\ (forall i, ffinite (fst (gDraw i)) = true /\ fleb fzero (fst (gDraw i)) = true /\ fltb (fst (gDraw i)) fone = true) /\
  o_rounds (fuzzOptions gDraw None gV) = 0 /\ fltb fone (o_ss (fuzzOptions gDraw None gV)) = true /\ Check (fuzzOptions gDraw None gV) = false.
Proof. exact ex_fuzz. Qed.
Print Assumptions c94_fuzz_invalid_refuted.
