(** Grid search: C55-C58, C85, C86. *)
From Verif Require Import Base F64 Env Utils Tree Options Train Spec SpecTrain TrainEx CV SpecCV CVEx Grid SpecGrid GridProofs GridConc GridConcProofs GridEx.
Open Scope Z_scope.

(** C55. [GridWith] is the search with an arbitrary evaluation of a combination; [Grid] evaluates by cross-validation. *)
Theorem c55_grid_points fuel id eval o a r : axesOf o a -> GridWith fuel id eval o = Ok r ->
  exists pts rest, Forall2 (isPoint id o) (combinations a) pts /\ pts = gr_spawned r ++ rest /\ (gr_err r = false -> rest = []) /\
    forall t, In t (gr_spawned r) -> inBounds o t.
Proof. exact (c55_lemma fuel id eval o a r). Qed.
(** a run that ends without error has gone through finitely many values of every hyperparameter *)
Theorem c55_finite fuel id eval o r : nonemptyGrid o -> GridWith fuel id eval o = Ok r -> gr_err r = false -> exists a, axesOf o a.
Proof. exact (GridWith_axes fuel id eval o r). Qed.
(** a finite grid is always searched to its end *)
Theorem c55_terminates id eval o a pts : evalShape eval -> 1 <= g_ncpus o -> axesOf o a -> Forall2 (isPoint id o) (combinations a) pts ->
  (forall k t, In t pts -> exists r, eval k t = Ok r) -> exists fuel r, GridWith fuel id eval o = Ok r.
Proof. exact (c55_total id eval o a pts). Qed.
Example c55_nonvacuous : axesOf (exGrid 1) exAxes /\ exists r, Grid env0 10 (fun _ => ints0) (fun _ _ => draws0) 0 exCV 3 (Some (exGrid 1)) = Ok r /\
  gr_err r = false /\ length (gr_spawned r) = 2%nat /\ fltb fzero (gr_acc r) = true.
Proof. exact (conj (exAxes_ok 1) ex_grid). Qed.
Print Assumptions c55_grid_points.
Print Assumptions c55_finite.
Print Assumptions c55_terminates.

(** C56: N * (n / N) of the n combinations are collected *)
Theorem c56_grid_result {K} E fuel ints rndf id (D : DataBunch K) nfold o r : 1 <= g_ncpus o -> (exists a, axesOf o a) ->
  Grid E fuel ints rndf id D nfold (Some o) = Ok r ->
  gr_accuracies r = [] /\
  let eval := fun k t => MultiClassCrossValidation E fuel (ints k) (rndf k) id D nfold (Some t) true in
  let n := length (gr_spawned r) in let N := Z.to_nat (g_ncpus o) in
  if gr_err r then gr_acc r = fofZ (-1) /\ gr_opts r = None /\ (n mod N = 0)%nat /\ exists k, (k < n)%nat /\ (n <= k + N)%nat /\ outcomeAt eval (gr_spawned r) k None
  else exists outs, length outs = (N * (n / N))%nat /\ (forall k out, nth_error outs k = Some out -> outcomeAt eval (gr_spawned r) k (Some out)) /\
         firstBest outs (gr_acc r) (gr_opts r).
Proof. exact (c56_lemma fuel id _ o r (fun k t r' H => MCCV_shape E fuel (ints k) (rndf k) id D nfold (Some t) r' H)). Qed.
(** the best combination can be missed *)
Theorem c56_last_batch_missed : exists r, Grid env0 10 (fun _ => ints0) (fun _ _ => draws0) 0 exCV 3 (Some (exGrid 3)) = Ok r /\
  gr_err r = false /\ gr_acc r = fzero /\ gr_opts r = None /\
  exists t rr, nth_error (gr_spawned r) 1 = Some t /\ exEval 1 t = Ok rr /\ cv_err rr = false /\ fltb (gr_acc r) (cv_acc rr) = true.
Proof. exact ex_missed. Qed.
Example c56_nonvacuous : (exists a, axesOf (exGrid 1) a) /\ exists r, Grid env0 10 (fun _ => ints0) (fun _ _ => draws0) 0 exCV 3 (Some (exGrid 1)) = Ok r /\
  gr_err r = false /\ length (gr_spawned r) = 2%nat /\ fltb fzero (gr_acc r) = true.
Proof. exact (conj (ex_intro _ exAxes (exAxes_ok 1)) ex_grid). Qed.
Print Assumptions c56_grid_result.
Print Assumptions c56_last_batch_missed.

(** C57: from any state of any interleaving the search can go on until it has returned; executions are bounded; what is
    returned is what the sequential model of [Grid] returns *)
Theorem c57_schedules id eval o a pts : evalShape eval -> 1 <= g_ncpus o -> axesOf o a -> Forall2 (isPoint id o) (combinations a) pts ->
  (forall k t, nth_error pts k = Some t -> exists r, eval k t = Ok r) ->
  forall n s, csteps (Z.to_nat (g_ncpus o)) eval n (cinit pts) s ->
  (n <= 5 * length pts + 1)%nat /\
  ((exists acc opts err, c_main s = MDone acc opts err) \/ exists s', cstep (Z.to_nat (g_ncpus o)) eval s s') /\
  (forall acc opts err fuel r, c_main s = MDone acc opts err -> GridWith fuel id eval o = Ok r ->
     acc = gr_acc r /\ opts = gr_opts r /\ err = gr_err r).
Proof. exact (c57_lemma id eval o a pts). Qed.
Example c57_nonvacuous : axesOf (exGrid 1) exAxes /\ Forall2 (isPoint 0 (exGrid 1)) (combinations exAxes) exPts /\ evalShape exEval /\ (forall k t, nth_error exPts k = Some t -> exists r, exEval k t = Ok r) /\ length exPts = 2%nat.
Proof. exact (conj (exAxes_ok 1) (conj (points_isPoint 0 (exGrid 1) exAxes) (conj exEval_shape (conj exEval_total eq_refl)))). Qed.
Print Assumptions c57_schedules.

(** C58 *)
Theorem c58_needs_processors fuel id eval o :
  (g_ncpus o < 0 -> GridWith fuel id eval o = Panic) /\
  ((1 <= fuel)%nat -> g_ncpus o = 0 -> nonemptyGrid o -> GridWith fuel id eval o = Panic).
Proof. exact (conj (GridWith_negative fuel id eval o) (GridWith_zero fuel id eval o)). Qed.
Example c58_nonvacuous : g_ncpus DefaultGGridOptions = 0 /\ nonemptyGrid (exGrid 0).
Proof. exact (conj eq_refl (exGrid_nonempty 0)). Qed.
(** the default options for gradient boosting leave NCPUs at zero: a search with them panics on all data *)
Theorem c58_default_options : forall K E fuel ints rndf id (D : DataBunch K) nfold, (1 <= fuel)%nat ->
  Grid E fuel ints rndf id D nfold (Some DefaultGGridOptions) = Panic.
Proof. exact c58_default_lemma. Qed.
Print Assumptions c58_needs_processors.
Print Assumptions c58_default_options.

(** C66: options of a grid search are copied completely. *)
Theorem c66_clone_grid : forall o, CloneGrid o = o.
Proof. exact c66_grid_lemma. Qed.
Print Assumptions c66_clone_grid.

(** C85 *)
Theorem c85_zero_step fuel id eval o r : nonemptyGrid o -> stepStuck o -> GridWith fuel id eval o = Ok r -> gr_err r = true.
Proof. exact (c85_lemma fuel id eval o r). Qed.
Example c85_nonvacuous : nonemptyGrid exStuck /\ stepStuck exStuck.
Proof. exact exStuck_ok. Qed.
Print Assumptions c85_zero_step.

(** C86 *)
Theorem c86_goroutine_leak N eval pts n s acc opts err : (1 <= N)%nat -> evalShape eval -> (forall k t, nth_error pts k = Some t -> exists r, eval k t = Ok r) ->
  csteps N eval n (cinit pts) s -> c_main s = MDone acc opts err ->
  if err then unfinished (c_workers s) <> [] else length (unfinished (c_workers s)) = (length pts mod N)%nat.
Proof. exact (fun HN HE HT HS HD => conc_leak N eval pts HN HE HT n s acc opts err HS HD). Qed.
Example c86_nonvacuous : evalShape exEval /\ (forall k t, nth_error exPts k = Some t -> exists r, exEval k t = Ok r) /\ (length exPts mod 3 = 2)%nat.
Proof. exact (conj exEval_shape (conj exEval_total eq_refl)). Qed.
Print Assumptions c86_goroutine_leak.
