(** Property theorems about predictions by several goroutines: C155. *)
From Verif Require Import Base F64 Env EnvLemmas Utils Tree Options Train Spec SpecTrain Examples TrainEx Confu ConfuEx PredConc SpecPredConc PredConcProofs PredConcEx.
From Coq Require Import List.
Open Scope Z_scope.

(** C155 *)
Theorem c155_results {K} M n tmp (jobs : list (job K)) s k a : psteps M n (pinit tmp jobs) (Some s) -> nth_error (ps_threads s) k = Some (TEnd a) ->
  exists j, nth_error jobs k = Some j /\ alone M j = Ok a.
Proof. exact (results M n tmp jobs s k a). Qed.
Theorem c155_panic {K} M n tmp (jobs : list (job K)) : psteps M n (pinit tmp jobs) None -> exists j, In j jobs /\ alone M j = Panic.
Proof. exact (steps_ok M n tmp jobs None). Qed.
Theorem c155_progress {K} M n tmp (jobs : list (job K)) s : (forall j, In j jobs -> alone M j <> Diverge) -> psteps M n (pinit tmp jobs) (Some s) ->
  (forall t, In t (ps_threads s) -> exists a, t = TEnd a) \/ exists o, pstep M s o.
Proof. exact (progress M n tmp jobs s). Qed.
Theorem c155_finite {K} M n tmp (jobs : list (job K)) o : psteps M n (pinit tmp jobs) o -> (n <= S (fold_right (fun j m => jobSteps j + m) O jobs))%nat.
Proof. exact (finite M n tmp jobs o). Qed.
Theorem c155_unshared {K} M n tmp (jobs : list (job K)) s : (forall j, In j jobs -> ~ asksMemory j) -> psteps M n (pinit tmp jobs) (Some s) -> ps_tmp s = tmp.
Proof. exact (fun HN H => proj2 (steps_ok M n tmp jobs (Some s) H) HN). Qed.
(** two calls of Accuracy with a number of classes, on a new model, race *)
Theorem c155_race_refuted {K} (M : MultiClass) (D D' : DataBunch K) c c' : 0 < c -> 0 < c' ->
  exists s, psteps M 2 (pinit [] [JAcc D (Some c); JAcc D' (Some c')]) (Some s) /\ racing M s.
Proof. exact (race M D D' c c'). Qed.
Example c155_nonvacuous : exists tr a1 a2, NewMultiClass env0 draws0 exD (mkO true 0 3 2 (fdec 3 10)) = Ok tr /\
  map (alone (tr_model tr)) exJobs = [Ok (RAcc a1); Ok (RAcc a2); Ok (RClass 1)] /\ feqb a1 a2 = false /\
  exists s, psteps (tr_model tr) 2 (pinit [] exJobs) (Some s) /\ racing (tr_model tr) s /\
  exists n s', psteps (tr_model tr) n s (Some s') /\ ps_threads s' = [TEnd (RAcc a1); TEnd (RAcc a2); TEnd (RClass 1)].
Proof. exact ex_jobs. Qed.
Print Assumptions c155_results.
Print Assumptions c155_panic.
Print Assumptions c155_progress.
Print Assumptions c155_finite.
Print Assumptions c155_unshared.
Print Assumptions c155_race_refuted.
