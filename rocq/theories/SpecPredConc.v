(** Specification vocabulary for predictions by several goroutines (C155). *)
From Verif Require Import Base F64 Env Utils Tree Options Train PredConc.
Open Scope Z_scope.

(** what the call returns when it is made alone *)
Definition alone {K} (M : MultiClass) (j : job K) : res answer :=
  match j with
  | JPredict row bufs => ' (p, _) <- PredictMC M row bufs ;; Ok (RProbs p)
  | JClass row bufs => ' (c, _) <- PredictSingleClass M row bufs ;; Ok (RClass c)
  | JAcc D _ => a <- Accuracy M D ;; Ok (RAcc a)
  end.
(** Accuracy is called with a number of classes *)
Definition asksMemory {K} (j : job K) : Prop := match j with JAcc _ (Some c) => 0 < c | _ => False end.
(** two goroutines can both make a step that assigns to [predtmp] *)
Definition racing {K} (M : MultiClass) (s : pstate K) : Prop := exists k k' t t' x x' u u', k <> k' /\ nth_error (ps_threads s) k = Some t /\ nth_error (ps_threads s) k' = Some t' /\
  tstep M t (Some x) u /\ tstep M t' (Some x') u'.
(** a bound on the steps of a call *)
Definition jobSteps {K} (j : job K) : nat := match j with JAcc D _ => length (Data D) + 3 | _ => 1 end.
