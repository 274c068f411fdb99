(** Predictions and accuracies of one model computed by several goroutines at a time: multiclass.go:34-108. The trees, the learning
    rate, the labels, the activation and the base score are only read. The one field that is written is [predtmp]
    (multiclass.go:38-39), without synchronisation. *)
From Verif Require Import Base F64 Env Utils Tree Options Train.
Open Scope Z_scope.

Section Machine.
Context {K : Type} (M : MultiClass).
(** a call: PredictSingle or PredictSingleClass on a row with the given buffers, or Accuracy with its optional number of classes *)
Inductive job : Type :=
| JPredict (row : list f64) (bufs : list (list f64))
| JClass (row : list f64) (bufs : list (list f64))
| JAcc (D : DataBunch K) (classes : option Z).
Inductive answer : Type := RProbs (p : list f64) | RClass (c : Z) | RAcc (a : f64).
(** where a goroutine is: before its call; in Accuracy, before the assignment of line 39; in the loop of lines 41-46 with the given
    rows ahead; after its call *)
Inductive thread : Type :=
| TStart (j : job)
| TMake (c : Z) (D : DataBunch K)
| TLoop (rows : list (list f64)) (i ok : Z) (D : DataBunch K)
| TEnd (a : answer).
(** the field [predtmp] and the goroutines *)
Record pstate : Type := MkPS { ps_tmp : list f64; ps_threads : list thread }.
Definition pset (s : pstate) (k : nat) (t : thread) : pstate := MkPS (ps_tmp s) (upd_nat (ps_threads s) k t).

(** [tstep t w t']: a step of a goroutine; [w] is what it assigns to [predtmp]. A read of [predtmp] gives any slice: with a write
    going on, Go does not promise more. *)
Inductive tstep : thread -> option (list f64) -> thread -> Prop :=
| ts_predict row bufs p bufs' : PredictMC M row bufs = Ok (p, bufs') -> tstep (TStart (JPredict row bufs)) None (TEnd (RProbs p))
| ts_class row bufs c bufs' : PredictSingleClass M row bufs = Ok (c, bufs') -> tstep (TStart (JClass row bufs)) None (TEnd (RClass c))
(** line 38 *)
| ts_check D c (seen : list f64) : 0 < c -> Z.of_nat (length seen) < c -> tstep (TStart (JAcc D (Some c))) None (TMake c D)
| ts_skip D classes (seen : list f64) : match classes with Some c => c <= 0 \/ c <= Z.of_nat (length seen) | None => True end ->
    tstep (TStart (JAcc D classes)) None (TLoop (Data D) 0 0 D)
(** line 39 *)
| ts_make c D : tstep (TMake c D) (Some (repeat fzero (Z.to_nat c))) (TLoop (Data D) 0 0 D)
(** lines 42-45 *)
| ts_row v rows i right D (seen : list f64) p b lab act : PredictSingleClass M v [seen] = Ok (p, b) -> idx (mc_labels M) p = Ok lab -> idx (Labels D) i = Ok act ->
    tstep (TLoop (v :: rows) i right D) None (TLoop rows (i + 1) (if lab =? act then right + 1 else right) D)
(** line 47 *)
| ts_end i right D : tstep (TLoop [] i right D) None (TEnd (RAcc (fmul (fofZ 100) (fdiv (fofZ right) (fofZ (Z.of_nat (length (Data D)))))))).
(** a goroutine can panic *)
Inductive tpanic : thread -> Prop :=
| tp_predict row bufs : PredictMC M row bufs = Panic -> tpanic (TStart (JPredict row bufs))
| tp_class row bufs : PredictSingleClass M row bufs = Panic -> tpanic (TStart (JClass row bufs))
| tp_row v rows i right D (seen : list f64) : (p <- PredictSingleClass M v [seen] ;; lab <- idx (mc_labels M) (fst p) ;; idx (Labels D) i) = Panic ->
    tpanic (TLoop (v :: rows) i right D).
(** one goroutine makes a step, or the program ends with a panic ([None]) *)
Inductive pstep : pstate -> option pstate -> Prop :=
| pst_go s k t w t' : nth_error (ps_threads s) k = Some t -> tstep t w t' ->
    pstep s (Some (MkPS (match w with Some x => x | None => ps_tmp s end) (upd_nat (ps_threads s) k t')))
| pst_panic s k t : nth_error (ps_threads s) k = Some t -> tpanic t -> pstep s None.
(** [psteps n]: after [n] steps *)
Inductive psteps : nat -> pstate -> option pstate -> Prop :=
| pss_refl s : psteps 0 s (Some s)
| pss_more n s s1 o : psteps n s (Some s1) -> pstep s1 o -> psteps (S n) s o.
Definition pinit (tmp : list f64) (jobs : list job) : pstate := MkPS tmp (map TStart jobs).
End Machine.
Arguments job : clear implicits. Arguments thread : clear implicits. Arguments pstate : clear implicits.
