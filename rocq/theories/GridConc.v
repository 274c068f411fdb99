(** The goroutines of the grid search: cv/cv.go:158-259 and the channel operations of cv/cv.go:15-52. All channels are
    unbuffered, so a send and a receive happen together. *)
From Verif Require Import Base F64 Env Utils Tree Options Train CV Grid.
Open Scope Z_scope.

Section Machine.
Context (ncpus : nat) (eval : nat -> Options -> res cvRet).

(** a worker goroutine (cv/cv.go:207): it uses the channels with index [w_chan], and either has still to cross-validate
    the k-th combination or has the given sends ahead (cv/cv.go:20-24, 46-50) *)
Inductive wprog : Type := WJob (k : nat) (t : Options) | WSend (l : list cvSend).
Record worker : Type := MkW { w_chan : nat; w_prog : wprog }.

(** what the goroutine of the caller does next: go on with the loops (cv/cv.go:183-227; [todo] are the combinations to
    come, [cpus] the variable of that name, [k] the number of workers started), receive in rescueConcValues for channel
    index [i] (cv/cv.go:236-256), or it has returned *)
Inductive stage : Type := StErr | StAcc | StOpt (a : f64).
Inductive mstate : Type :=
| MRun (todo : list Options) (cpus k : nat) (best : f64) (fin : option Options)
| MCollect (i : nat) (st : stage) (todo : list Options) (k : nat) (best : f64) (fin : option Options)
| MDone (acc : f64) (opts : option Options) (err : bool).
Record cstate : Type := MkC { c_main : mstate; c_workers : list worker }.

Definition cinit (pts : list Options) : cstate := MkC (MRun pts 0 0 fzero None) [].

Inductive cstep : cstate -> cstate -> Prop :=
(** cv/cv.go:206-209: start a worker; when [cpus] reaches NCPUs the collection begins *)
| cs_spawn t todo cpus k b f ws : (cpus < ncpus)%nat ->
    cstep (MkC (MRun (t :: todo) cpus k b f) ws)
          (MkC (if Nat.eqb (S cpus) ncpus then MCollect 0 StErr todo (S k) b f else MRun todo (S cpus) (S k) b f) (ws ++ [MkW cpus (WJob k t)]))
(** cv/cv.go:228 *)
| cs_return cpus k b f ws : cstep (MkC (MRun [] cpus k b f) ws) (MkC (MDone b f false) ws)
(** cv/cv.go:17-45 in a worker *)
| cs_work m l1 c k t r l2 : eval k t = Ok r ->
    cstep (MkC m (l1 ++ MkW c (WJob k t) :: l2)) (MkC m (l1 ++ MkW c (WSend (cv_sent r)) :: l2))
(** cv/cv.go:237-240 with 21 or 47 *)
| cs_err i todo k b f l1 e more l2 :
    cstep (MkC (MCollect i StErr todo k b f) (l1 ++ MkW i (WSend (SErr e :: more)) :: l2))
          (MkC (if e then MDone (fofZ (-1)) None true else MCollect i StAcc todo k b f) (l1 ++ MkW i (WSend more) :: l2))
(** cv/cv.go:241-244 with 22 or 48 *)
| cs_acc i todo k b f l1 a more l2 :
    cstep (MkC (MCollect i StAcc todo k b f) (l1 ++ MkW i (WSend (SAcc a :: more)) :: l2))
          (MkC (if fltb a fzero then MDone (fofZ (-1)) None true else MCollect i (StOpt a) todo k b f) (l1 ++ MkW i (WSend more) :: l2))
(** cv/cv.go:245-256 with 23 or 49, then the next index or cv/cv.go:216 *)
| cs_opt i a todo k b f l1 op more l2 :
    let b' := if fltb b a then a else b in let f' := if fltb b a then op else f in
    cstep (MkC (MCollect i (StOpt a) todo k b f) (l1 ++ MkW i (WSend (SOpt op :: more)) :: l2))
          (MkC (if Nat.eqb (S i) ncpus then MRun todo 0 k b' f' else MCollect (S i) StErr todo k b' f') (l1 ++ MkW i (WSend more) :: l2)).

(** executions of [n] steps *)
Inductive csteps : nat -> cstate -> cstate -> Prop :=
| cs_refl s : csteps 0 s s
| cs_more n s s1 s2 : csteps n s s1 -> cstep s1 s2 -> csteps (S n) s s2.
End Machine.

(** goroutines that have not ended *)
Definition unfinished (ws : list worker) : list worker :=
  filter (fun w => match w_prog w with WSend [] => false | _ => true end) ws.
