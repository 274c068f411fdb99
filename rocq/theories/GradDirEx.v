(** A concrete case for C139: the raised options are more accurate, the first trial leaves the box, the second is taken. *)
From Coq Require Import String.
From Verif Require Import Base F64 Env Utils Tree Options Train Spec SpecTrain TrainEx CV SpecCV Grid SpecGrid Grad SpecGrad SpecGradDir.
Open Scope Z_scope.

Definition dEval (up : bool) (o : Options) : res cvRet :=
  let a := fofZ (if up then 80 else 70) in Ok (MkCV a false [SErr false; SAcc a; SOpt (Some o)] (Some o)).
Lemma dEval_shape up o r : dEval up o = Ok r -> sentShape r.
Proof. unfold dEval. cbv zeta. intros H. assert (E : r = MkCV (fofZ (if up then 80 else 70)) false [SErr false; SAcc (fofZ (if up then 80 else 70)); SOpt (Some o)] (Some o)) by congruence. rewrite E. reflexivity. Qed.
Definition dO : Options := MkOpts true 2 2 0 (fdec 3 10) fone fone (fdec 1 100) (fdec 9 10) (fdec 9 10) (fdec 5 10) 1 "exact"%string false (SQErrLoss 0).
Definition dBox : GridOptions :=
  MkGO true 0 (MkRange 1 2 1) (MkRange 2 2 1) (MkRange fzero fone fone) (MkRange fzero fone fone) (MkRange fzero (fdec 145 100) fone) (MkRange fzero fone fone)
       (MkRange fzero fone fone) (MkRange fzero fone fone) fone (fdec 1 10) false 1 true 1 false.
Lemma ex_dir : exists v, ParamaterGradStep 30 dEval dBox PLambda fone (fdec 1 10) fzero true dO = Ok [v] /\
  fltb (fdec 139 100) (o_lambda v) = true /\ fltb (o_lambda v) (fdec 141 100) = true.
Proof.
  destruct (ok_ex (ParamaterGradStep 30 dEval dBox PLambda fone (fdec 1 10) fzero true dO)
    (fun l => match l with [v] => (fltb (fdec 139 100) (o_lambda v) && fltb (o_lambda v) (fdec 141 100))%bool | _ => false end)) as (l & Hl & H); [vm_compute; reflexivity|].
  destruct l as [|v [|]]; try discriminate H. apply andb_true_iff in H as [H1 H2]. exists v. auto.
Qed.
Lemma ex_dir_hyps : (forall up o r, dEval up o = Ok r -> sentShape r) /\ searched PLambda /\ fltb fzero (fmul (fdec 1 10) (valueOf PLambda dO)) = true /\
  fleb fzero (gridStepOf dBox PLambda) = true.
Proof. split; [exact dEval_shape|]. split; [split; discriminate|]. split; vm_compute; reflexivity. Qed.
Lemma ex_dir_whole : gradBegin (dEval true) true dO = Ok (inl (fzero, dO)) /\
  exists R, GradStep 30 (dEval true) (fun _ => dEval) dBox fone (fdec 1 10) true dO = Ok R /\ fltb fone (o_lambda R) = true.
Proof.
  split; [reflexivity|]. destruct (ok_ex (GradStep 30 (dEval true) (fun _ => dEval) dBox fone (fdec 1 10) true dO) (fun R => fltb fone (o_lambda R))) as (R & HR & H); [vm_compute; reflexivity|].
  exists R. auto.
Qed.
