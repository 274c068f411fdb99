(** Concrete cases for the grid search. *)
From Verif Require Import Base F64 Env Utils Tree Options Train Spec SpecTrain Examples TrainEx CV SpecCV CVProofs CVEx Grid SpecGrid GridProofs GridConc GridConcProofs.
Open Scope Z_scope.

(** two combinations: 1 and 2 rounds *)
Definition exGrid (ncpus : Z) : GridOptions :=
  MkGO false 0 (MkRange 1 2 1) (MkRange 2 2 1) (MkRange fone fone fone) (MkRange fone fone fone) (MkRange fone fone fone) (MkRange fone fone fone)
       (MkRange fone fone fone) (MkRange fone fone fone) fzero fzero false 0 false ncpus false.
Definition exEval (k : nat) (t : Options) : res cvRet := MultiClassCrossValidation env0 10 ints0 (fun _ => draws0) 0 exCV 3 (Some t) true.
Definition exAxes : axes := MkAxes [1; 2] [fone] [2] [fone] [fone] [fone] [fone] [fone].
Lemma exAxes_ok ncpus : axesOf (exGrid ncpus) exAxes.
Proof.
  unfold axesOf, exGrid, exAxes, rangeZ, rangeF. cbn [g_rounds g_mcw g_maxdepth g_css g_lr g_lambda g_gamma g_ss x_rounds x_mcw x_md x_css x_lr x_lam x_gam x_ss r_lo r_hi r_step].
  repeat split; repeat (first [apply pr_end; vm_compute; reflexivity | apply pr_more; [vm_compute; reflexivity|]]).
Qed.
Lemma ex_grid : exists r, Grid env0 10 (fun _ => ints0) (fun _ _ => draws0) 0 exCV 3 (Some (exGrid 1)) = Ok r /\
  gr_err r = false /\ length (gr_spawned r) = 2%nat /\ fltb fzero (gr_acc r) = true.
Proof.
  destruct (ok_ex (Grid env0 10 (fun _ => ints0) (fun _ _ => draws0) 0 exCV 3 (Some (exGrid 1)))
    (fun r => negb (gr_err r) && Nat.eqb (length (gr_spawned r)) 2 && fltb fzero (gr_acc r))) as (r & Hr & HB); [vm_compute; reflexivity|].
  exists r. split; [exact Hr|]. apply andb_true_iff in HB as [HB H3]. apply andb_true_iff in HB as [H1 H2]. apply negb_true_iff in H1. apply Nat.eqb_eq in H2. auto.
Qed.
(** with three processors nothing is collected although both combinations have a positive accuracy *)
Lemma ex_missed : exists r, Grid env0 10 (fun _ => ints0) (fun _ _ => draws0) 0 exCV 3 (Some (exGrid 3)) = Ok r /\
  gr_err r = false /\ gr_acc r = fzero /\ gr_opts r = None /\
  exists t rr, nth_error (gr_spawned r) 1 = Some t /\ exEval 1 t = Ok rr /\ cv_err rr = false /\ fltb (gr_acc r) (cv_acc rr) = true.
Proof.
  destruct (ok_ex (Grid env0 10 (fun _ => ints0) (fun _ _ => draws0) 0 exCV 3 (Some (exGrid 3)))
    (fun r => negb (gr_err r) && match gr_opts r with None => true | _ => false end && match gr_acc r with B754_zero false => true | _ => false end &&
       match nth_error (gr_spawned r) 1 with
       | Some t => match exEval 1 t with Ok rr => negb (cv_err rr) && fltb (gr_acc r) (cv_acc rr) | _ => false end
       | None => false end)) as (r & Hr & HB); [vm_compute; reflexivity|].
  exists r. split; [exact Hr|]. apply andb_true_iff in HB as [HB H4]. apply andb_true_iff in HB as [HB H3]. apply andb_true_iff in HB as [H1 H2].
  split; [apply negb_true_iff; exact H1|]. split; [destruct (gr_acc r) as [[|]|[|]| |[|] m e B]; try discriminate H3; reflexivity|].
  split; [destruct (gr_opts r); [discriminate H2|reflexivity]|].
  destruct (nth_error (gr_spawned r) 1) as [t|]; [|discriminate H4]. destruct (exEval 1 t) as [rr| |] eqn:Ee; try discriminate H4.
  apply andb_true_iff in H4 as [H4 H5]. exists t, rr. split; [reflexivity|]. split; [exact Ee|]. split; [apply negb_true_iff; exact H4|exact H5].
Qed.
Definition exPts : list Options := points 0 (exGrid 1) exAxes.
Lemma exEval_total k t : nth_error exPts k = Some t -> exists r, exEval k t = Ok r.
Proof.
  assert (HB : forallb (fun t => match exEval 0 t with Ok _ => true | _ => false end) exPts = true) by (vm_compute; reflexivity).
  intros H. apply nth_error_In in H. rewrite forallb_forall in HB. specialize (HB t H). change (exEval k t) with (exEval 0 t). destruct (exEval 0 t); try discriminate HB. eauto.
Qed.
Lemma exEval_shape : evalShape exEval.
Proof. intros k t r H. eapply MCCV_shape. exact H. Qed.
Lemma exGrid_nonempty n : nonemptyGrid (exGrid n).
Proof. unfold nonemptyGrid, exGrid. cbn [g_rounds g_mcw g_maxdepth g_css g_lr g_lambda g_gamma g_ss r_lo r_hi]. repeat split; try lia; vm_compute; reflexivity. Qed.
Lemma default_nonempty : nonemptyGrid DefaultGGridOptions.
Proof. unfold nonemptyGrid, DefaultGGridOptions. cbn [g_rounds g_mcw g_maxdepth g_css g_lr g_lambda g_gamma g_ss r_lo r_hi]. repeat split; try lia; vm_compute; reflexivity. Qed.
Lemma c58_default_lemma K E fuel ints rndf id (D : DataBunch K) nfold : (1 <= fuel)%nat -> Grid E fuel ints rndf id D nfold (Some DefaultGGridOptions) = Panic.
Proof. intros Hf. apply GridWith_zero; [exact Hf|reflexivity|apply default_nonempty]. Qed.
Lemma c66_grid_lemma o : CloneGrid o = o.
Proof. destruct o; reflexivity. Qed.
(** a grid with a zero step *)
Definition exStuck : GridOptions :=
  MkGO false 0 (MkRange 1 2 1) (MkRange 2 2 0) (MkRange fone fone fone) (MkRange fone fone fone) (MkRange fone fone fone) (MkRange fone fone fone)
       (MkRange fone fone fone) (MkRange fone fone fone) fzero fzero false 0 false 1 false.
Lemma exStuck_ok : nonemptyGrid exStuck /\ stepStuck exStuck.
Proof.
  split; [unfold nonemptyGrid, exStuck; cbn [g_rounds g_mcw g_maxdepth g_css g_lr g_lambda g_gamma g_ss r_lo r_hi]; repeat split; try lia; vm_compute; reflexivity|].
  unfold stepStuck. right. right. left. cbn. lia.
Qed.
