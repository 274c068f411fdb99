(** Concrete cases for what is printed and logged. *)
From Verif Require Import Base F64 Env Utils Tree Options Train Spec SpecTrain Examples TrainEx Text Readers Print CV SpecCV CVEx Grid SpecGrid GridEx Grad SpecGrad GradEx Verbose SpecVerbose VerboseProofs VerboseCV VerboseGrid VerboseGrad.
From Coq Require Import Ascii String List.
Import ListNotations.
Open Scope list_scope.
Open Scope Z_scope.

Definition loud (O : Options) : Options :=
  MkOpts (o_xgb O) (o_rounds O) (o_maxdepth O) (o_earlystop O) (o_lr O) (o_lambda O) (o_mcw O) (o_gamma O) (o_ss O) (o_css O) (o_base O) (o_minsample O) (o_method O) true (o_loss O).
Definition loudG (o : GridOptions) : GridOptions :=
  MkGO (g_xgb o) (g_earlystop o) (g_rounds o) (g_maxdepth o) (g_lr o) (g_gamma o) (g_lambda o) (g_ss o) (g_css o) (g_mcw o) (g_step o) (g_delta o) true (g_nsteps o)
       (g_central o) (g_ncpus o) (g_writebest o).
(** class 0 stops in round 1; the lines in short *)
Definition kind (l : line) : nat * Z * Z :=
  match l with
  | LTrain r k _ => (0%nat, Z.of_nat r, Z.of_nat k) | LStop k r => (1%nat, Z.of_nat k, Z.of_nat r) | LFewer n r _ => (2%nat, Z.of_nat n, Z.of_nat r)
  | LNoModel n => (3%nat, Z.of_nat n, 0) | LHead r _ => (4%nat, r, 0) | LBestG a o => (5%nat, o_rounds o, 0) | LWeight _ => (6%nat, 0, 0) | LBestC a o => (7%nat, o_rounds o, 0)
  end.
Definition kindEqb (a b : nat * Z * Z) : bool := Nat.eqb (fst (fst a)) (fst (fst b)) && Z.eqb (snd (fst a)) (snd (fst b)) && Z.eqb (snd a) (snd b).
Fixpoint kindsAre (out : list line) (l : list (nat * Z * Z)) : bool :=
  match out, l with [], [] => true | x :: out', y :: l' => kindEqb (kind x) y && kindsAre out' l' | _, _ => false end.
Lemma kindsAre_ok : forall out l, kindsAre out l = true -> map kind out = l.
Proof.
  induction out as [|x out IH]; intros [|y l] H; try discriminate H; [reflexivity|]. cbn [kindsAre] in H. apply andb_true_iff in H as [H1 H2].
  unfold kindEqb in H1. apply andb_true_iff in H1 as [H1 H3]. apply andb_true_iff in H1 as [H1 H4]. apply Nat.eqb_eq in H1. apply Z.eqb_eq in H3, H4.
  cbn [map]. rewrite (IH l H2). f_equal. destruct (kind x) as [[a b] c], y as [[a' b'] c']. simpl in *. congruence.
Qed.

Lemma ex_c157 : let O := loud (mkO false 1 3 1 (fofZ 16)) in o_verbose O = true /\ (exists tr, snd (NewMultiClassV env0 draws0 exD O) = Ok tr) /\
  stopLines (fst (NewMultiClassV env0 draws0 exD O)) = [(0, 1)%nat] /\ length (fst (NewMultiClassV env0 draws0 exD O)) = 9%nat.
Proof.
  cbv zeta. split; [reflexivity|]. split; [|split; vm_compute; reflexivity].
  destruct (ok_ex (snd (NewMultiClassV env0 draws0 exD (loud (mkO false 1 3 1 (fofZ 16))))) (fun _ => true)) as (tr & H & _); [vm_compute; reflexivity|eauto].
Qed.
Lemma ex_texts fv :
  lineText fv (LTrain 3 1 (fdec 1 8)) = (StdOut, tx "round: 3, class: 1 train loss = 0.125"%string ++ [NL]) /\
  lineText fv (LStop 0 12) = (Log, tx "Class 0 stopped early at round 12"%string ++ [NL]) /\
  lineText fv (LNoModel 5) = (Log, tx "The 5-th fold didn't produce a boosting ensemble, will continue with the others"%string ++ [NL]) /\
  fst (lineText fv (LBestG (fdec 995 10) (mkO true 0 3 2 (fdec 3 10)))) = StdOut /\
  firstn 24 (snd (lineText fv (LBestG (fdec 995 10) (mkO true 0 3 2 (fdec 3 10))))) = tx "New Best Accuracy 100%, "%string.
Proof. split; [vm_compute; reflexivity|]. split; [reflexivity|]. split; [reflexivity|]. split; vm_compute; reflexivity. Qed.
(** seven rows, ten folds asked for, no rounds *)
Lemma ex_c158 : validInts (Z.of_nat (length (Data exCV))) ints0 /\ length (Labels exCV) = length (Data exCV) /\
  let m := MultiClassCrossValidationV env0 10 ints0 (fun _ => draws0) 0 exCV 10 (Some (mkO true 0 0 2 (fdec 3 10))) false in
  exists r, snd m = Ok r /\ cv_err r = false /\ fst m = [LFewer 3 7 (tx "The 4-fold crossvalidation requested leaves only 1 sample(s) per fold, when the minimum allowed is 2. Will use 3-fold.N-folds already tried: [10 9 8 7 6 5]"%string);
    LNoModel 3; LNoModel 3; LNoModel 3].
Proof.
  split; [exact ints0_valid|]. split; [reflexivity|]. cbv zeta.
  destruct (ok_ex (snd (MultiClassCrossValidationV env0 10 ints0 (fun _ => draws0) 0 exCV 10 (Some (mkO true 0 0 2 (fdec 3 10))) false)) (fun r => negb (cv_err r))) as (r & H & HB); [vm_compute; reflexivity|].
  exists r. split; [exact H|]. split; [apply negb_true_iff; exact HB|vm_compute; reflexivity].
Qed.
Lemma loud_axes n : axesOf (loudG (exGrid n)) exAxes.
Proof. exact (exAxes_ok n). Qed.
Definition exGridV (n : Z) : wr gridRet := GridV env0 10 (fun _ => ints0) (fun _ _ => draws0) 0 exCV 3 (Some (loudG (exGrid n))).
Lemma ex_gridV n ks : (match snd (exGridV n) with Ok r => negb (gr_err r) && kindsAre (fst (exGridV n)) ks | _ => false end) = true ->
  exists r, snd (exGridV n) = Ok r /\ gr_err r = false /\ map kind (fst (exGridV n)) = ks.
Proof.
  intros H. destruct (ok_ex (snd (exGridV n)) (fun r => negb (gr_err r) && kindsAre (fst (exGridV n)) ks) H) as (r & Hr & HB). exists r. split; [exact Hr|].
  apply andb_true_iff in HB as [H1 H2]. split; [apply negb_true_iff; exact H1|apply kindsAre_ok; exact H2].
Qed.
Lemma ex_c159 : exists r, snd (exGridV 1) = Ok r /\ gr_err r = false /\ map kind (fst (exGridV 1)) = [(4%nat, 1, 0); (5%nat, 1, 0); (4%nat, 2, 0)].
Proof. apply ex_gridV. vm_compute. reflexivity. Qed.
(** with two processors the line about the combination with one round comes below the heading for two rounds *)
Lemma ex_heading : exists r, snd (exGridV 2) = Ok r /\ gr_err r = false /\ map kind (fst (exGridV 2)) = [(4%nat, 1, 0); (4%nat, 2, 0); (5%nat, 1, 0)].
Proof. apply ex_gridV. vm_compute. reflexivity. Qed.

Definition otherLr (out : list line) (r : ggRet) : bool :=
  negb (gg_err r) && match climbBests out, gg_opts r with [(_, o)], Some t => negb (feqb (o_lr o) (o_lr t)) | _, _ => false end.
Lemma otherLr_ok out r : otherLr out r = true -> gg_err r = false /\ exists a o t, climbBests out = [(a, o)] /\ gg_opts r = Some t /\ feqb (o_lr o) (o_lr t) = false.
Proof.
  unfold otherLr. intros H. apply andb_true_iff in H as [H1 H2]. apply negb_true_iff in H1. split; [exact H1|].
  destruct (climbBests out) as [|[a o] [|]]; try discriminate H2. destruct (gg_opts r) as [t|]; [|discriminate H2]. exists a, o, t. split; [reflexivity|]. split; [reflexivity|apply negb_true_iff; exact H2].
Qed.
Lemma ex_c160 : let m := GradientGridV env0 30 gOr 0 exCV 3 (Some (loudG (gGrid false))) in
  exists r, snd m = Ok r /\ gg_err r = false /\ exists a o t, climbBests (fst m) = [(a, o)] /\ gg_opts r = Some t /\ feqb (o_lr o) (o_lr t) = false.
Proof.
  cbv zeta. destruct (ok_ex (snd (GradientGridV env0 30 gOr 0 exCV 3 (Some (loudG (gGrid false))))) (otherLr (fst (GradientGridV env0 30 gOr 0 exCV 3 (Some (loudG (gGrid false))))))) as (r & Hr & HB); [vm_compute; reflexivity|].
  exists r. split; [exact Hr|apply otherLr_ok; exact HB].
Qed.
Lemma ex_c160_h : let m := HybridGradientGridV env0 30 gOr 0 exCV 3 (Some (loudG (gGrid false))) in
  exists r, snd m = Ok r /\ gg_err r = false /\ exists a o t, climbBests (fst m) = [(a, o)] /\ gg_opts r = Some t /\ feqb (o_lr o) (o_lr t) = false.
Proof.
  cbv zeta. destruct (ok_ex (snd (HybridGradientGridV env0 30 gOr 0 exCV 3 (Some (loudG (gGrid false))))) (otherLr (fst (HybridGradientGridV env0 30 gOr 0 exCV 3 (Some (loudG (gGrid false))))))) as (r & Hr & HB); [vm_compute; reflexivity|].
  exists r. split; [exact Hr|apply otherLr_ok; exact HB].
Qed.
