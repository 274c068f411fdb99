(** Concrete cases for the gradient searches. *)
From Coq Require Import String Reals Lra.
From Verif Require Import Base F64 Env Utils Tree Options Train Spec SpecTrain Examples TrainEx CV SpecCV CVProofs CVEx Grid SpecGrid GridProofs Grad GradConc SpecGrad GradProofs GradConcProofs GradMore GradSearch GradNum GradTot.
From Coq Require Import List.
Open Scope Z_scope.

(** cross-validations of [exCV] with 3 folds: the raised options with one order of the rows, the lowered ones with another *)
Definition permInts (perm : list Z) (p : nat) : Z := nth (p mod 7) perm 0.
Definition gEval (p : param) (up : bool) (o : Options) : res cvRet :=
  MultiClassCrossValidation env0 30 (permInts (if up then [0; 1; 2; 3; 4; 5; 6] else [0; 3; 6; 2; 5; 1; 4])) (fun _ => draws0) 0 exCV 3 (Some o) true.
Lemma gEval_shape : parShape gEval.
Proof. intros p up o r H. eapply MCCV_shape. exact H. Qed.
(** some cross-validation of the options themselves *)
Definition gCur (o : Options) : res cvRet :=
  MultiClassCrossValidation env0 30 (permInts [0; 1; 2; 3; 4; 5; 6]) (fun _ => draws0) 0 exCV 3 (Some o) false.

Definition million : f64 := fofZ 1000000.
Definition gX : Options := MkOpts true 2 2 0 (fdec 3 10) fone fone (fdec 1 100) (fdec 9 10) (fdec 9 10) (fdec 5 10) 1 "exact"%string false (SQErrLoss 0).
Definition gBox (gmax : f64) : GridOptions :=
  MkGO true 0 (MkRange 1 2 1) (MkRange 2 2 1) (MkRange fzero million fone) (MkRange fzero gmax million) (MkRange fzero million fone) (MkRange fzero fone fone)
       (MkRange fzero fone fone) (MkRange fzero million fone) fone (fdec 1 10) false 1 true 1 false.

(** two executions with different results *)
Lemma ex_seq : exists R, GradStep 30 gCur gEval (gBox million) fone (fdec 1 10) true gX = Ok R /\ fltb (o_lambda R) ftwo = true.
Proof.
  destruct (ok_ex (GradStep 30 gCur gEval (gBox million) fone (fdec 1 10) true gX) (fun R => fltb (o_lambda R) ftwo)) as (R & HR & HB); [vm_compute; reflexivity|]. eauto.
Qed.
Lemma ex_late : exists R, foldM (lateBody 30 gEval (gBox million) fone (fdec 1 10) fzero true) gX gradOrder = Ok R /\ fltb ftwo (o_lambda R) = true.
Proof.
  destruct (ok_ex (foldM (lateBody 30 gEval (gBox million) fone (fdec 1 10) fzero true) gX gradOrder) (fun R => fltb ftwo (o_lambda R))) as (R & HR & HB); [vm_compute; reflexivity|]. eauto.
Qed.
Lemma ex_race : exists s1 s2, gsteps (stepActs 30 gEval (gBox million) fone (fdec 1 10) fzero true) (ginit gX) s1 /\ m_main s1 = GDone /\
  gsteps (stepActs 30 gEval (gBox million) fone (fdec 1 10) fzero true) (ginit gX) s2 /\ m_main s2 = GDone /\ fltb (o_lambda (m_O s1)) (o_lambda (m_O s2)) = true.
Proof.
  destruct ex_seq as (R1 & H1 & L1). destruct ex_late as (R2 & H2 & L2).
  destruct (run_exists 30 gEval (gBox million) fone (fdec 1 10) fzero true gCur gX gX R1 eq_refl H1) as (s1 & A1 & A2 & A3).
  destruct (late_exists 30 gEval (gBox million) fone (fdec 1 10) fzero true gX R2 H2) as (s2 & B1 & B2 & B3).
  exists s1, s2. subst R1 R2. repeat (split; [assumption|]). eapply F64Lemmas.fltb_trans; eauto.
Qed.

(** plain options: MinSample is 0 *)
Definition gP : Options := MkOpts false 1 2 0 (fdec 3 10) fone fone (fdec 1 10) (fdec 9 10) (fdec 9 10) fzero 0 "exact"%string false (MSELoss 0).
Lemma escape_inv (f : Options -> res Options) (P : Options -> bool) l :
  match l with ASend0 :: AMut w :: _ => match f w with Ok R => P R | _ => false end | _ => false end = true ->
  exists w tl R, l = ASend0 :: AMut w :: tl /\ f w = Ok R /\ P R = true.
Proof.
  intros H. destruct l as [|[|v|v] [|[|w|w] l]]; try discriminate H. destruct (f w) as [R| |] eqn:E; try discriminate H. exists w, l, R. auto.
Qed.
Notation lateRest := (fun w => foldM (lateBody 30 gEval (gBox (fofZ 10)) fone (fdec 1 10) fzero true) (copyParam PGamma w gP) [PLambda; PSubSample; PLearningRate; PRounds; PColSubSample]).
Lemma ex_escape_acts : exists w tl R, stepActs 30 gEval (gBox (fofZ 10)) fone (fdec 1 10) fzero true PGamma gP = Ok (ASend0 :: AMut w :: tl) /\
  foldM (lateBody 30 gEval (gBox (fofZ 10)) fone (fdec 1 10) fzero true) (copyParam PGamma w gP) [PLambda; PSubSample; PLearningRate; PRounds; PColSubSample] = Ok R /\ fltb (fofZ 10) (o_gamma R) = true.
Proof.
  destruct (ok_ex (stepActs 30 gEval (gBox (fofZ 10)) fone (fdec 1 10) fzero true PGamma gP) (fun l => match l with ASend0 :: AMut w :: _ => match lateRest w with Ok R => fltb (fofZ 10) (o_gamma R) | _ => false end | _ => false end)) as (l & Hl & HB); [vm_compute; reflexivity|].
  apply (escape_inv lateRest (fun R => fltb (fofZ 10) (o_gamma R))) in HB as (w & tl & R & E1 & E2 & E3). exists w, tl, R. split; [rewrite <- E1; exact Hl|split; [exact E2|exact E3]].
Qed.
Lemma ex_escape : exists s, gsteps (stepActs 30 gEval (gBox (fofZ 10)) fone (fdec 1 10) fzero true) (ginit gP) s /\ m_main s = GDone /\ fltb (r_hi (g_gamma (gBox (fofZ 10)))) (o_gamma (m_O s)) = true.
Proof.
  destruct ex_escape_acts as (w & tl & R & Hl & ER & HB).
  destruct (late_read 30 gEval (gBox (fofZ 10)) fone (fdec 1 10) fzero true gP w tl R Hl ER) as (s & S1 & S2 & S3).
  exists s. split; [exact S1|]. split; [exact S2|]. rewrite S3. exact HB.
Qed.
(** the same options, in the order of the sequential model: nothing moves *)
Lemma ex_plain : exists R, GradStep 30 gCur gEval (gBox (fofZ 10)) fone (fdec 1 10) true gP = Ok R.
Proof.
  destruct (ok_ex (GradStep 30 gCur gEval (gBox (fofZ 10)) fone (fdec 1 10) true gP) (fun _ => true)) as (R & HR & _); [vm_compute; reflexivity|]. eauto.
Qed.
(** with central differences these options are sent twice *)
Lemma ex_twice : exists sent, ParamaterGradStep 30 (gEval PGamma) (gBox (fofZ 10)) PGamma fone (fdec 1 10) fzero true gP = Ok sent /\ length sent = 2%nat.
Proof.
  destruct (ok_ex (ParamaterGradStep 30 (gEval PGamma) (gBox (fofZ 10)) PGamma fone (fdec 1 10) fzero true gP) (fun l => Nat.eqb (length l) 2)) as (R & HR & HB); [vm_compute; reflexivity|].
  apply Nat.eqb_eq in HB. eauto.
Qed.
Lemma ex_twice_run : exists s src o l, gsteps (stepActs 30 gEval (gBox (fofZ 10)) fone (fdec 1 10) fzero true) (ginit gP) s /\ m_ws s PGamma = PRun src o l /\ src = gP.
Proof.
  destruct ex_twice as (sent & HP & _). unfold ParamaterGradStep in HP. apply bind_Ok in HP as (l & Hl & _).
  exists (MkG (GRecv gradOrder) gP (setw (fun _ => PStart) PGamma (PRun gP (Clone gP) l))), gP, (Clone gP), l. split; [|split; [apply setw_same|reflexivity]].
  eapply gs_more; [apply gs_refl|]. apply gs_read; [left; reflexivity|reflexivity|exact Hl].
Qed.

(** small boosted options whose six steps send once *)
Definition gS : Options := MkOpts true 1 2 0 (fdec 3 10) fone fone (fdec 1 10) (fdec 6 10) (fdec 6 10) (fdec 5 10) 1 "exact"%string false (SQErrLoss 0).
Lemma ex_once : forallb (fun p => match ParamaterGradStep 30 (gEval p) (gBox million) p fone (fdec 1 10) fzero true gS with Ok l => Nat.eqb (length l) 1 | _ => false end) gradOrder = true.
Proof. vm_compute. reflexivity. Qed.
Lemma ex_total_evals : forallb (fun p => forallb (fun up => match nudge (fdec 1 10) up p (Clone gS) with Ok o => match gEval p up o with Ok _ => true | _ => false end | _ => false end) [true; false]) gradOrder = true.
Proof. vm_compute. reflexivity. Qed.
Lemma ex_evals p up o' : In p gradOrder -> shifted (fdec 1 10) up p (Clone gS) o' -> exists r, gEval p up o' = Ok r.
Proof.
  intros Hp Ho. pose proof ex_total_evals as H. rewrite forallb_forall in H. specialize (H p Hp). rewrite forallb_forall in H. specialize (H up). apply shifted_nudge in Ho; [|exact Hp]. rewrite Ho in H.
  destruct (gEval p up o') as [r| |]; [eauto| |]; exfalso; (assert (false = true) as HX; [apply H; destruct up; cbn; auto|discriminate HX]).
Qed.
Lemma ex_gS_step : exists R, GradStep 30 gCur gEval (gBox million) fone (fdec 1 10) true gS = Ok R.
Proof.
  eapply grad_total; [lia|vm_compute; reflexivity|reflexivity| |exact gEval_shape]. intros curr o E p up o' Hp Ho. injection E as _ <-. exact (ex_evals p up o' Hp Ho).
Qed.
Lemma ex_gS_run : exists R s1 s, GradStep 30 gCur gEval (gBox million) fone (fdec 1 10) true gS = Ok R /\
  gsteps (stepActs 30 gEval (gBox million) fone (fdec 1 10) fzero true) (ginit gS) s1 /\ m_main s1 = GRecv gradOrder /\ (forall p, In p gradOrder -> m_ws s1 p <> PStart) /\
  gsteps (stepActs 30 gEval (gBox million) fone (fdec 1 10) fzero true) s1 s /\ m_main s = GDone /\ sendOnce 30 gEval (gBox million) fone (fdec 1 10) fzero true s.
Proof.
  destruct ex_gS_step as (R & HR).
  destruct (seq_exists (stepActs 30 gEval (gBox million) fone (fdec 1 10) fzero true) gS R (run_seq 30 gEval (gBox million) fone (fdec 1 10) fzero true gS gS gCur eq_refl R HR)) as (s1 & s & H1 & H2 & H3 & H4 & H5 & H6).
  exists R, s1, s. repeat (split; [assumption|]). intros p src o l E sent Hs.
  pose proof (started_src _ gS s1 s H1 H2 H3 H4 p src o l E) as ->. pose proof ex_once as HO. rewrite forallb_forall in HO.
  assert (Hp : In p gradOrder).
  { pose proof (gi_w _ _ s (inv_steps _ gS s (gsteps_trans _ _ _ _ H1 H4)) p) as Hw. rewrite E in Hw. apply Hw. }
  specialize (HO p Hp). cbn beta in HO. rewrite Hs in HO. apply Nat.eqb_eq in HO. exact HO.
Qed.

(** one starting point, one gradient step that moves nothing: the best options are changed afterwards *)
Definition gGrid (xgb : bool) : GridOptions :=
  MkGO xgb 0 (MkRange 1 1 1) (MkRange 2 2 1) (MkRange (fdec 1 10) (fdec 1 10) (fdec 1 10)) (MkRange fone fone fone) (MkRange fone fone fone) (MkRange fone fone fone)
       (MkRange fone fone fone) (MkRange fone fone fone) (fdec 1 10) (fdec 1 10) false 1 false 1 false.
Definition gOr : oracles :=
  MkOr (fun _ => (ints0, fun _ => draws0)) (fun _ => (ints0, fun _ => draws0)) (fun _ _ _ => (ints0, fun _ => draws0)) (fun _ _ => (fdec 5 10, false)).
Definition spoiled (r : ggRet) : bool :=
  negb (gg_err r) && fltb fzero (gg_acc r) && Nat.eqb (length (gg_evals r)) 1 &&
  match gg_opts r with Some t => fltb fone (o_ss t) && forallb (fun e => negb (feqb (o_lr (fst (fst e))) (o_lr t)) && negb (feqb (o_lr (snd (fst e))) (o_lr t))) (gg_evals r) | None => false end.
Lemma spoiled_ok r : spoiled r = true -> gg_err r = false /\ fltb fzero (gg_acc r) = true /\ length (gg_evals r) = 1%nat /\ exists t, gg_opts r = Some t /\ fltb fone (o_ss t) = true /\
  forall o o' a, In (o, o', a) (gg_evals r) -> feqb (o_lr o) (o_lr t) = false /\ feqb (o_lr o') (o_lr t) = false.
Proof.
  unfold spoiled. intros H. apply andb_true_iff in H as [H H4]. apply andb_true_iff in H as [H H3]. apply andb_true_iff in H as [H1 H2]. apply negb_true_iff in H1. apply Nat.eqb_eq in H3.
  split; [exact H1|]. split; [exact H2|]. split; [exact H3|]. destruct (gg_opts r) as [t|]; [|discriminate H4]. exists t. split; [reflexivity|]. apply andb_true_iff in H4 as [H4 H5]. split; [exact H4|].
  intros o o' a Hi. rewrite forallb_forall in H5. specialize (H5 _ Hi). cbn [fst snd] in H5. apply andb_true_iff in H5 as [H5 H6]. apply negb_true_iff in H5, H6. auto.
Qed.
Lemma ex_spoiled : exists r, GradientGrid env0 30 gOr 0 exCV 3 (Some (gGrid false)) = Ok r /\ gg_err r = false /\ fltb fzero (gg_acc r) = true /\ length (gg_evals r) = 1%nat /\
  exists t, gg_opts r = Some t /\ fltb fone (o_ss t) = true /\
  forall o o' a, In (o, o', a) (gg_evals r) -> feqb (o_lr o) (o_lr t) = false /\ feqb (o_lr o') (o_lr t) = false.
Proof.
  destruct (ok_ex (GradientGrid env0 30 gOr 0 exCV 3 (Some (gGrid false))) spoiled) as (r & Hr & HB); [vm_compute; reflexivity|]. exists r. split; [exact Hr|apply spoiled_ok; exact HB].
Qed.
Lemma ex_spoiled_h : exists r, HybridGradientGrid env0 30 gOr 0 exCV 3 (Some (gGrid false)) = Ok r /\ gg_err r = false /\ fltb fzero (gg_acc r) = true /\ length (gg_evals r) = 1%nat /\
  exists t, gg_opts r = Some t /\ fltb fone (o_ss t) = true /\
  forall o o' a, In (o, o', a) (gg_evals r) -> feqb (o_lr o) (o_lr t) = false /\ feqb (o_lr o') (o_lr t) = false.
Proof.
  destruct (ok_ex (HybridGradientGrid env0 30 gOr 0 exCV 3 (Some (gGrid false))) spoiled) as (r & Hr & HB); [vm_compute; reflexivity|]. exists r. split; [exact Hr|apply spoiled_ok; exact HB].
Qed.
Lemma gGrid_axes : rangeF (g_mcw (gGrid false)) [fone] /\ rangeZ (g_maxdepth (gGrid false)) [2] /\ rangeZ (g_rounds (gGrid false)) [1] /\ rangeF (g_lambda (gGrid false)) [fone].
Proof.
  unfold rangeF, rangeZ, gGrid. cbn [g_mcw g_maxdepth g_rounds g_lambda r_lo r_hi r_step].
  repeat split; repeat (first [apply pr_end; vm_compute; reflexivity | apply pr_more; [vm_compute; reflexivity|]]).
Qed.

(** fuzzing valid options *)
Definition gDraw (i : nat) : f64 * bool := (fdec 9 10, match i with 0%nat => true | _ => false end).
Definition gV : Options := MkOpts true 1 2 0 (fdec 3 10) fone fone fone fone fone (fdec 5 10) 1 "exact"%string false (SQErrLoss 0).
Lemma ex_fuzz : Check gV = true /\ (forall i, ffinite (fst (gDraw i)) = true /\ fleb fzero (fst (gDraw i)) = true /\ fltb (fst (gDraw i)) fone = true) /\
  o_rounds (fuzzOptions gDraw None gV) = 0 /\ fltb fone (o_ss (fuzzOptions gDraw None gV)) = true /\ Check (fuzzOptions gDraw None gV) = false.
Proof. split; [vm_compute; reflexivity|]. split; [intros i; repeat split|]. repeat split; vm_compute; reflexivity. Qed.

(** a zero parameter *)
Definition gZ : Options := MkOpts true 1 2 0 (fdec 3 10) fone fone fzero (fdec 6 10) (fdec 6 10) (fdec 5 10) 1 "exact"%string false (SQErrLoss 0).
Lemma ex_zero_eval : exists r, gEval PGamma true (Clone gZ) = Ok r /\ cv_err r = false /\ ffinite (cv_acc r) = true.
Proof.
  destruct (ok_ex (gEval PGamma true (Clone gZ)) (fun r => negb (cv_err r) && ffinite (cv_acc r))) as (r & Hr & HB); [vm_compute; reflexivity|].
  apply andb_true_iff in HB as [H1 H2]. apply negb_true_iff in H1. eauto.
Qed.
Lemma ex_zero_shift o' : shifted (fdec 1 10) true PGamma (Clone gZ) o' -> o' = Clone gZ.
Proof.
  intros H. apply shifted_nudge in H; [|left; reflexivity]. assert (E : nudge (fdec 1 10) true PGamma (Clone gZ) = Ok (Clone gZ)).
  { assert (EG : (if true then fadd else fsub) (o_gamma (Clone gZ)) (fmul (o_gamma (Clone gZ)) (fdec 1 10)) = fzero) by (apply B2SF_inj; vm_compute; reflexivity).
    unfold nudge. rewrite EG. reflexivity. }
  congruence.
Qed.
Lemma gZ_box : inBox (gBox million) gZ.
Proof. apply check_box. vm_compute. reflexivity. Qed.
(** the smallest step *)
Lemma ex_tiny_eval : exists r, gEval PLambda true (set_lambda (fadd fone (fmul fone (fdec 1 10))) (Clone gP)) = Ok r.
Proof.
  destruct (ok_ex (gEval PLambda true (set_lambda (fadd fone (fmul fone (fdec 1 10))) (Clone gP))) (fun _ => true)) as (r & Hr & _); [vm_compute; reflexivity|]. eauto.
Qed.
Lemma ex_tiny_evals o' : shifted (fdec 1 10) true PLambda (Clone gP) o' -> exists r, gEval PLambda true o' = Ok r /\ sentShape r.
Proof.
  intros H. apply shifted_nudge in H; [|right; left; reflexivity]. destruct ex_tiny_eval as (r & Hr). exists r.
  assert (E : nudge (fdec 1 10) true PLambda (Clone gP) = Ok (set_lambda (fadd fone (fmul fone (fdec 1 10))) (Clone gP))) by reflexivity.
  assert (o' = set_lambda (fadd fone (fmul fone (fdec 1 10))) (Clone gP)) as -> by congruence. split; [exact Hr|eapply gEval_shape; exact Hr].
Qed.
Lemma ex_zero : exists r, ffinite (cv_acc r) = true /\ cv_err r = false /\ sentShape r /\ forall o', shifted (fdec 1 10) true PGamma (Clone gZ) o' -> gEval PGamma true o' = Ok r.
Proof.
  destruct ex_zero_eval as (r & Hr & H1 & H2). exists r. split; [exact H2|]. split; [exact H1|]. split; [eapply gEval_shape; exact Hr|]. intros o' Ho. rewrite (ex_zero_shift o' Ho). exact Hr.
Qed.
Lemma tenth_le_1 : (B2R (fdec 1 10) <= 1)%R.
Proof. pose proof B2R_tenth. lra. Qed.
