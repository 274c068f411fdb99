(** Concrete cases for GradStep with an output channel. *)
From Coq Require Import String.
From Verif Require Import Base F64 Env Utils Tree Options Train Spec SpecTrain Examples TrainEx CV SpecCV CVProofs CVEx Grid SpecGrid GridProofs Grad GradConc SpecGrad GradProofs GradConcProofs GradMore GradEx GradOut GradOutProofs.
From Coq Require Import List.
Open Scope Z_scope.

(** [gS] with an early stop *)
Definition gE : Options := MkOpts true 1 2 5 (fdec 3 10) fone fone (fdec 1 10) (fdec 6 10) (fdec 6 10) (fdec 5 10) 1 "exact"%string false (SQErrLoss 0).
Lemma Clone_gE : Clone gE = gS. Proof. reflexivity. Qed.
Lemma ex_out_run : exists s R, zsteps 30 gCur gEval (gBox million) fone (fdec 1 10) true true (zinit true gE) s /\ z_ret s = Some 1%nat /\ z_sent s = [1%nat] /\
  z_heap s = [gE; R] /\ o_earlystop R = 0 /\ o_earlystop gE = 5.
Proof.
  destruct ex_gS_run as (R & s1 & s & HR & H1 & _ & _ & H2 & HD & _).
  pose proof (gsteps_trans _ _ _ _ H1 H2) as HS.
  pose proof (gsteps_zsteps_out 30 gCur gEval (gBox million) fone (fdec 1 10) true gE fzero gS s eq_refl HS) as HZ.
  exists (MkZ [gE; m_O s] 1 (ZRun fzero GDone (m_ws s) (Some 1%nat)) [1%nat]), (m_O s).
  split; [|repeat (split; [reflexivity|]); split; [|reflexivity]].
  - eapply zs_more; [exact HZ|]. rewrite HD. change [1%nat] with ([] ++ [1%nat]). apply zs_send. reflexivity.
  - apply gsteps_others in HS. unfold othersOf in HS. simpl in HS. congruence.
Qed.
(** three rows are too few for a cross-validation *)
Definition fewRows : DataBunch unit := MkData (mat [[0]; [1]; [2]]) [tt] [7; 5; 7].
Definition fewEval (o : Options) : res cvRet := MultiClassCrossValidation env0 30 (fun p => Z.of_nat (p mod 3)) (fun _ => draws0) 0 fewRows 5 (Some o) false.
Lemma ex_few o : exists r, fewEval o = Ok r /\ cv_err r = true.
Proof. eexists. split; reflexivity. Qed.
Lemma ex_silent co : (exists s, zsteps 30 fewEval gEval co fone (fdec 1 10) false true (zinit true gE) s /\ z_ret s = Some 0%nat) /\
  forall s, zsteps 30 fewEval gEval co fone (fdec 1 10) false true (zinit true gE) s -> z_sent s = [].
Proof.
  split.
  - exists (MkZ (upd_nat [gE; Clone gE] 1 (Clone gE)) 1 (ZErr 0) []). split; [|reflexivity]. eapply zs_more; [apply zs_refl|]. eapply zs_fail; reflexivity.
  - intros s H. eapply silent_lemma; [reflexivity|apply ex_few|exact H].
Qed.
(** the cross-validations leave EarlyStop alone *)
Lemma MCCV_early {K} E fuel ints rndf id (D : DataBunch K) nfold o conc r o' : validInts (Z.of_nat (length (Data D))) ints -> length (Labels D) = length (Data D) ->
  MultiClassCrossValidation E fuel ints rndf id D nfold (Some o) conc = Ok r -> cv_opts r = Some o' -> o_earlystop o' = o_earlystop o.
Proof.
  intros HV HL H HO. pose proof (c54_lemma E fuel ints rndf id D nfold (Some o) conc r HV HL H) as HC. cbv zeta in HC. destruct (cv_err r).
  - destruct HC as (_ & _ & HC & _). congruence.
  - destruct HC as (_ & folds & pairs & outs & _ & _ & _ & _ & _ & HC & _). rewrite HO in HC. destruct HC as [_ HC]. congruence.
Qed.
Lemma sent_copy fuel evc evs co step fd central Ori s : zsteps fuel evc evs co step fd central true (zinit true Ori) s ->
  match z_ret s with
  | None => z_sent s = []
  | Some p => exists c, copyOf Ori c /\
      ((p <> 0%nat /\ z_sent s = [p] /\ (central = true \/ exists r, evc c = Ok r /\ cv_err r = false)) \/
       (p = 0%nat /\ z_sent s = [] /\ central = false /\ exists r, evc c = Ok r /\ cv_err r = true))
  end.
Proof.
  intros H. apply sent_lemma in H. destruct (z_ret s) as [p|]; [|exact H]. exists (Clone Ori). split; [reflexivity|]. destruct H as [(-> & H1 & H2)|H]; [left|right; exact H]. split; [discriminate|]. auto.
Qed.
Lemma copy_runs fuel evc evs co step fd central Ori s p R :
  zsteps fuel evc evs co step fd central true (zinit true Ori) s -> z_ret s = Some p -> p <> 0%nat -> nth_error (z_heap s) p = Some R ->
  exists c s', copyOf Ori c /\ o_earlystop c = 0 /\ zsteps fuel evc evs co step fd central false (zinit false c) s' /\ z_ret s' = Some 0%nat /\ nth_error (z_heap s') 0 = Some R.
Proof. intros H H1 H2 H3. destruct (copy_lemma _ _ _ _ _ _ _ _ _ _ _ H H1 H2 H3) as (s' & HS & HR & HE). exists (Clone Ori), s'. split; [reflexivity|]. split; [reflexivity|auto]. Qed.
Lemma out_progress fuel evc evs co step fd central (out : bool) Ori s : parShape evs -> zsteps fuel evc evs co step fd central out (zinit out Ori) s -> z_ret s = None ->
  (exists s', zstep fuel evc evs co step fd central out s s') \/ (central = false /\ exists c, copyOf Ori c /\ forall r, evc c <> Ok r) \/
  exists o curr p, In p gradOrder /\ nth_error (z_heap s) (z_O s) = Some o /\ forall l, ParamaterGradStep fuel (evs p) co p step fd curr central o <> Ok l.
Proof.
  intros HP H HR. destruct (zprogress _ _ _ _ _ _ _ _ _ _ HP H HR) as [A|[[A B]|A]]; [auto| |auto]. right. left. split; [exact A|]. exists (if out then Clone Ori else Ori). split; [destruct out; reflexivity|exact B].
Qed.
Lemma early_stop {K} E fuelcv ints rndf id (D : DataBunch K) nfold fuel evs co step fd central (out : bool) Ori s p R :
  validInts (Z.of_nat (length (Data D))) ints -> length (Labels D) = length (Data D) ->
  let evc := fun o => MultiClassCrossValidation E fuelcv ints rndf id D nfold (Some o) false in
  zsteps fuel evc evs co step fd central out (zinit out Ori) s -> z_ret s = Some p -> z_sent s = (if out then [p] else []) ->
  (out = false -> central = true \/ exists r, evc Ori = Ok r /\ cv_err r = false) ->
  nth_error (z_heap s) p = Some R -> o_earlystop R = if out then 0 else o_earlystop Ori.
Proof.
  cbv zeta. intros HV HL HS HR HT HF HN. refine (early_lemma _ _ _ _ _ _ _ out Ori s p R _ HS HR _ HN).
  - intros o r o' H HO. exact (MCCV_early E fuelcv ints rndf id D nfold o false r o' HV HL H HO).
  - destruct out; [|exact (HF eq_refl)]. apply sent_lemma in HS. rewrite HR, HT in HS. destruct HS as [HS|(_ & HS & _)]; [tauto|discriminate HS].
Qed.
