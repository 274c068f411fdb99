(** Proofs about the parameter steps and GradStep. *)
From Verif Require Import Base F64 Env Utils Tree Options Train Spec CV SpecCV Grid SpecGrid Grad GradConc SpecGrad.
Open Scope Z_scope.

(** *** clones and parameters *)
Lemma Clone_copy o : copyOf o (Clone o). Proof. reflexivity. Qed.
Lemma Clone_Clone o : Clone (Clone o) = Clone o. Proof. reflexivity. Qed.
Lemma paramOf_Clone p o : paramOf p (Clone o) = paramOf p o. Proof. destruct p; reflexivity. Qed.
Lemma sameBut_refl p o : sameBut p o o. Proof. split; auto. Qed.
Lemma opts_ext a b : othersOf a = othersOf b -> (forall q, paramOf q a = paramOf q b) -> a = b.
Proof.
  intros H HP. pose proof (HP PGamma) as P1. pose proof (HP PLambda) as P2. pose proof (HP PSubSample) as P3. pose proof (HP PColSubSample) as P4.
  pose proof (HP PLearningRate) as P5. pose proof (HP PRounds) as P6. destruct a, b. unfold othersOf in H. cbn in *.
  injection H as -> -> -> -> -> -> -> -> ->. injection P1 as ->. injection P2 as ->. injection P3 as ->. injection P4 as ->. injection P5 as ->. injection P6 as ->. reflexivity.
Qed.
Lemma copy_others p a b : othersOf (copyParam p a b) = othersOf b. Proof. destruct p; reflexivity. Qed.
Lemma copy_same p a b : paramOf p (copyParam p a b) = paramOf p a. Proof. destruct p; reflexivity. Qed.
Lemma copy_other p q a b : q <> p -> paramOf q (copyParam p a b) = paramOf q b. Proof. destruct p, q; intros; try congruence; reflexivity. Qed.
Lemma nudge_spec fd up p o o' : nudge fd up p o = Ok o' -> shifted fd up p o o'.
Proof.
  unfold nudge. destruct p; intros H; try discriminate H; injection H as <-; (split; [split; [reflexivity|intros q; destruct q; intros; try congruence; reflexivity]|]); destruct up; reflexivity.
Qed.
Lemma nudge_total fd up p o : p <> POther -> exists o', nudge fd up p o = Ok o'.
Proof. destruct p; intros; try congruence; eexists; reflexivity. Qed.
Lemma move_same co der st p o o' : move co der st p o = Some o' -> sameBut p o' o.
Proof. destruct p; intros H; try discriminate H; injection H as <-; split; try reflexivity; intros q; destruct q; intros; try congruence; reflexivity. Qed.
Lemma move_none co der st p o : move co der st p o = None <-> p = PCurr \/ p = POther.
Proof. destruct p; cbn; intuition congruence. Qed.

Lemma if_false_true (a b : bool) : (if a then false else b) = true <-> negb a = true /\ b = true.
Proof. destruct a, b; cbn; intuition congruence. Qed.
Lemma iffF x r : (fltb x (r_lo r) || fltb (r_hi r) x)%bool = false <-> inF x r.
Proof. unfold inF. apply orb_false_iff. Qed.
Lemma iffZ x r : ((x <? r_lo r) || (r_hi r <? x))%bool = false <-> inZ x r.
Proof. unfold inZ. rewrite orb_false_iff, !Z.ltb_ge. lia. Qed.
Lemma check_box co o : checkAgainstOptions o co = true <-> inBox co o.
Proof.
  unfold checkAgainstOptions, inBox. rewrite <- !iffF, <- !iffZ.
  repeat rewrite if_false_true. rewrite !negb_true_iff, Z.ltb_ge, !orb_false_iff. tauto.
Qed.

(** *** the trials *)
Lemma trial_spec co p der step prev : forall fuel st O O', (O = prev \/ O = Clone prev) -> trialLoop fuel co p der step st O prev = Ok O' ->
  O' = prev \/ O' = Clone prev \/ (inBox co O' /\ (sameBut p O' prev \/ sameBut p O' (Clone prev))).
Proof.
  induction fuel as [|f IH]; intros st O O' HO H; cbn [trialLoop] in H; [discriminate H|]. destruct (fltb (fmul (fdec 1 10) step) st).
  - destruct (move co der st p O) as [O1|] eqn:Em.
    + apply move_same in Em. destruct (checkAgainstOptions O1 co) eqn:Ec.
      * injection H as <-. right. right. apply check_box in Ec. split; auto. destruct HO as [->| ->]; auto.
      * eapply IH; [|exact H]. auto.
    + injection H as <-. tauto.
  - injection H as <-. tauto.
Qed.
Lemma trial_clone co p der step o : forall fuel st O O', (O = Clone o) -> trialLoop fuel co p der step st O (Clone o) = Ok O' ->
  O' = Clone o \/ (inBox co O' /\ sameBut p O' (Clone o)).
Proof. intros fuel st O O' -> H. apply trial_spec in H; auto. rewrite Clone_Clone in H. tauto. Qed.

(** *** the actions of a parameter step *)
Definition tailOk (co : GridOptions) (p : param) (c : Options) (l : list act) : Prop :=
  (p = PCurr /\ l = [ASend0]) \/
  exists pre v, l = pre ++ [ASendV v] /\ (pre = [] \/ exists w, pre = [AMut w] /\ sameBut p w c) /\ (v = c \/ (inBox co v /\ sameBut p v c)).
Lemma rest_spec fuel co p der step o l :
  (if fltb (fmul (fdec 1 10) step) step then
      match move co der step p (Clone o) with
      | None => Ok [ASend0]
      | Some O1 =>
          O' <- trialLoop fuel co p der step step (Clone o) (Clone (Clone o)) ;;
          Ok [AMut O1; ASendV (if checkAgainstOptions O' co then O' else Clone (Clone o))]
      end
    else Ok [ASendV (if checkAgainstOptions (Clone o) co then Clone o else Clone (Clone o))]) = Ok l ->
  p <> POther -> tailOk co p (Clone o) l.
Proof.
  rewrite Clone_Clone. intros H Hp. destruct (fltb _ _).
  - destruct (move co der step p (Clone o)) as [O1|] eqn:Em.
    + apply bind_Ok in H as (O' & HT & H). injection H as <-. apply move_same in Em. apply trial_clone in HT; auto.
      right. exists [AMut O1], (if checkAgainstOptions O' co then O' else Clone o). split; [reflexivity|]. split; [right; eauto|].
      destruct (checkAgainstOptions O' co); auto.
    + injection H as <-. apply move_none in Em. left. split; [tauto|reflexivity].
  - injection H as <-. right. exists [], (Clone o). split; [destruct (checkAgainstOptions (Clone o) co); reflexivity|]. auto.
Qed.

Section Acts.
Context (fuel : nat) (eval : bool -> Options -> res cvRet) (co : GridOptions) (p : param) (step fd curr : f64) (central : bool).
Hypothesis HE : forall up o r, eval up o = Ok r -> sentShape r.
(** the early sends are those of a failed Check and of failed cross-validations *)
Definition earlySends (Op : Options) (n : nat) : Prop :=
  exists pO rp, shifted fd true p (Clone Op) pO /\ eval true pO = Ok rp /\
    if central then exists mO rm, shifted fd false p (Clone Op) mO /\ eval false mO = Ok rm /\ n = (b2n (negb (Check mO)) + b2n (cv_err rp) + b2n (cv_err rm))%nat
    else n = b2n (cv_err rp).
Lemma received_spec up o r e a : eval up o = Ok r -> received r = Ok (e, a) -> e = cv_err r.
Proof.
  intros H H2. apply HE in H. unfold received in H2. rewrite H in H2. destruct (cv_err r); injection H2 as <- _; reflexivity.
Qed.
Lemma acts_spec Op l : gradActs fuel eval co p step fd curr central Op = Ok l ->
  exists n tl, l = repeat ASend0 n ++ tl /\ tailOk co p (Clone Op) tl /\ earlySends Op n \/
  (central = false /\ exists n, l = repeat ASend0 (n + 1) /\ earlySends Op n).
Proof.
  unfold gradActs. intros H. apply bind_Ok in H as (pO & HpO & H). apply bind_Ok in H as (el & Hel & H). apply bind_Ok in H as (rp & Hrp & H).
  apply bind_Ok in H as ([perr pacc] & Hrec & H). pose proof (received_spec _ _ _ _ _ Hrp Hrec) as ->. rewrite Clone_Clone in *.
  assert (Hp : p <> POther) by (intros ->; discriminate HpO). apply nudge_spec in HpO. destruct central eqn:Ec.
  - apply bind_Ok in H as (mO & HmO & H). rewrite HmO in Hel. cbn [bind] in Hel. apply bind_Ok in H as (rm & Hrm & H).
    apply bind_Ok in H as ([merr macc] & Hrec2 & H). pose proof (received_spec _ _ _ _ _ Hrm Hrec2) as ->. apply bind_Ok in H as (tl & Htl & H). injection H as <-.
    apply (rest_spec fuel co p _ step Op) in Htl; [|exact Hp]. apply nudge_spec in HmO. injection Hel as <-.
    exists (b2n (negb (Check mO)) + b2n (cv_err rp) + b2n (cv_err rm))%nat, tl. left. split; [|split; [exact Htl|]].
    + destruct (Check mO), (cv_err rp), (cv_err rm); reflexivity.
    + exists pO, rp. rewrite Ec. split; [exact HpO|]. split; [exact Hrp|]. exists mO, rm. auto.
  - injection Hel as <-. destruct (fltb _ fzero).
    + injection H as <-. exists 0%nat, []. right. split; [reflexivity|]. exists (b2n (cv_err rp)). split; [destruct (cv_err rp); reflexivity|].
      exists pO, rp. rewrite Ec. auto.
    + apply bind_Ok in H as (tl & Htl & H). injection H as <-. apply (rest_spec fuel co p _ step Op) in Htl; [|exact Hp].
      exists (b2n (cv_err rp)), tl. left. split; [destruct (cv_err rp); reflexivity|]. split; [exact Htl|]. exists pO, rp. rewrite Ec. auto.
Qed.
End Acts.

Lemma sends_app c n tl : sends c (repeat ASend0 n ++ tl) = repeat c n ++ sends c tl.
Proof. induction n as [|n IH]; cbn; congruence. Qed.
Lemma sends_tail co p c tl : tailOk co p c tl -> exists v, sends c tl = [v] /\ (v = c \/ (inBox co v /\ sameBut p v c)).
Proof.
  intros [[-> ->]|(pre & v & -> & HP & HV)].
  - exists c. auto.
  - exists v. split; auto. destruct HP as [->|(w & -> & _)]; reflexivity.
Qed.
Section Par.
Context (fuel : nat) (eval : bool -> Options -> res cvRet) (co : GridOptions) (p : param) (step fd curr : f64) (central : bool).
Hypothesis HE : forall up o r, eval up o = Ok r -> sentShape r.
Lemma par_spec Op l : ParamaterGradStep fuel eval co p step fd curr central Op = Ok l -> exists n v, l = repeat (Clone Op) n ++ [v] /\
  (v = Clone Op \/ (inBox co v /\ sameBut p v (Clone Op))) /\ earlySends eval p fd central Op n.
Proof.
  unfold ParamaterGradStep. intros H. apply bind_Ok in H as (al & HA & H). injection H as <-. apply acts_spec in HA as (n & tl & HA); [|exact HE].
  destruct HA as [(-> & HT & HN)|(_ & m & -> & HN)].
  - apply sends_tail in HT as (v & Hv & HV). exists n, v. rewrite sends_app, Hv. auto.
  - exists m, (Clone Op). replace (repeat ASend0 (m + 1)) with (repeat ASend0 m ++ [ASend0]) by (rewrite repeat_app; reflexivity). rewrite sends_app. auto.
Qed.
Lemma c59_lemma Op l v : ParamaterGradStep fuel eval co p step fd curr central Op = Ok l -> In v l ->
  exists c, copyOf Op c /\ o_earlystop c = 0 /\ sameBut p v c /\ (v = c \/ inBox co v).
Proof.
  intros H Hv. apply par_spec in H as (n & w & -> & HW & _). exists (Clone Op). split; [apply Clone_copy|]. split; [reflexivity|].
  apply in_app_iff in Hv as [Hv|[<-|[]]]; [apply repeat_spec in Hv; subst; split; [apply sameBut_refl|auto]|].
  destruct HW as [->|[H1 H2]]; [split; [apply sameBut_refl|auto]|auto].
Qed.
Lemma c60_lemma Op l : ParamaterGradStep fuel eval co p step fd curr central Op = Ok l -> exists c pO rp, copyOf Op c /\
  shifted fd true p c pO /\ eval true pO = Ok rp /\
  if central then exists mO rm, shifted fd false p c mO /\ eval false mO = Ok rm /\
    length l = (1 + b2n (negb (Check mO)) + b2n (cv_err rp) + b2n (cv_err rm))%nat
  else length l = (1 + b2n (cv_err rp))%nat.
Proof.
  intros H. apply par_spec in H as (n & w & -> & _ & (pO & rp & HN)). exists (Clone Op), pO, rp. split; [apply Clone_copy|]. destruct HN as (H1 & H2 & HN).
  split; [exact H1|]. split; [exact H2|]. rewrite app_length, repeat_length. cbn [length]. destruct central; [|lia].
  destruct HN as (mO & rm & H3 & H4 & ->). exists mO, rm. split; auto. split; auto. lia.
Qed.
End Par.
