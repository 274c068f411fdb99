(** Proofs about GradStep with an output channel. *)
From Verif Require Import Base F64 Env Utils UtilsProofs Tree Options Train Spec CV SpecCV CVProofs Grid SpecGrid GridProofs Grad GradConc SpecGrad GradProofs GradConcProofs GradMore GradOut.
Open Scope Z_scope.

Lemma upd_nat_get {A} (l : list A) : forall p v, (p < length l)%nat -> nth_error (upd_nat l p v) p = Some v.
Proof. induction l as [|x l IH]; intros [|p] v H; simpl in *; try lia; auto. apply IH. lia. Qed.
Lemma upd_nat_other {A} (l : list A) : forall p q v, q <> p -> nth_error (upd_nat l p v) q = nth_error l q.
Proof. induction l as [|x l IH]; intros [|p] [|q] v H; simpl in *; try lia; auto. Qed.
Lemma upd_nat_len {A} (l : list A) : forall p v, length (upd_nat l p v) = length l.
Proof. induction l as [|x l IH]; intros [|p] v; simpl; auto. Qed.
Lemma some_lt {A} (l : list A) p x : nth_error l p = Some x -> (p < length l)%nat.
Proof. intros H. apply nth_error_Some. congruence. Qed.

Section Out.
Context (fuel : nat) (evc : Options -> res cvRet) (evs : param -> bool -> Options -> res cvRet) (co : GridOptions)
        (step fd : f64) (central : bool).
Notation ZS out := (zsteps fuel evc evs co step fd central out).
Notation Z1 out := (zstep fuel evc evs co step fd central out).
Notation SA curr := (stepActs fuel evs co step fd curr central).

(** where an execution can be; [o0] is what O points to at the start *)
Definition zinv (out : bool) (o0 : Options) (p : nat) (s : zst) : Prop :=
  z_O s = p /\ exists o, nth_error (z_heap s) p = Some o /\
  match z_ph s with
  | ZBegin => o = o0 /\ z_sent s = []
  | ZErr q => q = 0%nat /\ z_sent s = [] /\ gradBegin evc central o0 = Ok (inr o)
  | ZRun curr m ws ret => exists o1, gradBegin evc central o0 = Ok (inl (curr, o1)) /\ gsteps (SA curr) (ginit o1) (MkG m o ws) /\
      match ret with None => z_sent s = [] | Some q => q = p /\ m = GDone /\ z_sent s = (if out then [p] else []) end
  end.
Lemma zinv_init (out : bool) Ori : zinv out (if out then Clone Ori else Ori) (if out then 1%nat else 0%nat) (zinit out Ori).
Proof. destruct out; split; try reflexivity; eexists; split; try reflexivity; split; reflexivity. Qed.
Lemma zinv_step out o0 p s s' : zinv out o0 p s -> Z1 out s s' -> zinv out o0 p s'.
Proof.
  intros (HO & o & Ho & HP) HS. destruct HS as [h q o1 o' sent E1 E2|h q o1 curr o' sent E1 E2|h q o1 curr m ws m' o' ws' ret sent E1 E2|h q curr ws sent E1|h q curr ws sent E1];
    simpl in *; subst q; split; simpl; auto.
  - destruct HP as [-> HP]. assert (o1 = o0) by congruence. subst. exists o'. split; [apply upd_nat_get; eapply some_lt; eauto|auto].
  - destruct HP as [-> HP]. assert (o1 = o0) by congruence. subst. exists o'. split; [apply upd_nat_get; eapply some_lt; eauto|].
    exists o'. split; [assumption|]. split; [constructor|reflexivity].
  - assert (o1 = o) by congruence. subst. destruct HP as (o2 & H1 & H2 & H3). exists o'. split; [apply upd_nat_get; eapply some_lt; eauto|].
    exists o2. split; [assumption|]. split; [econstructor; eauto|]. destruct ret as [q|]; [|assumption]. destruct H3 as (-> & -> & H3).
    split; [reflexivity|]. split; [|assumption]. inversion E2; reflexivity.
  - exists o. split; [assumption|]. destruct HP as (o2 & H1 & H2 & H3). exists o2. rewrite H3, E1. auto.
  - exists o. split; [assumption|]. destruct HP as (o2 & H1 & H2 & H3). exists o2. rewrite H3, E1. auto.
Qed.
Lemma zinv_steps out o0 p s s' : zinv out o0 p s -> ZS out s s' -> zinv out o0 p s'.
Proof. intros H HS. induction HS as [|s s1 s2 HS IH H1]; auto. exact (zinv_step _ _ _ _ _ (IH H) H1). Qed.
Lemma zinv_run (out : bool) Ori s : ZS out (zinit out Ori) s -> zinv out (if out then Clone Ori else Ori) (if out then 1%nat else 0%nat) s.
Proof. intros H. eapply zinv_steps; [apply zinv_init|exact H]. Qed.

(** the records GradStep does not work on *)
Lemma other_step out s s' q : Z1 out s s' -> q <> z_O s -> nth_error (z_heap s') q = nth_error (z_heap s) q /\ z_O s' = z_O s.
Proof. intros H Hq. inversion H; subst; simpl in *; split; auto; apply upd_nat_other; assumption. Qed.
Lemma other_steps out s s' q : ZS out s s' -> q <> z_O s -> nth_error (z_heap s') q = nth_error (z_heap s) q /\ z_O s' = z_O s.
Proof. intros H Hq. induction H as [|s s1 s2 H IH H1]; auto. destruct (IH Hq) as [E1 E2]. destruct (other_step _ _ _ q H1) as [E3 E4]; [congruence|]. split; congruence. Qed.
Lemma caller_lemma Ori s : ZS true (zinit true Ori) s -> nth_error (z_heap s) 0 = Some Ori.
Proof. intros H. destruct (other_steps _ _ _ 0%nat H) as [E _]; [discriminate|]. rewrite E. reflexivity. Qed.

Lemma begin_err o0 o : gradBegin evc central o0 = Ok (inr o) -> central = false /\ exists r, evc o0 = Ok r /\ cv_err r = true.
Proof. unfold gradBegin. destruct central; [discriminate|]. destruct (evc o0) as [r| |]; try discriminate. simpl. destruct (cv_err r) eqn:E; [|discriminate]. eauto. Qed.
Lemma begin_go o0 c o : gradBegin evc central o0 = Ok (inl (c, o)) -> central = true \/ exists r, evc o0 = Ok r /\ cv_err r = false.
Proof. unfold gradBegin. destruct central; [auto|]. destruct (evc o0) as [r| |]; try discriminate. simpl. destruct (cv_err r) eqn:E; [discriminate|]. eauto. Qed.

Lemma sent_lemma Ori s : ZS true (zinit true Ori) s ->
  match z_ret s with
  | None => z_sent s = []
  | Some p => (p = 1%nat /\ z_sent s = [p] /\ (central = true \/ exists r, evc (Clone Ori) = Ok r /\ cv_err r = false)) \/
              (p = 0%nat /\ z_sent s = [] /\ central = false /\ exists r, evc (Clone Ori) = Ok r /\ cv_err r = true)
  end.
Proof.
  intros H. apply zinv_run in H as (HO & o & Ho & HP). unfold z_ret. destruct (z_ph s) as [|curr m ws ret|q].
  - tauto.
  - destruct HP as (o1 & H1 & H2 & H3). destruct ret as [q|]; [|assumption]. destruct H3 as (-> & _ & H3). left. split; [reflexivity|]. split; [assumption|]. eapply begin_go; eauto.
  - destruct HP as (-> & HS & HB). right. apply begin_err in HB as [HC HB]. auto.
Qed.
Lemma nil_lemma Ori s : ZS false (zinit false Ori) s -> z_sent s = [] /\ (z_ret s = None \/ z_ret s = Some 0%nat).
Proof.
  intros H. apply zinv_run in H as (HO & o & Ho & HP). unfold z_ret. destruct (z_ph s) as [|curr m ws ret|q].
  - tauto.
  - destruct HP as (o1 & H1 & H2 & H3). destruct ret as [q|]; [|auto]. destruct H3 as (-> & _ & H3). auto.
  - destruct HP as (-> & HS & HB). auto.
Qed.

(** after the return *)
Lemma gstep_done (acts : param -> Options -> res (list act)) m o ws s' : gstep acts (MkG m o ws) s' -> m = GDone -> m_O s' = o /\ m_main s' = GDone.
Proof. intros H ->. inversion H; subst; auto. Qed.
Lemma final_step out o0 p s s' q : zinv out o0 p s -> Z1 out s s' -> z_ret s = Some q ->
  z_ret s' = Some q /\ z_sent s' = z_sent s /\ forall k, nth_error (z_heap s') k = nth_error (z_heap s) k.
Proof.
  intros (HO & o & Ho & HP) HS HR. destruct HS as [h r o1 o' sent E1 E2|h r o1 curr o' sent E1 E2|h r o1 curr m ws m' o' ws' ret sent E1 E2|h r curr ws sent E1|h r curr ws sent E1];
    unfold z_ret in *; simpl in *; try discriminate HR.
  subst ret. destruct HP as (o2 & H1 & H2 & -> & -> & H3). subst r. split; [reflexivity|]. split; [reflexivity|].
  apply gstep_done in E2 as [E _]; [|reflexivity]. simpl in E. subst o'. intros k. destruct (Nat.eq_dec k p) as [->|N].
  - rewrite upd_nat_get by (eapply some_lt; eauto). congruence.
  - apply upd_nat_other. exact N.
Qed.
Lemma final_lemma (out : bool) Ori s s' q : ZS out (zinit out Ori) s -> ZS out s s' -> z_ret s = Some q ->
  z_ret s' = Some q /\ z_sent s' = z_sent s /\ forall k, nth_error (z_heap s') k = nth_error (z_heap s) k.
Proof.
  intros H0 H HR. apply zinv_run in H0. induction H as [|s s1 s2 H IH H1]; [auto|]. destruct (IH H0 HR) as (A & B & C).
  assert (HI := zinv_steps _ _ _ _ _ H0 H). destruct (final_step _ _ _ _ _ q HI H1 A) as (A' & B' & C'). split; [assumption|]. split; [congruence|]. intros k. rewrite C'. apply C.
Qed.

(** the same execution without a channel *)
Lemma gsteps_zsteps Ori curr o1 s : gradBegin evc central Ori = Ok (inl (curr, o1)) -> gsteps (SA curr) (ginit o1) s ->
  ZS false (zinit false Ori) (MkZ [m_O s] 0 (ZRun curr (m_main s) (m_ws s) None) []).
Proof.
  intros HB H. remember (ginit o1) as s0 eqn:E0. induction H as [s|s s1 s2 H IH H1]; subst.
  - eapply zs_more; [apply zs_refl|]. change ([m_O (ginit o1)]) with (upd_nat [Ori] 0 o1). eapply zs_go; [reflexivity|exact HB].
  - eapply zs_more; [apply IH; reflexivity|]. change ([m_O s2]) with (upd_nat [m_O s1] 0 (m_O s2)). eapply zs_run; [reflexivity|]. destruct s1, s2. exact H1.
Qed.
Lemma gsteps_zsteps_out Ori curr o1 s : gradBegin evc central (Clone Ori) = Ok (inl (curr, o1)) -> gsteps (SA curr) (ginit o1) s ->
  ZS true (zinit true Ori) (MkZ [Ori; m_O s] 1 (ZRun curr (m_main s) (m_ws s) None) []).
Proof.
  intros HB H. remember (ginit o1) as s0 eqn:E0. induction H as [s|s s1 s2 H IH H1]; subst.
  - eapply zs_more; [apply zs_refl|]. change ([Ori; m_O (ginit o1)]) with (upd_nat [Ori; Clone Ori] 1 o1). eapply zs_go; [reflexivity|exact HB].
  - eapply zs_more; [apply IH; reflexivity|]. change ([Ori; m_O s2]) with (upd_nat [Ori; m_O s1] 1 (m_O s2)). eapply zs_run; [reflexivity|]. destruct s1, s2. exact H1.
Qed.
Lemma copy_lemma Ori s p R : ZS true (zinit true Ori) s -> z_ret s = Some p -> p <> 0%nat -> nth_error (z_heap s) p = Some R ->
  exists s', ZS false (zinit false (Clone Ori)) s' /\ z_ret s' = Some 0%nat /\ nth_error (z_heap s') 0 = Some R.
Proof.
  intros H HR Hp HE. apply zinv_run in H as (HO & o & Ho & HP). unfold z_ret in HR. destruct (z_ph s) as [|curr m ws ret|q]; [discriminate HR| |].
  - subst ret. destruct HP as (o1 & H1 & H2 & -> & -> & H3). assert (o = R) by congruence. subst o.
    exists (MkZ [R] 0 (ZRun curr GDone ws (Some 0%nat)) []). split; [|auto]. eapply zs_more; [apply (gsteps_zsteps _ _ _ _ H1 H2)|]. apply zs_return. reflexivity.
  - destruct HP as (-> & _). congruence.
Qed.
(** without a channel, the executions of GradConc.v *)
Lemma nil_runs Ori R : (exists s, ZS false (zinit false Ori) s /\ z_ret s = Some 0%nat /\ nth_error (z_heap s) 0 = Some R) <->
  (gradBegin evc central Ori = Ok (inr R) \/
   exists curr o1 s, gradBegin evc central Ori = Ok (inl (curr, o1)) /\ gsteps (SA curr) (ginit o1) s /\ m_main s = GDone /\ m_O s = R).
Proof.
  split.
  - intros (s & H & HR & HE). apply zinv_run in H as (HO & o & Ho & HP). assert (o = R) by congruence. subst o. unfold z_ret in HR. destruct (z_ph s) as [|curr m ws ret|q]; [discriminate HR| |].
    + subst ret. destruct HP as (o1 & H1 & H2 & _ & -> & H3). right. exists curr, o1, (MkG GDone R ws). auto.
    + left. tauto.
  - intros [HB|(curr & o1 & s & HB & HS & HM & <-)].
    + exists (MkZ [R] 0 (ZErr 0) []). split; [|auto]. eapply zs_more; [apply zs_refl|]. change [R] with (upd_nat [Ori] 0 R). eapply zs_fail; [reflexivity|exact HB].
    + exists (MkZ [m_O s] 0 (ZRun curr GDone (m_ws s) (Some 0%nat)) []). split; [|auto]. eapply zs_more; [apply (gsteps_zsteps _ _ _ _ HB HS)|]. rewrite HM. apply zs_return. reflexivity.
Qed.

(** the fields that are not searched *)
Lemma gsteps_others (acts : param -> Options -> res (list act)) s s' : gsteps acts s s' -> othersOf (m_O s') = othersOf (m_O s).
Proof. intros H. induction H as [|s s1 s2 H IH H1]; [reflexivity|]. rewrite <- IH. inversion H1; subst; simpl; auto. apply copy_others. Qed.
Lemma begin_early o0 c o1 : (forall o r o', evc o = Ok r -> cv_opts r = Some o' -> o_earlystop o' = o_earlystop o) ->
  gradBegin evc central o0 = Ok (inl (c, o1)) -> o_earlystop o1 = o_earlystop o0.
Proof.
  intros HE. unfold gradBegin. destruct central; [intros [= <- <-]; reflexivity|]. destruct (evc o0) as [r| |] eqn:E; try discriminate. simpl. destruct (cv_err r); [discriminate|].
  intros [= <- <-]. destruct (cv_opts r) as [o'|] eqn:EO; [|reflexivity]. eapply HE; eauto.
Qed.
Lemma early_lemma out Ori s p R : (forall o r o', evc o = Ok r -> cv_opts r = Some o' -> o_earlystop o' = o_earlystop o) ->
  ZS out (zinit out Ori) s -> z_ret s = Some p -> (central = true \/ exists r, evc (if out then Clone Ori else Ori) = Ok r /\ cv_err r = false) ->
  nth_error (z_heap s) p = Some R -> o_earlystop R = if out then 0 else o_earlystop Ori.
Proof.
  intros HE H HR HC HN. apply zinv_run in H as (HO & o & Ho & HP). unfold z_ret in HR. destruct (z_ph s) as [|curr m ws ret|q]; [discriminate HR| |].
  - subst ret. destruct HP as (o1 & H1 & H2 & -> & -> & H3). assert (o = R) by congruence. subst o.
    apply gsteps_others in H2. unfold othersOf in H2. simpl in H2. assert (E : o_earlystop R = o_earlystop o1) by congruence. rewrite E, (begin_early _ _ _ HE H1). destruct out; reflexivity.
  - destruct HP as (_ & _ & HB). exfalso. apply begin_err in HB as [HB1 (r & HB2 & HB3)]. destruct HC as [HC|(r' & HC & HC')]; congruence.
Qed.

(** with a reader GradStep never blocks *)
Lemma zprogress (out : bool) Ori s : parShape evs -> ZS out (zinit out Ori) s -> z_ret s = None ->
  (exists s', Z1 out s s') \/ (central = false /\ forall r, evc (if out then Clone Ori else Ori) <> Ok r) \/
  exists o curr p, In p gradOrder /\ nth_error (z_heap s) (z_O s) = Some o /\ forall l, ParamaterGradStep fuel (evs p) co p step fd curr central o <> Ok l.
Proof.
  intros HP H HR. apply zinv_run in H as (HO & o & Ho & HI). destruct s as [h q ph sent]. simpl in *. subst q. unfold z_ret in HR. simpl in HR. destruct ph as [|curr m ws ret|q]; [| |discriminate HR].
  - destruct HI as [-> _]. destruct (gradBegin evc central (if out then Clone Ori else Ori)) as [[[c o1]|o1]| |] eqn:EB.
    + left. eexists. eapply zs_go; eauto.
    + left. eexists. eapply zs_fail; eauto.
    + right. left. unfold gradBegin in EB. destruct central; [discriminate EB|]. split; [reflexivity|]. intros r Hr. rewrite Hr in EB. simpl in EB. destruct (cv_err r); discriminate EB.
    + right. left. unfold gradBegin in EB. destruct central; [discriminate EB|]. split; [reflexivity|]. intros r Hr. rewrite Hr in EB. simpl in EB. destruct (cv_err r); discriminate EB.
  - subst ret. destruct HI as (o1 & H1 & H2 & H3). destruct (run_progress fuel evs co step fd curr central HP o1 _ H2) as [HD|[[s' HD]|(p & HD1 & HD2 & HD3)]].
    + simpl in HD. subst m. left. destruct out; eexists; [apply zs_send|apply zs_return]; reflexivity.
    + left. destruct s' as [m' o' ws']. eexists. eapply zs_run; eauto.
    + right. right. exists o, curr, p. auto.
Qed.
Lemma zs_trans out s1 s2 s3 : ZS out s1 s2 -> ZS out s2 s3 -> ZS out s1 s3.
Proof. intros H1 H2. induction H2 as [|s2 s s' H2 IH H]; auto. exact (zs_more _ _ _ _ _ _ _ _ _ _ _ (IH H1) H). Qed.
(** no execution sends anything when the cross-validation fails *)
Lemma silent_lemma Ori s : central = false -> (exists r, evc (Clone Ori) = Ok r /\ cv_err r = true) -> ZS true (zinit true Ori) s -> z_sent s = [].
Proof.
  intros HC (r & HE & HR) H. apply sent_lemma in H. destruct (z_ret s) as [p|]; [|assumption]. destruct H as [(-> & H1 & [H2|(r' & H2 & H3)])|H]; [congruence|congruence|tauto].
Qed.
End Out.
