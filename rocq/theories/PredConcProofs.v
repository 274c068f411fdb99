(** Proofs for C155 (multiclass.go:34-108). *)
From Verif Require Import Base F64 Env EnvLemmas Utils Tree Options Train SpecTrain TrainProofs TrainMore DupProofs PredConc SpecPredConc.
From Coq Require Import Lia.
Open Scope Z_scope.

Section P.
Context {K : Type} (M : MultiClass).
Lemma class_buf v b b' p c : PredictSingleClass M v [b] = Ok (p, c) -> exists c', PredictSingleClass M v [b'] = Ok (p, c').
Proof.
  intros H. pose proof (PredictSingleClass_bufs M v [b] [b']) as HB. rewrite H in HB. destruct (PredictSingleClass M v [b']) as [[p' c']| |]; try contradiction.
  destruct HB as (<- & _). eauto.
Qed.
(** a goroutine for call [j] *)
Definition thOk (j : job K) (t : thread K) : Prop :=
  match t with
  | TStart j' => j' = j
  | TMake c D => j = JAcc D (Some c) /\ 0 < c
  | TLoop rows i ok D => (exists cl, j = JAcc D cl) /\ countRight M rows (Labels D) i ok = countRight M (Data D) (Labels D) 0 0
  | TEnd a => alone M j = Ok a
  end.
Lemma tstep_ok j t w t' : thOk j t -> tstep M t w t' -> thOk j t' /\ (w = None \/ asksMemory j).
Proof.
  intros H HS. destruct HS as [row bufs p b' E|row bufs c b' E|D c seen H1 H2|D cl seen HC|c D|v rows i right D seen p b lab act E1 E2 E3|i right D]; cbn [thOk] in *.
  - subst j. split; auto. cbn [alone]. rewrite E. reflexivity.
  - subst j. split; auto. cbn [alone]. rewrite E. reflexivity.
  - subst j. auto.
  - subst j. split; eauto.
  - destruct H as [-> H]. split; [split; eauto|right; exact H].
  - destruct H as [HJ H]. split; auto. split; auto. rewrite <- H. cbn [countRight]. destruct (class_buf v seen [] p b E1) as (c' & E1'). rewrite E1'. cbn [bind]. rewrite E2. cbn [bind]. rewrite E3. reflexivity.
  - destruct H as [(cl & ->) H]. split; auto. cbn [alone]. unfold Accuracy. rewrite <- H. reflexivity.
Qed.
Lemma tpanic_ok j t : thOk j t -> tpanic M t -> alone M j = Panic.
Proof.
  intros H HP. destruct HP as [row bufs E|row bufs E|v rows i right D seen E]; cbn [thOk] in H.
  - subst j. cbn [alone]. rewrite E. auto.
  - subst j. cbn [alone]. rewrite E. auto.
  - destruct H as [(cl & ->) H]. cbn [alone]. unfold Accuracy. rewrite <- H. cbn [countRight].
    pose proof (PredictSingleClass_bufs M v [seen] [[]]) as HB. destruct (PredictSingleClass M v [seen]) as [[p c]| |]; cbn [bind fst] in E; try discriminate;
      destruct (PredictSingleClass M v [[]]) as [[p' c']| |]; try contradiction; cbn [bind]; auto.
    destruct HB as (<- & _). destruct (idx (mc_labels M) p); cbn [bind] in *; try discriminate; auto. rewrite E. auto.
Qed.
Definition allOk (jobs : list (job K)) (s : pstate K) : Prop := Forall2 thOk jobs (ps_threads s).
Lemma F2_nth {A B} (R : A -> B -> Prop) l l' k b : Forall2 R l l' -> nth_error l' k = Some b -> exists a, nth_error l k = Some a /\ R a b.
Proof. intros H; revert k; induction H as [|x y l l' H HF IH]; intros [|k] E; try discriminate; [injection E as <-; exists x; auto|apply IH; auto]. Qed.
Lemma F2_upd {A B} (R : A -> B -> Prop) l l' k a b : Forall2 R l l' -> nth_error l k = Some a -> R a b -> Forall2 R l (upd_nat l' k b).
Proof.
  intros H; revert k; induction H as [|x y l l' H HF IH]; intros [|k] E HR; try discriminate; cbn [upd_nat].
  - injection E as ->. constructor; auto.
  - constructor; auto.
Qed.
Lemma init_ok tmp (jobs : list (job K)) : allOk jobs (pinit tmp jobs).
Proof. unfold allOk, pinit. cbn [ps_threads]. induction jobs; constructor; auto. reflexivity. Qed.
Lemma steps_ok n tmp (jobs : list (job K)) o : psteps M n (pinit tmp jobs) o ->
  match o with
  | Some s => allOk jobs s /\ ((forall j, In j jobs -> ~ asksMemory j) -> ps_tmp s = tmp)
  | None => exists j, In j jobs /\ alone M j = Panic
  end.
Proof.
  intros H. remember (pinit tmp jobs) as s0 eqn:E0. induction H as [s|n s s1 o H IH HS]; subst.
  - split; [apply init_ok|auto].
  - specialize (IH eq_refl). destruct IH as [IH1 IH2]. destruct HS as [s k t w t' Hk HT|s k t Hk HT].
    + destruct (F2_nth _ _ _ _ _ IH1 Hk) as (j & Hj & HO). destruct (tstep_ok _ _ _ _ HO HT) as [HO' HW]. split.
      * unfold allOk. cbn [ps_threads]. eapply F2_upd; eauto.
      * intros HN. cbn [ps_tmp]. destruct HW as [->|HW]; [auto|]. exfalso. eapply HN; [eapply nth_error_In; eauto|auto].
    + destruct (F2_nth _ _ _ _ _ IH1 Hk) as (j & Hj & HO). exists j. split; [eapply nth_error_In; eauto|]. eapply tpanic_ok; eauto.
Qed.
Lemma results n tmp (jobs : list (job K)) s k a : psteps M n (pinit tmp jobs) (Some s) -> nth_error (ps_threads s) k = Some (TEnd a) ->
  exists j, nth_error jobs k = Some j /\ alone M j = Ok a.
Proof. intros H Hk. apply steps_ok in H as [H _]. destruct (F2_nth _ _ _ _ _ H Hk) as (j & Hj & HO). eauto. Qed.

(** progress *)
Lemma t_moves j t : thOk j t -> alone M j <> Diverge -> (exists a, t = TEnd a) \/ (exists w t', tstep M t w t') \/ tpanic M t.
Proof.
  intros H HD. destruct t as [j'|c D|rows i right D|a]; cbn [thOk] in H; [| | |left; eauto].
  - subst j'. right. destruct j as [row bufs|row bufs|D cl]; cbn [alone] in HD.
    + destruct (PredictMC M row bufs) as [[p b]| |] eqn:E; cbn [bind] in HD; [left; do 2 eexists; eapply ts_predict; eauto|right; constructor; auto|congruence].
    + destruct (PredictSingleClass M row bufs) as [[p b]| |] eqn:E; cbn [bind] in HD; [left; do 2 eexists; eapply ts_class; eauto|right; constructor; auto|congruence].
    + left. destruct cl as [c|].
      * destruct (Z.lt_ge_cases 0 c); [do 2 eexists; apply (ts_check M D c []); cbn; lia|do 2 eexists; apply (ts_skip M D (Some c) []); auto].
      * do 2 eexists. apply (ts_skip M D None []). exact I.
  - right; left. do 2 eexists. constructor.
  - right. destruct rows as [|v rows]; [left; do 2 eexists; constructor|]. destruct H as [(cl & ->) H].
    destruct (p <- PredictSingleClass M v [[]] ;; lab <- idx (mc_labels M) (fst p) ;; idx (Labels D) i) as [act| |] eqn:E.
    + apply bind_Ok in E as ([p b] & E1 & E). apply bind_Ok in E as (lab & E2 & E3). left. do 2 eexists. eapply ts_row; eauto.
    + right. eapply tp_row; eauto.
    + exfalso. apply HD. cbn [alone]. unfold Accuracy. rewrite <- H. cbn [countRight]. destruct (PredictSingleClass M v [[]]) as [[p b]| |]; cbn [bind fst] in *; try discriminate; auto.
      destruct (idx (mc_labels M) p) as [lab| |] eqn:E2; cbn [bind] in *; try discriminate; auto. rewrite E. auto.
Qed.
Lemma all_ended (l : list (thread K)) : (forall t, In t l -> exists a, t = TEnd a) \/ exists k t, nth_error l k = Some t /\ ~ exists a, t = TEnd a.
Proof.
  induction l as [|t l IH]; [left; intros t []|]. assert (D : (exists a, t = TEnd a) \/ ~ exists a, t = TEnd a) by (destruct t; [right|right|right|left; eauto]; intros (a & E); discriminate).
  destruct D as [D|D]; [|right; exists O, t; auto]. destruct IH as [IH|(k & t' & H1 & H2)]; [left; intros t' [<-|H]; auto|right; exists (S k), t'; auto].
Qed.
Lemma progress n tmp (jobs : list (job K)) s : (forall j, In j jobs -> alone M j <> Diverge) -> psteps M n (pinit tmp jobs) (Some s) ->
  (forall t, In t (ps_threads s) -> exists a, t = TEnd a) \/ exists o, pstep M s o.
Proof.
  intros HD H. apply steps_ok in H as [H _]. destruct (all_ended (ps_threads s)) as [HE|(k & t & Hk & HN)]; [left; auto|right].
  destruct (F2_nth _ _ _ _ _ H Hk) as (j & Hj & HO). destruct (t_moves j t HO) as [HE|[(w & t' & HT)|HP]]; [apply HD; eapply nth_error_In; eauto|contradiction| |].
  - eexists. eapply pst_go; eauto.
  - eexists. eapply pst_panic; eauto.
Qed.
(** every run is finite *)
Definition weight (t : thread K) : nat :=
  match t with
  | TStart (JAcc D _) => length (Data D) + 3
  | TStart _ => 1
  | TMake _ D => length (Data D) + 2
  | TLoop rows _ _ _ => length rows + 1
  | TEnd _ => 0
  end.
Definition weights (l : list (thread K)) : nat := fold_right (fun t n => weight t + n)%nat O l.
Lemma tstep_weight t w t' : tstep M t w t' -> (weight t' < weight t)%nat.
Proof. intros []; cbn [weight length]; lia. Qed.
Lemma weights_upd l k t t' : nth_error l k = Some t -> (weight t' < weight t)%nat -> (weights (upd_nat l k t') < weights l)%nat.
Proof. revert k; induction l as [|x l IH]; intros [|k] E H; try discriminate; cbn [upd_nat weights fold_right]; [injection E as ->; lia|]. specialize (IH k E H). unfold weights in IH. lia. Qed.
Lemma steps_weight n s o : psteps M n s o -> match o with Some s' => (n + weights (ps_threads s') <= weights (ps_threads s))%nat | None => (n <= S (weights (ps_threads s)))%nat end.
Proof.
  induction 1 as [s|n s s1 o H IH HS]; [lia|]. destruct HS as [s1 k t w t' Hk HT|s1 k t Hk HT].
  - cbn [ps_threads]. pose proof (weights_upd _ _ _ _ Hk (tstep_weight _ _ _ HT)). lia.
  - lia.
Qed.
Lemma weights_init (jobs : list (job K)) : weights (map TStart jobs) = fold_right (fun j n => jobSteps j + n)%nat O jobs.
Proof. induction jobs as [|j jobs IH]; [auto|]. cbn [map weights fold_right]. unfold weights in IH. rewrite IH. destruct j; reflexivity. Qed.
Lemma finite n tmp (jobs : list (job K)) o : psteps M n (pinit tmp jobs) o -> (n <= S (fold_right (fun j m => jobSteps j + m)%nat O jobs))%nat.
Proof. intros H. apply steps_weight in H. unfold pinit in H. cbn [ps_threads] in H. rewrite weights_init in H. destruct o; lia. Qed.
Lemma psteps_cons n (s s1 : pstate K) o : pstep M s (Some s1) -> psteps M n s1 o -> psteps M (S n) s o.
Proof. intros H1 H. induction H; eapply pss_more; eauto using pss_refl. Qed.
(** without panics the calls can all be completed *)
Lemma completes_from m : forall n tmp (jobs : list (job K)) s, (forall j, In j jobs -> exists a, alone M j = Ok a) -> psteps M n (pinit tmp jobs) (Some s) ->
  (weights (ps_threads s) <= m)%nat -> exists n' s', psteps M n' s (Some s') /\ Forall2 (fun j t => exists a, t = TEnd a /\ alone M j = Ok a) jobs (ps_threads s').
Proof.
  induction m as [m IH] using (well_founded_induction Wf_nat.lt_wf). intros n tmp jobs s HA H HW.
  destruct (progress n tmp jobs s) as [HE|(o & HS)]; auto.
  - intros j Hj. destruct (HA j Hj) as (a & ->). discriminate.
  - exists O, s. split; [constructor|]. apply steps_ok in H as [H _]. clear HA HW IH. unfold allOk in H. induction H as [|j t jobs' ts HO HF IHF]; constructor.
    + destruct (HE t (or_introl eq_refl)) as (a & ->). exists a. auto.
    + apply IHF. intros t' Ht'. apply HE. right. auto.
  - pose proof (pss_more M n _ _ _ H HS) as H'. destruct o as [s'|].
    + assert (HW' : (weights (ps_threads s') < weights (ps_threads s))%nat).
      { inversion HS as [s1 k t w t' Hk HT|]; subst. cbn [ps_threads]. eapply weights_upd; eauto using tstep_weight. }
      destruct (IH (weights (ps_threads s')) ltac:(lia) (S n) tmp jobs s' HA H' ltac:(lia)) as (n' & s2 & H2 & HF). exists (S n'), s2. split; [eapply psteps_cons; eauto|auto].
    + apply steps_ok in H' as (j & Hj & HP). destruct (HA j Hj) as (a & E). congruence.
Qed.
Lemma completes n tmp (jobs : list (job K)) s : (forall j, In j jobs -> exists a, alone M j = Ok a) -> psteps M n (pinit tmp jobs) (Some s) ->
  exists n' s', psteps M n' s (Some s') /\ Forall2 (fun j t => exists a, t = TEnd a /\ alone M j = Ok a) jobs (ps_threads s').
Proof. intros HA H. eapply completes_from; eauto. Qed.
End P.
(** two calls of Accuracy that ask for memory *)
Lemma race {K} (M : MultiClass) (D D' : DataBunch K) c c' : 0 < c -> 0 < c' ->
  exists s, psteps M 2 (pinit [] [JAcc D (Some c); JAcc D' (Some c')]) (Some s) /\ racing M s.
Proof.
  intros H H'. eexists. split.
  - eapply pss_more; [eapply pss_more; [apply pss_refl|]|].
    + apply (pst_go M _ 0 (TStart (JAcc D (Some c))) None (TMake c D)); [reflexivity|]. apply (ts_check M D c []); cbn; lia.
    + apply (pst_go M _ 1 (TStart (JAcc D' (Some c'))) None (TMake c' D')); [reflexivity|]. apply (ts_check M D' c' []); cbn; lia.
  - exists O, 1%nat. do 6 eexists. split; [discriminate|]. split; [reflexivity|]. split; [reflexivity|]. split; apply ts_make.
Qed.
