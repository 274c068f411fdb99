(** The statements about GradStep in terms of its parameters. *)
From Verif Require Import Base F64 Env Utils Tree Options Train Spec CV SpecCV Grid SpecGrid Grad GradConc SpecGrad GradProofs GradConcProofs.
Open Scope Z_scope.

Section Run.
Context (fuel : nat) (evs : param -> bool -> Options -> res cvRet) (co : GridOptions) (step fd curr : f64) (central : bool).
Notation SA := (stepActs fuel evs co step fd curr central).
Hypothesis HE : parShape evs.
Lemma SA_form p o l : SA p o = Ok l -> actForm co p o l.
Proof. apply acts_form. intros up o' r. apply HE. Qed.
Lemma once_nsends s : sendOnce fuel evs co step fd curr central s -> onceAll SA s.
Proof.
  intros H p src o l E l0 Ha. specialize (H p src o l E (sends (Clone src) l0)). rewrite sends_len in H. apply H. unfold ParamaterGradStep. unfold stepActs in Ha. rewrite Ha. reflexivity.
Qed.
Lemma blocked O s p src o l sent : gsteps SA (ginit O) s -> m_ws s p = PRun src o l -> ParamaterGradStep fuel (evs p) co p step fd curr central src = Ok sent ->
  (2 <= length sent)%nat -> ~ ended (m_ws s p).
Proof.
  intros ST E HP H2. unfold ParamaterGradStep in HP. apply bind_Ok in HP as (l0 & Ha & HP). injection HP as <-. rewrite sends_len in H2.
  eapply never_ends; eauto.
Qed.
Lemma boxed_run O s : gsteps SA (ginit O) s -> sendOnce fuel evs co step fd curr central s -> m_O s = O \/ inBox co (m_O s).
Proof.
  intros ST HO. destruct (box_steps SA co O SA_form s ST (once_nsends s HO)) as [H|H]; [left|auto].
  apply opts_ext; auto. apply (gi_oth _ _ s (inv_steps SA O s ST)).
Qed.
Lemma plain_run O s : o_minsample O < 1 -> gsteps SA (ginit O) s -> sendOnce fuel evs co step fd curr central s -> m_O s = O.
Proof.
  intros HM ST HO. destruct (boxed_run O s ST HO) as [H|H]; auto. exfalso. destruct H as (_ & _ & _ & _ & _ & _ & _ & _ & H).
  pose proof (gi_oth _ _ s (inv_steps SA O s ST)) as E. unfold othersOf in E. injection E. intros. lia.
Qed.
Lemma run_seq O O' evc : gradBegin evc central O = Ok (inl (curr, O')) -> forall R, GradStep fuel evc evs co step fd central O = Ok R -> foldM (seqBody SA O') O' gradOrder = Ok R.
Proof. unfold GradStep. intros -> R H. exact H. Qed.
Lemma run_determined evc Ori O R s1 s : gradBegin evc central Ori = Ok (inl (curr, O)) -> GradStep fuel evc evs co step fd central Ori = Ok R ->
  gsteps SA (ginit O) s1 -> m_main s1 = GRecv gradOrder -> (forall p, In p gradOrder -> m_ws s1 p <> PStart) -> gsteps SA s1 s -> m_main s = GDone ->
  sendOnce fuel evs co step fd curr central s -> m_O s = R.
Proof.
  intros HB HG ST1 HM HA ST2 HD HO. eapply (seq_determined SA co O SA_form s R).
  - eapply gsteps_trans; eauto.
  - exact HD.
  - apply once_nsends. exact HO.
  - eapply started_src; eauto.
  - eapply run_seq; eauto.
Qed.
Lemma run_exists evc Ori O R : gradBegin evc central Ori = Ok (inl (curr, O)) -> GradStep fuel evc evs co step fd central Ori = Ok R ->
  exists s, gsteps SA (ginit O) s /\ m_main s = GDone /\ m_O s = R.
Proof.
  intros HB HG. destruct (seq_exists SA O R (run_seq _ _ evc HB R HG)) as (s1 & s & H1 & _ & _ & H2 & H3 & H4). exists s. split; [eapply gsteps_trans; eauto|auto].
Qed.
Lemma run_progress O s : gsteps SA (ginit O) s -> m_main s = GDone \/ (exists s', gstep SA s s') \/
  exists p, In p gradOrder /\ m_ws s p = PStart /\ forall l, ParamaterGradStep fuel (evs p) co p step fd curr central (m_O s) <> Ok l.
Proof.
  intros ST. destruct (progress SA co O SA_form s ST) as [H|[H|(p & H1 & H2 & H3)]]; auto. right. right. exists p. split; auto. split; auto.
  intros l Hl. unfold ParamaterGradStep in Hl. apply bind_Ok in Hl as (l0 & Ha & _). apply (H3 l0 Ha).
Qed.

(** *** every parameter step reads the options after the previous ones have been copied *)
Definition lateBody (acc : Options) (p : param) : res Options :=
  l <- ParamaterGradStep fuel (evs p) co p step fd curr central acc ;; match l with v :: _ => Ok (copyParam p v acc) | [] => Diverge end.
Lemma late_one p more O ws O1 : In p gradOrder -> ws p = PStart -> lateBody O p = Ok O1 ->
  exists ws', gsteps SA (MkG (GRecv (p :: more)) O ws) (MkG (match more with [] => GDone | _ => GRecv more end) O1 ws') /\ forall q, q <> p -> ws' q = ws q.
Proof.
  intros Hp HW H. unfold lateBody in H. apply bind_Ok in H as (l & Hl & H). unfold ParamaterGradStep in Hl. apply bind_Ok in Hl as (l0 & Ha & Hl). injection Hl as <-.
  destruct (sends (Clone O) l0) as [|v vs] eqn:Es; [discriminate H|]. injection H as <-.
  destruct (one_param SA O l0 (Clone O) p more O (setw ws p (PRun O (Clone O) l0)) v vs) as (ws' & H1 & H2); [apply setw_same|exact Es|].
  exists ws'. split.
  - eapply gsteps_trans; [|exact H1]. apply gsteps_one. apply gs_read; auto.
  - intros q Hq. rewrite H2 by auto. apply setw_other; auto.
Qed.
Lemma late_all ps : forall O ws R, ps <> [] -> NoDup ps -> (forall p, In p ps -> In p gradOrder) -> (forall p, In p ps -> ws p = PStart) -> foldM lateBody O ps = Ok R ->
  exists ws', gsteps SA (MkG (GRecv ps) O ws) (MkG GDone R ws').
Proof.
  induction ps as [|p ps IH]; intros O ws R Hne HN HP HW H; [congruence|]. cbn [foldM] in H. apply bind_Ok in H as (O1 & H1 & H).
  destruct (late_one p ps O ws O1) as (ws1 & S1 & S2); [apply HP; left; auto|apply HW; left; auto|exact H1|]. inversion HN as [|x y Hnp HN']; subst.
  destruct ps as [|p2 ps].
  - injection H as <-. eauto.
  - destruct (IH O1 ws1 R) as (ws' & HS); [discriminate|exact HN'|intros; apply HP; right; auto| |exact H|].
    + intros q Hq. rewrite S2; [apply HW; right; auto|]. intros ->. contradiction.
    + exists ws'. eapply gsteps_trans; [exact S1|exact HS].
Qed.
Lemma late_exists O R : foldM lateBody O gradOrder = Ok R -> exists s, gsteps SA (ginit O) s /\ m_main s = GDone /\ m_O s = R.
Proof.
  intros H. destruct (late_all gradOrder O (fun _ => PStart) R) as (ws' & HS); [discriminate|exact gradOrder_NoDup|auto|auto|exact H|]. eexists. split; [exact HS|auto].
Qed.

(** *** the first record is looked at only after its sender has changed it *)
Lemma late_read O w tl R : SA PGamma O = Ok (ASend0 :: AMut w :: tl) ->
  foldM lateBody (copyParam PGamma w O) [PLambda; PSubSample; PLearningRate; PRounds; PColSubSample] = Ok R ->
  exists s, gsteps SA (ginit O) s /\ m_main s = GDone /\ m_O s = R.
Proof.
  intros Ha H. set (ps := [PLambda; PSubSample; PLearningRate; PRounds; PColSubSample]) in *.
  set (ws := setw (setw (setw (fun _ => PStart) PGamma (PRun O (Clone O) (ASend0 :: AMut w :: tl))) PGamma (PRun O (Clone O) (AMut w :: tl))) PGamma (PRun O w tl)).
  assert (S1 : gsteps SA (ginit O) (MkG (GRecv ps) (copyParam PGamma w O) ws)).
  { eapply gs_more; [eapply gs_more; [eapply gs_more; [apply gsteps_one|]|]|].
    - apply (gs_read SA (GRecv gradOrder) O (fun _ => PStart) PGamma); [left; reflexivity|reflexivity|exact Ha].
    - apply (gs_recv0 SA O _ PGamma ps O (Clone O) (AMut w :: tl)). apply setw_same.
    - apply (gs_mut SA (GRead PGamma None ps) O _ PGamma O (Clone O) w tl). apply setw_same.
    - apply (gs_copy SA O ws PGamma None ps O w tl). apply setw_same. }
  destruct (late_all ps (copyParam PGamma w O) ws R) as (ws' & HS); [discriminate| | | |exact H|].
  - repeat (constructor; [cbn; intuition discriminate|]). constructor.
  - intros p Hp. cbn in Hp |- *. tauto.
  - intros p Hp. unfold ws. rewrite !setw_other; [reflexivity| | |]; intros ->; cbn in Hp; intuition discriminate.
  - eexists. split; [eapply gsteps_trans; [exact S1|exact HS]|auto].
Qed.
End Run.

(** *** plain options never move *)
Section Plain.
Context (fuel : nat) (evc : Options -> res cvRet) (evs : param -> bool -> Options -> res cvRet) (co : GridOptions) (step fd : f64) (central : bool).
Hypothesis HE : parShape evs.
Lemma copy_self p o : copyParam p (Clone o) o = o. Proof. destruct p, o; reflexivity. Qed.
Lemma plain_step Ori R : o_minsample Ori < 1 -> GradStep fuel evc evs co step fd central Ori = Ok R -> (forall r o, evc Ori = Ok r -> cv_opts r = Some o -> o_minsample o < 1) ->
  exists b, gradBegin evc central Ori = Ok b /\ R = match b with inl (_, o) => o | inr o => o end.
Proof.
  intros HM H HC. unfold GradStep in H. apply bind_Ok in H as (b & Hb & H). exists b. split; [auto|]. destruct b as [[curr o]|o]; [|congruence].
  assert (Hm : o_minsample o < 1).
  { unfold gradBegin in Hb. destruct central; [injection Hb as _ <-; auto|]. apply bind_Ok in Hb as (r & Hr & Hb). destruct (cv_err r); [discriminate Hb|]. injection Hb as _ <-.
    destruct (cv_opts r) as [o'|] eqn:Eo; [eapply HC; eauto|auto]. }
  assert (HG : forall ps, foldM (fun acc p => l <- ParamaterGradStep fuel (evs p) co p step fd curr central o ;;
     match l with v :: _ => Ok (copyParam p v acc) | [] => Diverge end) o ps = Ok R -> R = o); [|eapply HG; exact H].
  clear H. induction ps as [|p ps IH]; intros H; cbn [foldM] in H; [congruence|]. apply bind_Ok in H as (o1 & H1 & H). apply bind_Ok in H1 as (l & Hl & H1).
  destruct l as [|v l]; [discriminate H1|]. injection H1 as <-. assert (v = Clone o) as ->; [|rewrite copy_self in H; auto].
  destruct (par_spec fuel (evs p) co p step fd curr central (HE p) o _ Hl) as (n & w & E & HW & _).
  assert (w = Clone o) as ->.
  { destruct HW as [->|[HB [HS _]]]; auto. exfalso. destruct HB as (_ & _ & _ & _ & _ & _ & _ & _ & HB). unfold othersOf in HS. injection HS. intros. cbn in *. lia. }
  destruct n; injection E; congruence.
Qed.
End Plain.
