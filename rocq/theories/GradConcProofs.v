(** Proofs about the interleavings of GradStep. *)
From Verif Require Import Base F64 Env Utils Tree Options Train Spec CV SpecCV Grid SpecGrid Grad GradConc SpecGrad GradProofs.
Open Scope Z_scope.

(** *** lists of actions *)
Fixpoint objAfter (c : Options) (l : list act) : Options :=
  match l with [] => c | AMut v :: t => objAfter v t | _ :: t => objAfter c t end.
Fixpoint nsends (l : list act) : nat := match l with [] => 0 | AMut _ :: t => nsends t | _ :: t => S (nsends t) end.
Lemma sends_cat l : forall c m, sends c (l ++ m) = sends c l ++ sends (objAfter c l) m.
Proof. induction l as [|[|v|v] l IH]; intros c m; cbn; auto; rewrite IH; reflexivity. Qed.
Lemma sends_len l : forall c, length (sends c l) = nsends l.
Proof. induction l as [|[|v|v] l IH]; intros c; cbn; auto. Qed.
Lemma nsends_app l m : nsends (l ++ m) = (nsends l + nsends m)%nat.
Proof. induction l as [|[|v|v] l IH]; cbn; auto. Qed.
Lemma objAfter_app l : forall c m, objAfter c (l ++ m) = objAfter (objAfter c l) m.
Proof. induction l as [|[|v|v] l IH]; intros c m; cbn; auto. Qed.

(** the form of the list of actions of a parameter step that reads [o] *)
Definition actForm (co : GridOptions) (p : param) (o : Options) (l : list act) : Prop :=
  exists n tl, l = repeat ASend0 n ++ tl /\ (tl = [ASend0] \/ exists pre v, tl = pre ++ [ASendV v] /\ (pre = [] \/ exists w, pre = [AMut w]) /\
    (v = Clone o \/ (inBox co v /\ sameBut p v (Clone o)))).
Lemma acts_form fuel eval co p step fd curr central o l : (forall up o r, eval up o = Ok r -> sentShape r) ->
  gradActs fuel eval co p step fd curr central o = Ok l -> actForm co p o l.
Proof.
  intros HE H. apply acts_spec in H as (n & tl & H); [|exact HE]. destruct H as [(-> & HT & _)|(_ & m & -> & _)].
  - exists n, tl. split; [reflexivity|]. destruct HT as [[_ ->]|(pre & v & -> & HP & HV)]; [auto|]. right. exists pre, v. split; [reflexivity|]. split; [|exact HV].
    destruct HP as [->|(w & -> & _)]; eauto.
  - exists m, [ASend0]. split; [rewrite repeat_app; reflexivity|auto].
Qed.
Lemma form_sends co p o l : actForm co p o l -> (1 <= nsends l)%nat.
Proof. intros (n & tl & -> & HT). rewrite nsends_app. destruct HT as [->|(pre & v & -> & _)]; [cbn; lia|rewrite nsends_app; cbn; lia]. Qed.
Lemma nsends_rep n : nsends (repeat ASend0 n) = n.
Proof. induction n; cbn; auto. Qed.
(** a step that sends once: what is read from the record received is what was sent *)
Lemma form_once co p o l : actForm co p o l -> nsends l = 1%nat -> exists v, sends (Clone o) l = [v] /\ (v = Clone o \/ (inBox co v /\ sameBut p v (Clone o))) /\
  forall dn m, l = dn ++ m -> nsends dn = 1%nat -> (In ASend0 dn -> objAfter (Clone o) dn = v) /\ (forall x, In (ASendV x) dn -> x = v).
Proof.
  intros (n & tl & -> & HT) HN. rewrite nsends_app, nsends_rep in HN. assert (n = 0)%nat as -> by (destruct HT as [->|(pre & v & -> & _)]; [cbn in HN; lia|rewrite nsends_app in HN; cbn in HN; lia]).
  cbn [repeat app]. destruct HT as [->|(pre & v & -> & HP & HV)].
  - exists (Clone o). split; [reflexivity|]. split; [auto|]. intros dn m E Hd. destruct dn as [|a [|b dn]]; try discriminate Hd; inversion E; subst.
    split; [reflexivity|]. intros x [HX|[]]. discriminate HX.
  - exists v. split; [destruct HP as [->|(w & ->)]; reflexivity|]. split; [exact HV|]. intros dn m E Hd.
    destruct HP as [->|(w & ->)]; cbn [app] in E.
    + destruct dn as [|a [|b dn]]; try discriminate Hd; inversion E; subst.
      split; [intros [HX|[]]; discriminate HX|]. intros x [HX|[]]. congruence.
    + destruct dn as [|a [|b [|c dn]]]; try discriminate Hd; inversion E; subst; try discriminate Hd.
      split; [intros [HX|[HX|[]]]; discriminate HX|]. intros x [HX|[HX|[]]]; congruence.
Qed.

Section Machine.
Context (acts : param -> Options -> res (list act)) (co : GridOptions) (O0 : Options).
Hypothesis HF : forall p o l, acts p o = Ok l -> actForm co p o l.

Definition pend (m : gmain) : list param := match m with GRecv l => l | GRead _ _ l => l | GDone => [] end.
(** still to be written to the shared record *)
Definition uncopied (m : gmain) : list param := match m with GRecv l => l | GRead p _ l => p :: l | GDone => [] end.
Definition wok (m : gmain) (p : param) (w : pw) : Prop :=
  match w with
  | PStart => In p gradOrder -> In p (pend m)
  | PRun src o l => In p gradOrder /\ exists l0 dn, acts p src = Ok l0 /\ l0 = dn ++ l /\ o = objAfter (Clone src) dn /\
      (if in_dec param_eq_dec p (pend m) then nsends dn = 0%nat else nsends dn = 1%nat)
  end.
Definition readOk (m : gmain) (ws : param -> pw) : Prop :=
  match m with
  | GRead p v _ => exists src o l l0 dn, ws p = PRun src o l /\ acts p src = Ok l0 /\ l0 = dn ++ l /\ o = objAfter (Clone src) dn /\ nsends dn = 1%nat /\
      match v with None => In ASend0 dn | Some x => In (ASendV x) dn end
  | _ => True
  end.
Definition mainOk (m : gmain) : Prop := NoDup (uncopied m) /\ (forall p, In p (uncopied m) -> In p gradOrder) /\ m <> GRecv [].
Definition srcOk (m : gmain) (O : Options) (p : param) (w : pw) : Prop :=
  match w with
  | PStart => True
  | PRun src _ _ => othersOf src = othersOf O0 /\ paramOf p src = paramOf p O0 /\ forall q, paramOf q src = paramOf q O0 \/ paramOf q src = paramOf q O
  end.
Record ginvs (s : gst) : Prop := {
  gi_main : mainOk (m_main s);
  gi_w : forall p, wok (m_main s) p (m_ws s p);
  gi_read : readOk (m_main s) (m_ws s);
  gi_oth : othersOf (m_O s) = othersOf O0;
  gi_unc : forall p, In p (uncopied (m_main s)) -> paramOf p (m_O s) = paramOf p O0;
  gi_src : forall p, srcOk (m_main s) (m_O s) p (m_ws s p) }.

Lemma setw_same ws p w : setw ws p w p = w. Proof. unfold setw. destruct (param_eq_dec p p); congruence. Qed.
Lemma setw_other ws p w q : q <> p -> setw ws p w q = ws q. Proof. unfold setw. destruct (param_eq_dec q p); congruence. Qed.

Lemma gradOrder_NoDup : NoDup gradOrder.
Proof. repeat (constructor; [cbn; intuition discriminate|]). constructor. Qed.
Lemma init_inv : ginvs (ginit O0).
Proof.
  constructor; cbn [ginit m_main m_O m_ws uncopied pend readOk].
  - repeat split; auto; [exact gradOrder_NoDup|discriminate].
  - intros p. cbn. auto.
  - exact I.
  - reflexivity.
  - auto.
  - intros p. exact I.
Qed.
Lemma step_inv s s' : ginvs s -> gstep acts s s' -> ginvs s'.
Proof.
  intros [Hm Hw Hr Ho Hu Hs] ST. destruct ST as [m O ws p l Hp Hst Ha|m O ws p src o v l Hst|O ws p more src o l Hst|O ws p more src o v l Hst|O ws p v more src o l Hst];
    cbn [m_main m_O m_ws] in *.
  - (* read *)
    pose proof (Hw p) as Hwp. rewrite Hst in Hwp. cbn in Hwp. specialize (Hwp Hp).
    constructor; cbn [m_main m_O m_ws]; auto.
    + intros q. unfold setw. destruct (param_eq_dec q p) as [->|]; [|apply Hw]. cbn [wok]. split; [auto|]. exists l, []. repeat split; auto.
      destruct (in_dec param_eq_dec p (pend m)); [reflexivity|contradiction].
    + unfold readOk in *. destruct m as [lr|r v lr|]; auto. destruct Hr as (src & o & l1 & l0 & dn & E & Hr). exists src, o, l1, l0, dn. split; [|exact Hr].
      rewrite setw_other; [exact E|]. intros ->. rewrite Hst in E. discriminate E.
    + intros q. unfold setw. destruct (param_eq_dec q p) as [->|]; [|apply Hs]. cbn [srcOk]. split; [exact Ho|]. split; [|auto].
      apply Hu. destruct m as [lr|r v lr|]; cbn in *; auto.
  - (* mut *)
    pose proof (Hw p) as Hwp. rewrite Hst in Hwp. destruct Hwp as (Hp & l0 & dn & Ha & -> & -> & Hn).
    constructor; cbn [m_main m_O m_ws]; auto.
    + intros q. unfold setw. destruct (param_eq_dec q p) as [->|]; [|apply Hw]. cbn [wok]. split; [auto|]. exists (dn ++ AMut v :: l), (dn ++ [AMut v]).
      rewrite <- app_assoc. repeat split; auto; [rewrite objAfter_app; reflexivity|]. rewrite nsends_app. cbn [nsends]. rewrite Nat.add_0_r. exact Hn.
    + unfold readOk in *. destruct m as [lr|r v' lr|]; auto. destruct Hr as (src' & o & l1 & l0 & dn' & E & Ha' & -> & -> & Hn' & Hv).
      destruct (param_eq_dec r p) as [->|Hne].
      * rewrite Hst in E. injection E as <- E1 <-. rewrite Ha in Ha'. injection Ha' as E2. assert (dn = dn') as <- by (eapply app_inv_tail; exact E2).
        exists src, v, l, (dn ++ AMut v :: l), (dn ++ [AMut v]). rewrite setw_same, <- app_assoc. repeat split; auto; [rewrite objAfter_app; reflexivity|rewrite nsends_app; cbn; lia|].
        destruct v' as [x|]; apply in_app_iff; left; exact Hv.
      * exists src', (objAfter (Clone src') dn'), l1, (dn' ++ l1), dn'. rewrite setw_other by congruence. repeat split; auto.
    + intros q. unfold setw. destruct (param_eq_dec q p) as [->|]; [|apply Hs]. specialize (Hs p). rewrite Hst in Hs. exact Hs.
  - (* receive of the first record *)
    pose proof (Hw p) as Hwp. rewrite Hst in Hwp. destruct Hwp as (Hp & l0 & dn & Ha & -> & -> & Hn).
    destruct Hm as (Hnd & Hin & _). cbn [uncopied] in Hnd, Hin. inversion Hnd as [|x y Hnp Hnd']; subst.
    destruct (in_dec param_eq_dec p (pend (GRecv (p :: more)))) as [_|Hno]; [|exfalso; apply Hno; left; reflexivity].
    constructor; cbn [m_main m_O m_ws]; auto.
    + split; [exact Hnd|]. split; [exact Hin|discriminate].
    + intros q. unfold setw. destruct (param_eq_dec q p) as [->|Hne].
      * cbn [wok pend]. split; [auto|]. exists (dn ++ ASend0 :: l), (dn ++ [ASend0]). rewrite <- app_assoc. repeat split; auto; [rewrite objAfter_app; reflexivity|].
        destruct (in_dec param_eq_dec p more); [contradiction|]. rewrite nsends_app. cbn. lia.
      * specialize (Hw q). destruct (ws q) as [|src' o' l']; cbn [wok pend] in *.
        -- intros Hq. destruct (Hw Hq) as [HX|HX]; [congruence|exact HX].
        -- destruct Hw as (Hq & l1 & d1 & A1 & A2 & A3 & A4). split; [auto|]. exists l1, d1. repeat split; auto.
           destruct (in_dec param_eq_dec q (p :: more)) as [[?|?]|Hno], (in_dec param_eq_dec q more); try congruence; try contradiction. exfalso. apply Hno. right. auto.
    + cbn [readOk]. exists src, (objAfter (Clone src) dn), l, (dn ++ ASend0 :: l), (dn ++ [ASend0]). rewrite setw_same, <- app_assoc. repeat split; auto; [rewrite objAfter_app; reflexivity|rewrite nsends_app; cbn; lia|].
      apply in_app_iff. right. left. reflexivity.
    + intros q. unfold setw. destruct (param_eq_dec q p) as [->|]; [|apply Hs]. specialize (Hs p). rewrite Hst in Hs. exact Hs.
  - (* receive of another record *)
    pose proof (Hw p) as Hwp. rewrite Hst in Hwp. destruct Hwp as (Hp & l0 & dn & Ha & -> & -> & Hn).
    destruct Hm as (Hnd & Hin & _). cbn [uncopied] in Hnd, Hin. inversion Hnd as [|x y Hnp Hnd']; subst.
    destruct (in_dec param_eq_dec p (pend (GRecv (p :: more)))) as [_|Hno]; [|exfalso; apply Hno; left; reflexivity].
    constructor; cbn [m_main m_O m_ws]; auto.
    + split; [exact Hnd|]. split; [exact Hin|discriminate].
    + intros q. unfold setw. destruct (param_eq_dec q p) as [->|Hne].
      * cbn [wok pend]. split; [auto|]. exists (dn ++ ASendV v :: l), (dn ++ [ASendV v]). rewrite <- app_assoc. repeat split; auto; [rewrite objAfter_app; reflexivity|].
        destruct (in_dec param_eq_dec p more); [contradiction|]. rewrite nsends_app. cbn. lia.
      * specialize (Hw q). destruct (ws q) as [|src' o' l']; cbn [wok pend] in *.
        -- intros Hq. destruct (Hw Hq) as [HX|HX]; [congruence|exact HX].
        -- destruct Hw as (Hq & l1 & d1 & A1 & A2 & A3 & A4). split; [auto|]. exists l1, d1. repeat split; auto.
           destruct (in_dec param_eq_dec q (p :: more)) as [[?|?]|Hno], (in_dec param_eq_dec q more); try congruence; try contradiction. exfalso. apply Hno. right. auto.
    + cbn [readOk]. exists src, (objAfter (Clone src) dn), l, (dn ++ ASendV v :: l), (dn ++ [ASendV v]). rewrite setw_same, <- app_assoc. repeat split; auto; [rewrite objAfter_app; reflexivity|rewrite nsends_app; cbn; lia|].
      apply in_app_iff. right. left. reflexivity.
    + intros q. unfold setw. destruct (param_eq_dec q p) as [->|]; [|apply Hs]. specialize (Hs p). rewrite Hst in Hs. exact Hs.
  - (* copy *)
    destruct Hm as (Hnd & Hin & _). cbn [uncopied] in Hnd, Hin, Hu. inversion Hnd as [|x y Hnp Hnd']; subst.
    set (m' := match more with [] => GDone | _ => GRecv more end). set (w := match v with Some x => x | None => o end).
    assert (HP : pend m' = more) by (unfold m'; destruct more; reflexivity). assert (HU : uncopied m' = more) by (unfold m'; destruct more; reflexivity).
    constructor; cbn [m_main m_O m_ws]; fold m'.
    + unfold mainOk. rewrite HU. split; [auto|]. split; [intros q Hq; apply Hin; right; auto|]. unfold m'. destruct more; discriminate.
    + intros q. specialize (Hw q). unfold wok in *. rewrite HP. exact Hw.
    + unfold m'. destruct more; exact I.
    + rewrite copy_others. exact Ho.
    + rewrite HU. intros q Hq. rewrite copy_other by (intros ->; contradiction). apply Hu. right. auto.
    + intros q. specialize (Hs q). unfold srcOk in *. destruct (ws q) as [|src' o' l']; auto. destruct Hs as (H1 & H2 & H3). split; [auto|]. split; [auto|].
      intros r. destruct (param_eq_dec r p) as [->|Hne]; [|rewrite copy_other by auto; apply H3]. left. destruct (H3 p) as [E|E]; [auto|]. rewrite E. apply Hu. left. reflexivity.
Qed.
Lemma inv_from s0 s : ginvs s0 -> gsteps acts s0 s -> ginvs s.
Proof. intros H ST. induction ST as [s|s s1 s2 ST IH S1]; auto. eapply step_inv; [apply IH, H|exact S1]. Qed.
Lemma inv_steps s : gsteps acts (ginit O0) s -> ginvs s.
Proof. apply inv_from, init_inv. Qed.

(** what each goroutine has read stays the same *)
Lemma src_step s s' p src o l : gstep acts s s' -> m_ws s p = PRun src o l -> exists o' l', m_ws s' p = PRun src o' l'.
Proof.
  intros ST E. destruct ST as [m O ws q l1 Hp Hst Ha|m O ws q src1 o1 v l1 Hst|O ws q more src1 o1 l1 Hst|O ws q more src1 o1 v l1 Hst|O ws q v more src1 o1 l1 Hst];
    cbn [m_main m_O m_ws] in *; try (destruct (param_eq_dec p q) as [->|Hne]; [rewrite setw_same; rewrite Hst in E; try discriminate E; injection E as <- <- <-; eauto|rewrite setw_other by auto; eauto]); eauto.
Qed.
Lemma src_steps s s' p src o l : gsteps acts s s' -> m_ws s p = PRun src o l -> exists o' l', m_ws s' p = PRun src o' l'.
Proof.
  intros ST E. induction ST as [s|s s1 s2 ST IH S1]; [eauto|]. destruct (IH E) as (o' & l' & E'). eapply src_step; eauto.
Qed.

(** *** once *)
(** every parameter step that has begun sends exactly once *)
Definition onceAll (s : gst) : Prop := forall p src o l, m_ws s p = PRun src o l -> forall l0, acts p src = Ok l0 -> nsends l0 = 1%nat.
Lemma once_back s s' : gstep acts s s' -> onceAll s' -> onceAll s.
Proof. intros ST H p src o l E l0 Ha. destruct (src_step s s' p src o l ST E) as (o' & l' & E'). eapply H; eauto. Qed.
(** what is read is what was sent *)
Lemma read_once s p v more : ginvs s -> onceAll s -> m_main s = GRead p v more -> forall src o l, m_ws s p = PRun src o l -> exists l0 w, acts p src = Ok l0 /\
  sends (Clone src) l0 = [w] /\ (w = Clone src \/ (inBox co w /\ sameBut p w (Clone src))) /\ match v with Some x => x | None => o end = w.
Proof.
  intros HI HO HM src o l E. destruct HI as [_ _ Hr _ _ _]. rewrite HM in Hr. destruct Hr as (src' & o' & l' & l0 & dn & E' & Ha & Hl & Hob & Hn & Hv).
  rewrite E in E'. injection E' as <- <- <-. pose proof (HO p src o l E l0 Ha) as H1. destruct (form_once co p src l0 (HF _ _ _ Ha) H1) as (w & Hw & HB & HD).
  exists l0, w. split; [auto|]. split; [auto|]. split; [auto|]. destruct (HD dn l Hl Hn) as [D1 D2]. destruct v as [x|]; [apply D2; auto|]. rewrite Hob. auto.
Qed.

(** *** the search box *)
Definition inP (q : param) (o : Options) : Prop :=
  match q with
  | PGamma => inF (o_gamma o) (g_gamma co) | PLambda => inF (o_lambda o) (g_lambda co) | PSubSample => inF (o_ss o) (g_ss co)
  | PColSubSample => inF (o_css o) (g_css co) | PLearningRate => inF (o_lr o) (g_lr co) | PRounds => inZ (o_rounds o) (g_rounds co)
  | _ => True end.
Definition inOth (o : Options) : Prop := inF (o_mcw o) (g_mcw co) /\ inZ (o_maxdepth o) (g_maxdepth co) /\ 1 <= o_minsample o.
Lemma box_split o : inBox co o <-> inOth o /\ forall q, inP q o.
Proof.
  unfold inBox, inOth. split.
  - intros (H1 & H2 & H3 & H4 & H5 & H6 & H7 & H8 & H9). split; [auto|]. intros q. destruct q; cbn; auto.
  - intros ((H6 & H8 & H9) & H). pose proof (H PGamma). pose proof (H PLambda). pose proof (H PSubSample). pose proof (H PColSubSample). pose proof (H PLearningRate). pose proof (H PRounds).
    cbn in *. repeat (split; [assumption|]). assumption.
Qed.
Lemma inP_eq q a b : paramOf q a = paramOf q b -> inP q a -> inP q b.
Proof. destruct q; cbn; intros E H; auto; injection E as <-; exact H. Qed.
Lemma inOth_eq a b : (o_mcw a, o_maxdepth a, o_minsample a) = (o_mcw b, o_maxdepth b, o_minsample b) -> inOth a -> inOth b.
Proof. unfold inOth. intros E. injection E as E1 E2 E3. rewrite E1, E2, E3. auto. Qed.
Lemma oth3 a b : othersOf a = othersOf b -> (o_mcw a, o_maxdepth a, o_minsample a) = (o_mcw b, o_maxdepth b, o_minsample b).
Proof. unfold othersOf. intros E. congruence. Qed.
Definition boxed (s : gst) : Prop := onceAll s -> (forall q, paramOf q (m_O s) = paramOf q O0) \/ inBox co (m_O s).
Lemma box_step s s' : ginvs s -> boxed s -> gstep acts s s' -> boxed s'.
Proof.
  intros HI HB ST HO. pose proof (once_back s s' ST HO) as HO1. specialize (HB HO1).
  destruct ST as [m O ws p l Hp Hst Ha|m O ws p src o v l Hst|O ws p more src o l Hst|O ws p more src o v l Hst|O ws p v more src o l Hst];
    cbn [m_main m_O m_ws] in *; auto.
  destruct (read_once _ p v more HI HO1 eq_refl src o l Hst) as (l0 & w & Ha & Hs & Hw & Hv). cbn [m_ws] in Hv. rewrite Hv. clear Hv.
  destruct HI as [Hm _ _ Ho Hu Hsrc]. cbn [m_main m_O m_ws] in *. pose proof (Hsrc p) as Hsp. rewrite Hst in Hsp. destruct Hsp as (S1 & S2 & S3).
  assert (Hup : paramOf p O = paramOf p O0) by (apply Hu; left; reflexivity). destruct Hw as [->|[Hbox Hsame]].
  - assert (HE : forall q, paramOf q (copyParam p (Clone src) O) = paramOf q O).
    { intros q. destruct (param_eq_dec q p) as [->|Hne]; [rewrite copy_same, paramOf_Clone; congruence|apply copy_other; auto]. }
    destruct HB as [HB|HB]; [left; intros q; rewrite HE; auto|]. right. apply box_split in HB as [B1 B2]. apply box_split. split.
    + eapply inOth_eq; [|exact B1]. apply oth3. rewrite copy_others. reflexivity.
    + intros q. eapply inP_eq; [symmetry; apply HE|apply B2].
  - right. apply box_split in Hbox as [B1 B2]. destruct Hsame as [E1 E2]. apply box_split. split.
    + eapply inOth_eq; [|exact B1]. rewrite (oth3 _ _ E1). change (o_mcw (Clone src), o_maxdepth (Clone src), o_minsample (Clone src)) with (o_mcw src, o_maxdepth src, o_minsample src). rewrite (oth3 _ _ S1). symmetry. apply oth3. rewrite copy_others. exact Ho.
    + intros q. destruct (param_eq_dec q p) as [->|Hne]; [eapply inP_eq; [symmetry; apply copy_same|apply B2]|].
      eapply inP_eq; [symmetry; apply copy_other; auto|]. pose proof (B2 q) as Bq. assert (EQ : paramOf q w = paramOf q src) by (rewrite (E2 q Hne); apply paramOf_Clone).
      destruct (S3 q) as [S3'|S3'].
      * destruct HB as [HB|HB]; [eapply inP_eq; [|exact Bq]; congruence|apply box_split in HB as [_ HB]; apply HB].
      * eapply inP_eq; [|exact Bq]. congruence.
Qed.
Lemma box_steps s : gsteps acts (ginit O0) s -> boxed s.
Proof.
  intros ST. remember (ginit O0) as s0 eqn:E0. induction ST as [s|s s1 s2 ST IH S1]; subst.
  - intros _. left. auto.
  - eapply box_step; [apply inv_steps; exact ST|auto|exact S1].
Qed.

(** *** determinism when everything is read at the start *)
Definition allSrc (s : gst) : Prop := forall p src o l, m_ws s p = PRun src o l -> src = O0.
Lemma allSrc_back s s' : gstep acts s s' -> allSrc s' -> allSrc s.
Proof. intros ST H p src o l E. destruct (src_step s s' p src o l ST E) as (o' & l' & E'). eapply H; eauto. Qed.
Definition copied (s : gst) : Prop := onceAll s -> allSrc s -> forall p, In p gradOrder -> ~ In p (uncopied (m_main s)) ->
  exists l0 w, acts p O0 = Ok l0 /\ sends (Clone O0) l0 = [w] /\ paramOf p (m_O s) = paramOf p w.
Lemma copied_step s s' : ginvs s -> copied s -> gstep acts s s' -> copied s'.
Proof.
  intros HI HB ST HO HA. pose proof (once_back s s' ST HO) as HO1. pose proof (allSrc_back s s' ST HA) as HA1. specialize (HB HO1 HA1).
  destruct ST as [m O ws p l Hp Hst Ha|m O ws p src o v l Hst|O ws p more src o l Hst|O ws p more src o v l Hst|O ws p v more src o l Hst];
    cbn [m_main m_O m_ws uncopied] in *; auto.
  destruct (read_once _ p v more HI HO1 eq_refl src o l Hst) as (l0 & w & Ha & Hs & Hw & Hv). cbn [m_ws] in Hv. rewrite Hv. clear Hv.
  assert (src = O0) as -> by (eapply HA1; exact Hst).
  intros q Hq Hnq. destruct (param_eq_dec q p) as [->|Hne]; [exists l0, w; rewrite copy_same; auto|]. rewrite copy_other by auto. apply HB; auto.
  intros [E|E]; [congruence|]. apply Hnq. destruct more; [destruct E|exact E].
Qed.
Lemma copied_steps s : gsteps acts (ginit O0) s -> copied s.
Proof.
  intros ST. remember (ginit O0) as s0 eqn:E0. induction ST as [s|s s1 s2 ST IH S1]; subst.
  - intros _ _ p Hp Hn. contradiction.
  - eapply copied_step; [apply inv_steps; exact ST|auto|exact S1].
Qed.

(** *** no deadlock, and goroutines that never end *)
Lemma progress s : gsteps acts (ginit O0) s -> m_main s = GDone \/ (exists s', gstep acts s s') \/
  exists p, In p gradOrder /\ m_ws s p = PStart /\ forall l, acts p (m_O s) <> Ok l.
Proof.
  intros ST. apply inv_steps in ST. destruct ST as [Hm Hw Hr _ _ _]. destruct s as [m O ws]. cbn [m_main m_O m_ws] in *. destruct m as [[|p more]|p v more|]; auto.
  - destruct Hm as (_ & _ & Hm). congruence.
  - right. destruct Hm as (_ & Hin & _). assert (Hp : In p gradOrder) by (apply Hin; left; reflexivity). pose proof (Hw p) as Hwp. destruct (ws p) as [|src o l] eqn:E.
    + destruct (acts p O) as [l| |] eqn:Ea.
      * left. eexists. eapply gs_read; eauto.
      * right. exists p. repeat split; auto. rewrite Ea. discriminate.
      * right. exists p. repeat split; auto. rewrite Ea. discriminate.
    + left. destruct Hwp as (_ & l0 & dn & Ha & -> & _ & Hn). destruct (in_dec param_eq_dec p (pend (GRecv (p :: more)))) as [_|Hno]; [|exfalso; apply Hno; left; reflexivity].
      pose proof (form_sends _ _ _ _ (HF _ _ _ Ha)) as Hf. rewrite nsends_app in Hf. destruct l as [|[|x|x] l]; [cbn in Hf; lia| | |].
      * eexists. eapply gs_recv0; eauto.
      * eexists. eapply gs_mut; eauto.
      * eexists. eapply gs_recvV; eauto.
  - right. left. destruct Hr as (src & o & l & _ & _ & E & _). eexists. eapply gs_copy; eauto.
Qed.
Lemma never_ends s p src o l l0 : gsteps acts (ginit O0) s -> m_ws s p = PRun src o l -> acts p src = Ok l0 -> (2 <= nsends l0)%nat -> ~ ended (m_ws s p).
Proof.
  intros ST E Ha H2 HE. apply inv_steps in ST. destruct ST as [_ Hw _ _ _ _]. specialize (Hw p). rewrite E in *. destruct Hw as (_ & l1 & dn & Ha' & Hl & _ & Hn).
  rewrite Ha in Ha'. injection Ha' as <-. cbn in HE. destruct l; [|destruct HE]. rewrite app_nil_r in Hl. subst l0. destruct (in_dec _ _ _); lia.
Qed.

(** *** the execution of the sequential model *)
Lemma gsteps_trans s1 s2 s3 : gsteps acts s1 s2 -> gsteps acts s2 s3 -> gsteps acts s1 s3.
Proof. intros H1 H2. revert H1. induction H2 as [|s s' s'' H2 IH S]; intros; auto. eapply gs_more; [apply IH; auto|exact S]. Qed.
Lemma gsteps_one s1 s2 : gstep acts s1 s2 -> gsteps acts s1 s2.
Proof. intros. eapply gs_more; [apply gs_refl|auto]. Qed.
Lemma read_all ps : NoDup ps -> (forall p, In p ps -> In p gradOrder /\ exists l, acts p O0 = Ok l) -> forall m ws, (forall p, In p ps -> ws p = PStart) ->
  exists ws', gsteps acts (MkG m O0 ws) (MkG m O0 ws') /\ (forall p, In p ps -> exists l, acts p O0 = Ok l /\ ws' p = PRun O0 (Clone O0) l) /\ (forall p, ~ In p ps -> ws' p = ws p).
Proof.
  induction ps as [|p ps IH]; intros HN HP m ws HS.
  - exists ws. split; [apply gs_refl|]. split; [intros p []|auto].
  - inversion HN as [|x y Hnp HN']; subst. destruct (HP p (or_introl eq_refl)) as (Hp & l & Hl).
    destruct (IH HN' (fun q Hq => HP q (or_intror Hq)) m (setw ws p (PRun O0 (Clone O0) l))) as (ws' & H1 & H2 & H3).
    { intros q Hq. rewrite setw_other; [apply HS; right; auto|]. intros ->. contradiction. }
    exists ws'. split; [|split].
    + eapply gsteps_trans; [|exact H1]. apply gsteps_one. apply gs_read; auto. apply HS. left. reflexivity.
    + intros q [->|Hq]; [|apply H2; auto]. exists l. split; [auto|]. rewrite H3 by auto. apply setw_same.
    + intros q Hq. rewrite H3 by (intros ?; apply Hq; right; auto). apply setw_other. intros ->. apply Hq. left. reflexivity.
Qed.
(** one parameter: its changes, the receive and the copy *)
Lemma one_param l0 : forall c p more O ws v vs, ws p = PRun O0 c l0 -> sends c l0 = v :: vs ->
  exists ws', gsteps acts (MkG (GRecv (p :: more)) O ws) (MkG (match more with [] => GDone | _ => GRecv more end) (copyParam p v O) ws') /\ (forall q, q <> p -> ws' q = ws q).
Proof.
  induction l0 as [|[|x|x] l0 IH]; intros c p more O ws v vs E HS; cbn [sends] in HS.
  - discriminate HS.
  - injection HS as <- HS. exists (setw ws p (PRun O0 c l0)). split; [|intros; apply setw_other; auto].
    eapply gs_more; [apply gsteps_one; eapply gs_recv0; exact E|]. exact (gs_copy acts O _ p None more O0 c l0 (setw_same _ _ _)).
  - destruct (IH x p more O (setw ws p (PRun O0 x l0)) v vs) as (ws' & H1 & H2); [apply setw_same|exact HS|]. exists ws'. split.
    + eapply gsteps_trans; [|exact H1]. apply gsteps_one. eapply gs_mut. exact E.
    + intros q Hq. rewrite H2 by auto. apply setw_other; auto.
  - injection HS as <- HS. exists (setw ws p (PRun O0 c l0)). split; [|intros; apply setw_other; auto].
    eapply gs_more; [apply gsteps_one; eapply gs_recvV; exact E|]. exact (gs_copy acts O _ p (Some x) more O0 c l0 (setw_same _ _ _)).
Qed.
Definition seqBody (acc : Options) (p : param) : res Options :=
  l <- (l <- acts p O0 ;; Ok (sends (Clone O0) l)) ;; match l with v :: _ => Ok (copyParam p v acc) | [] => Diverge end.
Lemma all_params ps : forall O ws O', ps <> [] -> NoDup ps -> (forall p, In p ps -> exists l, acts p O0 = Ok l /\ ws p = PRun O0 (Clone O0) l) ->
  foldM seqBody O ps = Ok O' -> exists ws', gsteps acts (MkG (GRecv ps) O ws) (MkG GDone O' ws').
Proof.
  induction ps as [|p ps IH]; intros O ws O' Hne HN HW H; [congruence|]. cbn [foldM] in H. apply bind_Ok in H as (O1 & H1 & H).
  destruct (HW p (or_introl eq_refl)) as (l & Hl & Hp). unfold seqBody in H1. rewrite Hl in H1. cbn [bind] in H1. destruct (sends (Clone O0) l) as [|v vs] eqn:Es; [discriminate H1|]. injection H1 as <-.
  destruct (one_param l (Clone O0) p ps O ws v vs Hp Es) as (ws1 & S1 & S2). inversion HN as [|x y Hnp HN']; subst. destruct ps as [|p2 ps].
  - injection H as <-. eauto.
  - destruct (IH (copyParam p v O) ws1 O' ltac:(discriminate) HN') as (ws' & HS); [|exact H|].
    + intros q Hq. destruct (HW q (or_intror Hq)) as (l' & Hl' & Hq'). exists l'. split; [auto|]. rewrite S2; [auto|]. intros ->. contradiction.
    + exists ws'. eapply gsteps_trans; [exact S1|exact HS].
Qed.
Lemma seq_fold_acts ps : forall O O', foldM seqBody O ps = Ok O' -> forall p, In p ps -> exists l, acts p O0 = Ok l.
Proof.
  induction ps as [|p ps IH]; intros O O' H q Hq; [destruct Hq|]. cbn [foldM] in H. apply bind_Ok in H as (O1 & H1 & H). destruct Hq as [<-|Hq]; [|eapply IH; eauto].
  unfold seqBody in H1. destruct (acts p O0) as [l| |]; [eauto| |]; discriminate H1.
Qed.
Lemma seq_exists O' : foldM seqBody O0 gradOrder = Ok O' -> exists s1 s, gsteps acts (ginit O0) s1 /\ m_main s1 = GRecv gradOrder /\ (forall p, In p gradOrder -> m_ws s1 p <> PStart) /\
  gsteps acts s1 s /\ m_main s = GDone /\ m_O s = O'.
Proof.
  intros H. destruct (read_all gradOrder gradOrder_NoDup) with (m := GRecv gradOrder) (ws := fun _ : param => PStart) as (ws' & H1 & H2 & _).
  - intros p Hp. split; [auto|]. eapply seq_fold_acts; eauto.
  - auto.
  - destruct (all_params gradOrder O0 ws' O') as (ws'' & H3); [discriminate|exact gradOrder_NoDup|exact H2|exact H|].
    exists (MkG (GRecv gradOrder) O0 ws'), (MkG GDone O' ws''). split; [exact H1|]. split; [reflexivity|]. split; [|auto].
    intros p Hp. destruct (H2 p Hp) as (l & _ & E). cbn. rewrite E. discriminate.
Qed.
Lemma seq_result ps : forall O O', NoDup ps -> foldM seqBody O ps = Ok O' -> othersOf O' = othersOf O /\ (forall q, ~ In q ps -> paramOf q O' = paramOf q O) /\
  forall q, In q ps -> exists l v vs, acts q O0 = Ok l /\ sends (Clone O0) l = v :: vs /\ paramOf q O' = paramOf q v.
Proof.
  induction ps as [|p ps IH]; intros O O' HN H; cbn [foldM] in H.
  - injection H as <-. split; [auto|]. split; [auto|]. intros q [].
  - apply bind_Ok in H as (O1 & H1 & H). inversion HN as [|x y Hnp HN']; subst. destruct (IH O1 O' HN' H) as (A1 & A2 & A3).
    unfold seqBody in H1. apply bind_Ok in H1 as (l' & H1' & H1). apply bind_Ok in H1' as (l & Hl & H1'). injection H1' as <-.
    destruct (sends (Clone O0) l) as [|v vs] eqn:Es; [discriminate H1|]. injection H1 as <-.
    split; [rewrite A1; apply copy_others|]. split.
    + intros q Hq. rewrite A2 by (intros ?; apply Hq; right; auto). apply copy_other. intros ->. apply Hq. left. reflexivity.
    + intros q [<-|Hq]; [|auto]. exists l, v, vs. rewrite A2 by auto. rewrite copy_same. auto.
Qed.
Lemma seq_determined s O' : gsteps acts (ginit O0) s -> m_main s = GDone -> onceAll s -> allSrc s -> foldM seqBody O0 gradOrder = Ok O' -> m_O s = O'.
Proof.
  intros ST HD HO HA HS. pose proof (inv_steps s ST) as HI. pose proof (copied_steps s ST HO HA) as HC. destruct (seq_result gradOrder O0 O' gradOrder_NoDup HS) as (A1 & A2 & A3).
  apply opts_ext; [rewrite A1; apply (gi_oth s HI)|]. intros q. destruct (in_dec param_eq_dec q gradOrder) as [Hq|Hq].
  - destruct (HC q Hq) as (l0 & w & B1 & B2 & B3); [rewrite HD; auto|]. destruct (A3 q Hq) as (l & v & vs & C1 & C2 & C3). congruence.
  - destruct q; cbn in Hq; try (exfalso; apply Hq; tauto); reflexivity.
Qed.
(** the records read by parameter steps that begin before the first receive *)
Lemma early_src s : gsteps acts (ginit O0) s -> m_main s = GRecv gradOrder -> allSrc s.
Proof.
  intros ST HM p src o l E. pose proof (inv_steps s ST) as HI. pose proof (gi_src s HI p) as HS. rewrite E in HS. destruct HS as (H1 & _ & H3). apply opts_ext; auto.
  intros q. destruct (H3 q) as [H|H]; [auto|]. rewrite H. destruct (in_dec param_eq_dec q gradOrder) as [Hq|Hq]; [apply (gi_unc s HI); rewrite HM; auto|].
  destruct q; cbn in Hq; try (exfalso; apply Hq; tauto); reflexivity.
Qed.
Lemma started_src s1 s : gsteps acts (ginit O0) s1 -> m_main s1 = GRecv gradOrder -> (forall p, In p gradOrder -> m_ws s1 p <> PStart) -> gsteps acts s1 s -> allSrc s.
Proof.
  intros ST HM HA ST2 p src o l E. pose proof (inv_from s1 s (inv_steps s1 ST) ST2) as HI. pose proof (gi_w s HI p) as Hw. rewrite E in Hw. destruct Hw as (Hp & _).
  destruct (m_ws s1 p) as [|src1 o1 l1] eqn:E1; [exfalso; eapply HA; eauto|]. destruct (src_steps s1 s p src1 o1 l1 ST2 E1) as (o' & l' & E'). rewrite E in E'. injection E' as <- _ _.
  eapply early_src; eauto.
Qed.
End Machine.
