(** Proofs about GradientGrid and HybridGradientGrid. *)
From Coq Require Import Reals Lra FunctionalExtensionality.
From Verif Require Import Base F64 F64Lemmas Env EnvLemmas Utils Tree Options Train Spec CV SpecCV Grid SpecGrid GridProofs Grad GradConc SpecGrad GradProofs.
Open Scope Z_scope.

Lemma increasing_app l : forall lo a, increasing lo l -> fltb (last l lo) a = true -> increasing lo (l ++ [a]).
Proof.
  induction l as [|x l IH]; intros lo a H1 H2; cbn [increasing app last] in *; [auto|]. destruct H1 as [H1 H3]. split; auto. apply IH; auto.
  destruct l as [|y l]; [exact H2|]. rewrite <- H2. f_equal. clear. revert y. induction l as [|z l IH]; intros y; [reflexivity|]. cbn [last] in *. auto.
Qed.
Lemma last_snoc {A} (l : list A) a d : last (l ++ [a]) d = a. Proof. apply last_last. Qed.
Lemma last_rev {A} (l : list A) d : last l d = match rev l with [] => d | a :: _ => a end.
Proof. rewrite <- (rev_involutive l) at 1. destruct (rev l) as [|a t]; [reflexivity|]. cbn [rev]. apply last_last. Qed.
Lemma load_ok t s o : load t s = Ok o <-> nth_error (h_heap s) t = Some o.
Proof. unfold load. apply idx_of_nat. Qed.

Section Search.
Context (cv : nat -> Options -> res cvRet) (gstep : nat -> Options -> res Options) (fz : nat -> nat -> f64 * bool).

(** the part of the state the statements are about *)
Record SI (s : hs) : Prop := MkSI {
  si_inc : increasing fzero (h_accs s);
  si_last : h_best s = last (h_accs s) fzero;
  si_fin : h_final s = None <-> h_accs s = [];
  si_ev : forall k o o' a, nth_error (h_evals s) k = Some (o, o', a) ->
     exists c, cv k o = Ok c /\ cv_err c = false /\ cv_acc c = a /\ o' = match cv_opts c with Some x => x | None => o end;
  si_max : forall o o' a, In (o, o', a) (h_evals s) -> fltb (h_best s) a = false;
  si_in : forall a, In a (h_accs s) -> exists o o', In (o, o', a) (h_evals s) }.
Definition ErrAt (s : hs) : Prop := (forall k o o' a, nth_error (h_evals s) k = Some (o, o', a) ->
     exists c, cv k o = Ok c /\ cv_err c = false /\ cv_acc c = a /\ o' = match cv_opts c with Some x => x | None => o end) /\
  exists o c, cv (length (h_evals s)) o = Ok c /\ cv_err c = true.
Definition prefix (s s' : hs) : Prop := exists l, h_evals s' = h_evals s ++ l.
Lemma prefix_refl s : prefix s s. Proof. exists []. rewrite app_nil_r. reflexivity. Qed.
Lemma prefix_trans a b c : prefix a b -> prefix b c -> prefix a c.
Proof. intros (l1 & H1) (l2 & H2). exists (l1 ++ l2). rewrite H2, H1, app_assoc. reflexivity. Qed.

Lemma SI_same s s' : h_accs s' = h_accs s -> h_best s' = h_best s -> h_final s' = h_final s -> h_evals s' = h_evals s -> SI s -> SI s'.
Proof. intros H1 H2 H3 H4 [A1 A2 A3 A4 A5 A6]. constructor; rewrite ?H1, ?H2, ?H3, ?H4; auto. Qed.
Lemma fuzzAt_inv perc t s s' : fuzzAt fz perc t s = Ok s' -> h_accs s' = h_accs s /\ h_best s' = h_best s /\ h_final s' = h_final s /\ h_evals s' = h_evals s.
Proof. unfold fuzzAt. intros H. apply bind_Ok in H as (o & _ & H). injection H as <-. cbn. auto. Qed.

Lemma compare_inv t tp s r s' : compareAccs cv fz t tp s = Ok (r, s') -> SI s ->
  match r with
  | None => ErrAt s' /\ prefix s s'
  | Some _ => SI s' /\ prefix s s' /\ forall o, load t s = Ok o -> exists o' a, In (o, o', a) (h_evals s')
  end.
Proof.
  unfold compareAccs. intros H HI. apply bind_Ok in H as (o & Ho & H). apply bind_Ok in H as (c & Hc & H).
  destruct (cv_err c) eqn:Ee.
  - injection H as <- <-. split; [|exists []; cbn; rewrite app_nil_r; reflexivity]. split; [apply (si_ev s HI)|]. exists o, c. auto.
  - set (o' := match cv_opts c with Some x => x | None => o end) in *. cbn [h_heap h_accs h_best h_final h_evals h_steps h_fuzz store] in H.
    set (s1 := MkHS (upd_nat (h_heap s) t o') (h_accs s) (h_best s) (h_final s) (h_evals s ++ [(o, o', cv_acc c)]) (h_steps s) (h_fuzz s)) in *.
    assert (EV : forall k x x' a, nth_error (h_evals s ++ [(o, o', cv_acc c)]) k = Some (x, x', a) ->
      exists c, cv k x = Ok c /\ cv_err c = false /\ cv_acc c = a /\ x' = match cv_opts c with Some y => y | None => x end).
    { intros k x x' a Hk. destruct (Nat.lt_ge_cases k (length (h_evals s))) as [Hlt|Hge].
      - rewrite nth_error_app1 in Hk by auto. apply (si_ev s HI) in Hk. exact Hk.
      - rewrite nth_error_app2 in Hk by auto. destruct (k - length (h_evals s))%nat as [|n] eqn:E0; [|destruct n; discriminate Hk].
        injection Hk as <- <- <-. replace k with (length (h_evals s)) by lia. exists c. auto. }
    assert (PF : prefix s s1) by (eexists; reflexivity).
    assert (IN : forall x, load t s = Ok x -> exists x' a, In (x, x', a) (h_evals s1)).
    { intros x Hx. assert (x = o) as -> by congruence. exists o', (cv_acc c). cbn. apply in_app_iff. right. left. auto. }
    assert (SAME : fltb (h_best s) (cv_acc c) = false -> SI s1).
    { intros HN. destruct HI as [A1 A2 A3 A4 A5 A6]. constructor; cbn; auto.
      - intros x x' a Ha. apply in_app_iff in Ha as [Ha|[Ha|[]]]; [eauto|]. injection Ha as <- <- <-. exact HN.
      - intros a Ha. apply A6 in Ha as (x & x' & Ha). exists x, x'. apply in_app_iff. auto. }
    destruct (match rev (h_accs s) with [] => false | la :: _ => fltb (cv_acc c) la end) eqn:Er.
    + apply bind_Ok in H as (s2 & Hf & H). injection H as <- <-. apply fuzzAt_inv in Hf as (F1 & F2 & F3 & F4).
      assert (SI s1).
      { apply SAME. pose proof (si_last s HI) as HL. rewrite last_rev in HL. destruct (rev (h_accs s)) as [|la l]; [discriminate Er|]. rewrite HL.
        destruct (fltb la (cv_acc c)) eqn:E2; auto. pose proof (fltb_trans _ _ _ Er E2) as E3. rewrite fltb_irrefl in E3. discriminate E3. }
      split; [eapply SI_same; eauto|]. split; [destruct PF as (l & HP); exists l; congruence|]. intros x Hx. rewrite F4. auto.
    + destruct (fltb (h_best s) (cv_acc c)) eqn:Eb.
      * injection H as <- <-. split; [|split; [exact PF|exact IN]]. destruct HI as [A1 A2 A3 A4 A5 A6]. constructor; cbn [h_accs h_best h_final h_evals].
        -- apply increasing_app; auto. rewrite <- A2. exact Eb.
        -- rewrite last_last. reflexivity.
        -- split; [discriminate|]. intros E0. destruct (h_accs s); discriminate E0.
        -- exact EV.
        -- intros x x' a Ha. cbn in Ha. apply in_app_iff in Ha as [Ha|[Ha|[]]].
           ++ apply A5 in Ha. destruct (fltb (cv_acc c) a) eqn:E2; auto. rewrite (fltb_trans _ _ _ Eb E2) in Ha. exact Ha.
           ++ injection Ha as <- <- <-. apply fltb_irrefl.
        -- intros a Ha. apply in_app_iff in Ha as [Ha|[<-|[]]].
           ++ apply A6 in Ha as (x & x' & Ha). exists x, x'. cbn. apply in_app_iff. auto.
           ++ exists o, o'. cbn. apply in_app_iff. right. left. reflexivity.
      * injection H as <- <-. auto.
Qed.

Lemma climbSteps_inv : forall n k t s r, climbSteps cv gstep fz n k t s = Ok r -> SI s ->
  match r with inl s' => SI s' /\ prefix s s' | inr s' => ErrAt s' end.
Proof.
  induction n as [|n IH]; intros k t s r H HI; cbn [climbSteps] in H.
  - injection H as <-. split; [auto|apply prefix_refl].
  - apply bind_Ok in H as (o & Ho & H). unfold alloc in H. cbn [h_heap h_accs h_best h_final h_evals h_steps h_fuzz] in H.
    apply bind_Ok in H as (o' & Ho' & H). cbn [h_heap h_accs h_best h_final h_evals h_steps h_fuzz store] in H. apply bind_Ok in H as (o1 & Ho1 & H).
    set (s1 := MkHS _ _ _ _ _ _ _) in H, Ho1. assert (H1 : SI s1) by (eapply SI_same; [| | | |exact HI]; reflexivity).
    assert (P1 : prefix s s1) by (exists []; cbn; rewrite app_nil_r; reflexivity).
    destruct (Equal o' o1).
    + apply bind_Ok in H as (s2 & Hf & H). apply fuzzAt_inv in Hf as (F1 & F2 & F3 & F4). assert (H2 : SI s2) by (eapply SI_same; eauto).
      assert (P2 : prefix s s2) by (destruct P1 as (l & HP); exists l; congruence).
      destruct (k + 1 =? 3); [injection H as <-; auto|]. apply IH in H; auto. destruct r; auto. destruct H; split; auto. eapply prefix_trans; eauto.
    + apply bind_Ok in H as ([r1 s2] & Hc & H). apply compare_inv in Hc; auto. destruct r1 as [t'|].
      * destruct Hc as (H2 & P2 & _). apply IH in H; [|exact H2]. destruct r as [s3|s3]; [|exact H]. destruct H as [H3 P3]. split; [exact H3|]. eapply prefix_trans; [exact P1|]. eapply prefix_trans; [exact P2|exact P3].
      * injection H as <-. apply Hc.
Qed.
Lemma climb_inv n o s r : climb cv gstep fz n o s = Ok r -> SI s ->
  match r with inl s' => SI s' /\ prefix s s' /\ exists o' a, In (o, o', a) (h_evals s') | inr s' => ErrAt s' end.
Proof.
  unfold climb, alloc. cbn [h_heap h_accs h_best h_final h_evals h_steps h_fuzz]. intros H HI. apply bind_Ok in H as ([r1 s2] & Hc & H).
  apply compare_inv in Hc; [|eapply SI_same; [| | | |exact HI]; reflexivity]. destruct r1 as [t'|].
  - destruct Hc as (H2 & P2 & H3). destruct (H3 o) as (o' & a & Ha).
    { apply load_ok. cbn [h_heap]. rewrite nth_error_app1 by (rewrite app_length; cbn; lia). rewrite nth_error_app2 by lia. rewrite Nat.sub_diag. reflexivity. }
    apply climbSteps_inv in H; auto. destruct r as [s'|s']; auto. destruct H as [H4 H5]. split; auto. split; [eapply prefix_trans; [|exact H5]; exact P2|].
    destruct H5 as (l & H5). exists o', a. rewrite H5. apply in_app_iff. auto.
  - injection H as <-. apply Hc.
Qed.

(** a loop whose body keeps the invariant and does [P x] at [x] *)
Section Loop.
Context {A : Type} (le : A -> A -> bool) (add : A -> A -> A).
Definition bodyOk (P : A -> hs -> Prop) (b : A -> hs -> res (hs + hs)) : Prop :=
  forall x s r, b x s = Ok r -> SI s -> match r with inl s' => SI s' /\ prefix s s' /\ P x s' | inr s' => ErrAt s' end.
Lemma loop_inv hi st (P : A -> hs -> Prop) b : bodyOk P b -> (forall x s s', P x s -> prefix s s' -> P x s') ->
  forall fuel x s r, forLoop le add fuel x hi st b s = Ok r -> SI s ->
  match r with inl s' => SI s' /\ prefix s s' /\ forall l, progression le add hi st x l -> forall y, In y l -> P y s' | inr s' => ErrAt s' end.
Proof.
  intros HB HP. induction fuel as [|f IH]; intros x s r H HI; [discriminate H|]. cbn [forLoop] in H. destruct (le x hi) eqn:El.
  - apply bind_Ok in H as (q & Hq & H). apply (HB _ _ _) in Hq; [|exact HI]. destruct q as [s1|s1]; [|injection H as <-; exact Hq].
    destruct Hq as (H1 & H2 & H3). apply IH in H; [|exact H1]. destruct r as [s2|s2]; [|exact H]. destruct H as (H4 & H5 & H6). split; auto. split; [eapply prefix_trans; eauto|].
    intros l Hl y Hy. inversion Hl as [z Hz|z l' Hz Hl']; subst; [destruct Hy|]. destruct Hy as [<-|Hy]; [eapply HP; eauto|eapply H6; eauto].
  - injection H as <-. split; auto. split; [apply prefix_refl|]. intros l Hl y Hy. inversion Hl as [z Hz|z l' Hz Hl']; subst; [destruct Hy|congruence].
Qed.
End Loop.
Lemma SI0 : SI hs0.
Proof. constructor; cbn; auto; try tauto; try (intros; contradiction). intros [|k] o o' a H; discriminate H. Qed.
Definition seen (o : Options) (s : hs) : Prop := exists o' a, In (o, o', a) (h_evals s).
Lemma seen_prefix o s s' : seen o s -> prefix s s' -> seen o s'.
Proof. intros (o' & a & H) (l & Hl). exists o', a. rewrite Hl. apply in_app_iff. auto. Qed.
Lemma climb_body {A} n (f : A -> Options) : bodyOk (fun x s => seen (f x) s) (fun x => climb cv gstep fz n (f x)).
Proof. intros x s r H HI. apply climb_inv in H; auto. Qed.

Lemma finish_ok q r : ggFinish q = Ok r -> match q with inl s => SI s | inr s => ErrAt s end -> searchOk cv r.
Proof.
  destruct q as [s|s]; cbn [ggFinish]; intros H HI.
  - destruct (h_final s) as [t|] eqn:Ef; [apply bind_Ok in H as (o & Ho & H)|]; injection H as <-; (split; [exact (si_ev s HI)|]); cbn; destruct HI as [A1 A2 A3 A4 A5 A6];
      (split; [auto|split; [auto|split; [|split; auto]]]).
    + split; [discriminate|]. intros E. apply A3 in E. congruence.
    + tauto.
  - injection H as <-. destruct HI as [H1 H2]. split; [exact H1|]. cbn. auto.
Qed.
Lemma gg_search fuel id o r : GradientGridWith cv gstep fz fuel id o = Ok r -> searchOk cv r /\
  (gg_err r = false -> forall lw ld, rangeF (g_mcw o) lw -> rangeZ (g_maxdepth o) ld -> forall cw md, In cw lw -> In md ld ->
     exists o' a, In (gradStart id o cw md, o', a) (gg_evals r)).
Proof.
  unfold GradientGridWith. intros H. apply bind_Ok in H as (q & Hq & H).
  assert (HI : match q with inl s' => SI s' /\ prefix hs0 s' /\ forall l, rangeF (g_mcw o) l -> forall cw, In cw l ->
     forall l2, rangeZ (g_maxdepth o) l2 -> forall md, In md l2 -> seen (gradStart id o cw md) s' | inr s' => ErrAt s' end).
  { unfold forF in Hq. eapply (loop_inv fleb fadd _ _ (fun cw s => forall l2, rangeZ (g_maxdepth o) l2 -> forall md, In md l2 -> seen (gradStart id o cw md) s)) in Hq;
      [exact Hq| | |exact SI0].
    - intros cw s r1 H1 HI. unfold forZ in H1. eapply (loop_inv Z.leb Z.add _ _ (fun md s => seen (gradStart id o cw md) s)) in H1; [exact H1| | |exact HI].
      + apply (climb_body (g_nsteps o) (gradStart id o cw)).
      + intros; eapply seen_prefix; eauto.
    - intros x s s' HP HX l2 Hl md Hmd. eapply seen_prefix; eauto. }
  split.
  - apply (finish_ok q r H). destruct q; [apply HI|exact HI].
  - intros He lw ld Hw Hd cw md Hcw Hmd. destruct q as [s|s].
    + destruct HI as (_ & _ & HI). destruct (HI lw Hw cw Hcw ld Hd md Hmd) as (o' & a & Ha). exists o', a. cbn [ggFinish] in H.
      destruct (h_final s); [apply bind_Ok in H as (o1 & _ & H)|]; injection H as <-; exact Ha.
    + injection H as <-. discriminate He.
Qed.
Lemma hyb_search fuel id o r : HybridGradientGridWith cv gstep fz fuel id o = Ok r -> searchOk cv r /\
  (gg_err r = false -> forall lr lw ld ll, rangeZ (g_rounds o) lr -> rangeF (g_mcw o) lw -> rangeZ (g_maxdepth o) ld -> rangeF (g_lambda o) ll ->
     forall rounds cw md lam, In rounds lr -> In cw lw -> In md ld -> In lam ll ->
     exists o' a, In (hybridStart id o rounds cw md lam, o', a) (gg_evals r)).
Proof.
  unfold HybridGradientGridWith. intros H. apply bind_Ok in H as (q & Hq & H).
  set (P4 := fun rounds cw md lam s => seen (hybridStart id o rounds cw md lam) s).
  set (P3 := fun rounds cw md s => forall l, rangeF (g_lambda o) l -> forall lam, In lam l -> P4 rounds cw md lam s).
  set (P2 := fun rounds cw s => forall l, rangeZ (g_maxdepth o) l -> forall md, In md l -> P3 rounds cw md s).
  set (P1 := fun rounds s => forall l, rangeF (g_mcw o) l -> forall cw, In cw l -> P2 rounds cw s).
  assert (M4 : forall rounds cw md lam s s', P4 rounds cw md lam s -> prefix s s' -> P4 rounds cw md lam s') by (intros; eapply seen_prefix; eauto).
  assert (M3 : forall rounds cw md s s', P3 rounds cw md s -> prefix s s' -> P3 rounds cw md s') by (intros ? ? ? ? ? HP HX l Hl x Hx; eapply M4; [exact (HP l Hl x Hx)|exact HX]).
  assert (M2 : forall rounds cw s s', P2 rounds cw s -> prefix s s' -> P2 rounds cw s') by (intros ? ? ? ? HP HX l Hl x Hx; eapply M3; [exact (HP l Hl x Hx)|exact HX]).
  assert (M1 : forall rounds s s', P1 rounds s -> prefix s s' -> P1 rounds s') by (intros ? ? ? HP HX l Hl x Hx; eapply M2; [exact (HP l Hl x Hx)|exact HX]).
  assert (HI : match q with inl s' => SI s' /\ prefix hs0 s' /\ forall l, rangeZ (g_rounds o) l -> forall rounds, In rounds l -> P1 rounds s' | inr s' => ErrAt s' end).
  { unfold forZ in Hq. eapply (loop_inv Z.leb Z.add _ _ P1) in Hq; [exact Hq| |exact M1|exact SI0].
    intros rounds s1 r1 H1 HI1. unfold forF in H1. eapply (loop_inv fleb fadd _ _ (P2 rounds)) in H1; [exact H1| |apply M2|exact HI1].
    intros cw s2 r2 H2 HI2. eapply (loop_inv Z.leb Z.add _ _ (P3 rounds cw)) in H2; [exact H2| |apply M3|exact HI2].
    intros md s3 r3 H3 HI3. eapply (loop_inv fleb fadd _ _ (P4 rounds cw md)) in H3; [exact H3| |apply M4|exact HI3].
    apply (climb_body (g_nsteps o) (hybridStart id o rounds cw md)). }
  split.
  - apply (finish_ok q r H). destruct q; [apply HI|exact HI].
  - intros He lr lw ld ll Hr Hw Hd Hl rounds cw md lam I1 I2 I3 I4. destruct q as [s|s].
    + destruct HI as (_ & _ & HI). destruct (HI lr Hr rounds I1 lw Hw cw I2 ld Hd md I3 ll Hl lam I4) as (o' & a & Ha). exists o', a. cbn [ggFinish] in H.
      destruct (h_final s); [apply bind_Ok in H as (o1 & _ & H)|]; injection H as <-; exact Ha.
    + injection H as <-. discriminate He.
Qed.
End Search.

(** *** with the real cross-validation *)
Lemma gradStart_spec id o cw md : isGradStart id o cw md (gradStart id o cw md).
Proof. unfold isGradStart, gradStart, restOf, defaultFor. destruct (g_xgb o); cbn; auto. Qed.
Lemma hybridStart_spec id o rounds cw md lam : isHybridStart id o rounds cw md lam (hybridStart id o rounds cw md lam).
Proof.
  assert (E : Z.quot (rounds - r_step (g_rounds o) + (rounds + r_step (g_rounds o))) 2 = rounds).
  { replace (rounds - r_step (g_rounds o) + (rounds + r_step (g_rounds o))) with (rounds * 2) by ring. apply Z.quot_mul. lia. }
  unfold isHybridStart, hybridStart, restOf, defaultFor. destruct (g_xgb o); cbn; rewrite E; auto.
Qed.
Lemma gg_starts {K} E fuel q id (D : DataBunch K) nfold o r : GradientGrid E fuel q id D nfold (Some o) = Ok r -> gg_err r = false ->
  forall lw ld, rangeF (g_mcw o) lw -> rangeZ (g_maxdepth o) ld -> forall cw md, In cw lw -> In md ld -> evaluated r (isGradStart id o cw md).
Proof.
  intros H He lw ld H1 H2 cw md H3 H4. apply gg_search in H as [_ H]. destruct (H He lw ld H1 H2 cw md H3 H4) as (o' & a & Ha).
  eexists. exists o', a. split; [exact Ha|apply gradStart_spec].
Qed.
Lemma hyb_starts {K} E fuel q id (D : DataBunch K) nfold o r : HybridGradientGrid E fuel q id D nfold (Some o) = Ok r -> gg_err r = false ->
  forall lr lw ld ll, rangeZ (g_rounds o) lr -> rangeF (g_mcw o) lw -> rangeZ (g_maxdepth o) ld -> rangeF (g_lambda o) ll ->
  forall rounds cw md lam, In rounds lr -> In cw lw -> In md ld -> In lam ll -> evaluated r (isHybridStart id o rounds cw md lam).
Proof.
  intros H He lr lw ld ll H1 H2 H3 H4 rounds cw md lam I1 I2 I3 I4. apply hyb_search in H as [_ H].
  destruct (H He lr lw ld ll H1 H2 H3 H4 rounds cw md lam I1 I2 I3 I4) as (o' & a & Ha). eexists. exists o', a. split; [exact Ha|apply hybridStart_spec].
Qed.
Lemma trial_same co co' : sameSearch co co' -> forall p der step prev fuel st O, trialLoop fuel co p der step st O prev = trialLoop fuel co' p der step st O prev.
Proof.
  intros HS. assert (HM : forall der st p o, move co der st p o = move co' der st p o) by (destruct co, co'; unfold sameSearch in HS; cbn in HS; injection HS; intros; subst; reflexivity).
  assert (HC : forall o, checkAgainstOptions o co = checkAgainstOptions o co') by (destruct co, co'; unfold sameSearch in HS; cbn in HS; injection HS; intros; subst; reflexivity).
  intros p der step prev. induction fuel as [|f IH]; intros st O; cbn [trialLoop]; [reflexivity|]. rewrite HM. destruct (fltb _ st); [|reflexivity].
  destruct (move co' der st p O); [|reflexivity]. rewrite HC, IH. reflexivity.
Qed.
Lemma acts_same co co' : sameSearch co co' -> forall fuel eval p step fd curr central Op, gradActs fuel eval co p step fd curr central Op = gradActs fuel eval co' p step fd curr central Op.
Proof.
  intros HS fuel eval p step fd curr central Op.
  assert (HM : forall der st p o, move co der st p o = move co' der st p o) by (destruct co, co'; unfold sameSearch in HS; cbn in HS; injection HS; intros; subst; reflexivity).
  assert (HC : forall o, checkAgainstOptions o co = checkAgainstOptions o co') by (destruct co, co'; unfold sameSearch in HS; cbn in HS; injection HS; intros; subst; reflexivity).
  pose proof (trial_same co co' HS) as HT. unfold gradActs. destruct (nudge fd true p (Clone (Clone Op))) as [pO| |]; cbn [bind]; auto.
  match goal with |- bind ?x _ = _ => destruct x as [el| |]; cbn [bind]; auto end. destruct (eval true pO) as [rp| |]; cbn [bind]; auto. destruct (received rp) as [[pe pa]| |]; cbn [bind]; auto.
  destruct central.
  - destruct (nudge fd false p (Clone (Clone Op))) as [mO| |]; cbn [bind]; auto. destruct (eval false mO) as [rm| |]; cbn [bind]; auto. destruct (received rm) as [[me ma]| |]; cbn [bind]; auto.
    destruct (fltb _ step); rewrite ?HM, ?HC; auto. destruct (move _ _ _ _ _); auto. rewrite HT. destruct (trialLoop _ _ _ _ _ _ _ _); cbn [bind]; auto. rewrite HC. reflexivity.
  - destruct (fltb _ fzero); auto. destruct (fltb _ step); rewrite ?HM, ?HC; auto. destruct (move _ _ _ _ _); auto. rewrite HT. destruct (trialLoop _ _ _ _ _ _ _ _); cbn [bind]; auto.
    rewrite HC. reflexivity.
Qed.
Lemma gg_ignores {K} E fuel q id (D : DataBunch K) nfold o o' : sameSearch o o' ->
  GradientGrid E fuel q id D nfold (Some o) = GradientGrid E fuel q id D nfold (Some o').
Proof.
  intros HS. assert (ES : searchStep E fuel q id D nfold o = searchStep E fuel q id D nfold o').
  { apply functional_extensionality; intros k. apply functional_extensionality; intros t. unfold searchStep, GradStep.
    assert (H4 : (g_step o, g_delta o, g_central o) = (g_step o', g_delta o', g_central o')) by (destruct o, o'; unfold sameSearch in HS; cbn in HS |- *; injection HS; intros; subst; reflexivity).
    injection H4 as -> -> ->. destruct (gradBegin _ _ _) as [[[curr o1]|o1]| |]; cbn [bind]; auto.
    assert (HG : forall ps acc, foldM (fun acc p => l <- ParamaterGradStep fuel (fun up o0 => MultiClassCrossValidation E fuel (fst (q_par q k p up)) (snd (q_par q k p up)) id D nfold (Some o0) true) o p (g_step o') (g_delta o') curr (g_central o') o1 ;;
        match l with v :: _ => Ok (copyParam p v acc) | [] => Diverge end) acc ps =
      foldM (fun acc p => l <- ParamaterGradStep fuel (fun up o0 => MultiClassCrossValidation E fuel (fst (q_par q k p up)) (snd (q_par q k p up)) id D nfold (Some o0) true) o' p (g_step o') (g_delta o') curr (g_central o') o1 ;;
        match l with v :: _ => Ok (copyParam p v acc) | [] => Diverge end) acc ps); [|apply HG].
    induction ps as [|p ps IH]; intros acc; cbn [foldM]; auto. unfold ParamaterGradStep. rewrite (acts_same o o' HS). fold (@ParamaterGradStep).
    match goal with |- bind ?x _ = bind ?x _ => destruct x; cbn [bind]; auto end. }
  unfold GradientGrid. rewrite ES. clear ES. destruct o, o'; unfold sameSearch in HS; cbn in HS; injection HS; intros; subst; reflexivity.
Qed.
Lemma gg_ok {K} E fuel q id (D : DataBunch K) nfold o r : GradientGrid E fuel q id D nfold o = Ok r -> searchOk (searchCV E fuel q id D) r.
Proof. intros H. apply gg_search in H as [H _]. exact H. Qed.
Lemma hyb_ok {K} E fuel q id (D : DataBunch K) nfold o r : HybridGradientGrid E fuel q id D nfold o = Ok r -> searchOk (searchCV E fuel q id D) r.
Proof. intros H. apply hyb_search in H as [H _]. exact H. Qed.
(** the accuracies are those of cross-validations with 5 folds *)
Lemma five {K} E fuel q id (D : DataBunch K) r : searchOk (searchCV E fuel q id D) r -> forall k o o' a, nth_error (gg_evals r) k = Some (o, o', a) ->
  exists c, MultiClassCrossValidation E fuel (fst (q_cv q k)) (snd (q_cv q k)) id D 5 (Some o) false = Ok c /\ cv_acc c = a.
Proof. intros [H _] k o o' a Hk. apply H in Hk as (c & H1 & _ & H2 & _). exists c. auto. Qed.
