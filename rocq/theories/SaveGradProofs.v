(** Proofs about saving the best model during gradient searches. *)
From Coq Require Import Reals Lra Ascii String.
From Verif Require Import Base F64 F64Lemmas Env EnvLemmas Utils Tree Options Train TrainThms Text Json SpecJson JsonProofs JsonMore Spec CV SpecCV CVProofs Grid SpecGrid GridProofs Grad GradConc SpecGrad GradProofs GradSearch PrintProofs Save SpecSave SaveProofs SaveGrad.
From Coq Require Import List.
Open Scope Z_scope.

Lemma upd_nat_twice {A} (s : list A) : forall n a, upd_nat (upd_nat s n a) n a = upd_nat s n a.
Proof. induction s as [|x s IH]; intros [|n] a; cbn [upd_nat]; [reflexivity..|]. rewrite IH. reflexivity. Qed.
Lemma fixMCW_id o : fltb (o_mcw o) fone = false -> fixMCW o = o.
Proof. intros H. unfold fixMCW. rewrite H. destruct o; reflexivity. Qed.

Definition evOut (e : Options * Options * f64) : f64 * option Options := (snd e, Some (snd (fst e))).
Section Search.
Context (T : nat -> f64 -> option Options -> text) (save : nat -> f64 -> option Options -> dir -> dir * res bool) (HS : savesText T save).
Context (cv : nat -> Options -> res cvRet) (gstep : nat -> Options -> res Options) (fz : nat -> nat -> f64 * bool) (HR : cvRaises cv).
Context (d0 : dir).

Definition SJ (sd : hs * dir) : Prop :=
  let outs := map evOut (h_evals (fst sd)) in
  h_best (fst sd) = last (h_accs (fst sd)) fzero /\ h_best (fst sd) = fst (collect fzero None outs) /\
  (h_accs (fst sd) = [] <-> records 0 fzero outs = []) /\
  snd sd = fold_left (apply1 T) (records 0 fzero outs) d0 /\ Forall (returned save) (records 0 fzero outs).
Lemma SJ_same s s' d : h_accs s' = h_accs s -> h_best s' = h_best s -> h_evals s' = h_evals s -> SJ (s, d) -> SJ (s', d).
Proof. unfold SJ. cbn [fst snd]. intros -> -> ->. auto. Qed.
Lemma SJ0 : SJ (hs0, d0).
Proof. unfold SJ. cbn. repeat split; auto. Qed.

Lemma outs_snoc (l : list (Options * Options * f64)) o o' a : 
  records 0 fzero (map evOut (l ++ [(o, o', a)])) = records 0 fzero (map evOut l) ++ (if fltb (fst (collect fzero None (map evOut l))) a then [(length l, a, Some o')] else []).
Proof. rewrite map_app, (records_app _ 0 fzero None). cbn [map records evOut fst snd Nat.add]. rewrite map_length. reflexivity. Qed.
Lemma collect_snoc (l : list (Options * Options * f64)) o o' a :
  fst (collect fzero None (map evOut (l ++ [(o, o', a)]))) = if fltb (fst (collect fzero None (map evOut l))) a then a else fst (collect fzero None (map evOut l)).
Proof. rewrite map_app, collect_app. cbn [map evOut fst snd collect]. destruct (fltb _ a); reflexivity. Qed.

Lemma compareS_ok t tp s d r s' d' : SJ (s, d) -> compareAccsS cv fz save t tp (s, d) = Ok (r, (s', d')) -> compareAccs cv fz t tp s = Ok (r, s') /\ SJ (s', d').
Proof.
  unfold compareAccsS, compareAccs. intros HI H. apply bind_Ok in H as (o & Ho & H). rewrite Ho. cbn [bind]. apply bind_Ok in H as (c & Hc & H). rewrite Hc. cbn [bind].
  destruct (cv_err c) eqn:Ee.
  - injection H as <- <- <-. split; [reflexivity|]. eapply SJ_same; [| | |exact HI]; reflexivity.
  - destruct (HR _ _ _ Hc Ee) as (o' & Ho' & Hm). rewrite Ho' in *. cbn [h_heap h_accs h_best h_final h_evals h_steps h_fuzz store] in *.
    destruct HI as (I1 & I2 & I3 & I4 & I5). cbn [fst snd] in *.
    assert (NOREC : fltb (h_best s) (cv_acc c) = false -> forall s1, h_accs s1 = h_accs s -> h_best s1 = h_best s -> h_evals s1 = h_evals s ++ [(o, o', cv_acc c)] -> SJ (s1, d)).
    { intros HN s1 E1 E2 E3. unfold SJ. cbn [fst snd]. rewrite E1, E2, E3, outs_snoc, collect_snoc, <- I2, HN, app_nil_r. auto. }
    destruct (match rev (h_accs s) with [] => false | la :: _ => fltb (cv_acc c) la end) eqn:Er.
    + apply bind_Ok in H as (s2 & Hf & H). injection H as <- <- <-. rewrite Hf. cbn [bind]. split; [reflexivity|]. apply fuzzAt_inv in Hf as (F1 & F2 & F3 & F4). apply NOREC; auto.
      rewrite I1, last_rev. destruct (rev (h_accs s)) as [|la l]; [discriminate Er|]. destruct (fltb la (cv_acc c)) eqn:E2; auto. pose proof (fltb_trans _ _ _ Er E2) as E3. rewrite fltb_irrefl in E3. discriminate E3.
    + destruct (fltb (h_best s) (cv_acc c)) eqn:Eb.
      * destruct (save (length (h_evals s)) (cv_acc c) (Some o') d) as [d1 [ok| |]] eqn:Es; [|discriminate H|discriminate H].
        injection H as <- <- <-. rewrite (fixMCW_id o' Hm). unfold store. cbn [h_heap h_accs h_best h_final h_evals h_steps h_fuzz]. rewrite upd_nat_twice. split; [reflexivity|].
        unfold SJ. cbn [fst snd h_accs h_best h_evals]. rewrite outs_snoc, collect_snoc, <- I2, Eb. split; [rewrite last_last; reflexivity|]. split; [reflexivity|].
        split; [split; intros E0; exfalso; [destruct (h_accs s); discriminate E0|destruct (records 0 fzero (map evOut (h_evals s))); discriminate E0]|].
        split; [rewrite fold_left_app, <- I4; cbn [fold_left apply1]; eapply HS; exact Es|]. apply Forall_app. split; [auto|]. constructor; [|constructor]. cbn [returned]. eauto.
      * injection H as <- <- <-. split; [reflexivity|]. apply NOREC; auto.
Qed.

Definition projS (q : (hs * dir) + (hs * dir)) : hs + hs := match q with inl sd => inl (fst sd) | inr sd => inr (fst sd) end.
Definition SJq (q : (hs * dir) + (hs * dir)) : Prop := match q with inl sd | inr sd => SJ sd end.
Lemma climbStepsS_ok : forall n k t s d q, SJ (s, d) -> climbStepsS cv gstep fz save n k t (s, d) = Ok q -> climbSteps cv gstep fz n k t s = Ok (projS q) /\ SJq q.
Proof.
  induction n as [|n IH]; intros k t s d q HI H; cbn [climbStepsS climbSteps] in *.
  - injection H as <-. auto.
  - apply bind_Ok in H as (o & Ho & H). rewrite Ho. cbn [bind]. unfold alloc in *. cbn [h_heap h_accs h_best h_final h_evals h_steps h_fuzz] in *.
    apply bind_Ok in H as (o' & Ho' & H). rewrite Ho'. cbn [bind]. cbn [h_heap h_accs h_best h_final h_evals h_steps h_fuzz store] in *. apply bind_Ok in H as (o1 & Ho1 & H). rewrite Ho1. cbn [bind].
    set (s1 := MkHS _ _ _ _ _ _ _) in H, Ho1 |- *. assert (H1 : SJ (s1, d)) by (eapply SJ_same; [| | |exact HI]; reflexivity).
    destruct (Equal o' o1).
    + apply bind_Ok in H as (s2 & Hf & H). rewrite Hf. cbn [bind]. apply fuzzAt_inv in Hf as (F1 & F2 & F3 & F4). assert (H2 : SJ (s2, d)) by (eapply SJ_same; eauto).
      destruct (k + 1 =? 3); [injection H as <-; auto|]. apply IH in H; auto.
    + apply bind_Ok in H as ([r1 [s2 d2]] & Hc & H). apply compareS_ok in Hc as [Hc HI2]; [|auto]. rewrite Hc. cbn [bind]. destruct r1 as [t'|].
      * apply IH in H; auto.
      * injection H as <-. auto.
Qed.
Lemma climbS_ok n o s d q : SJ (s, d) -> climbS cv gstep fz save n o (s, d) = Ok q -> climb cv gstep fz n o s = Ok (projS q) /\ SJq q.
Proof.
  unfold climb, climbS, alloc. cbn [h_heap h_accs h_best h_final h_evals h_steps h_fuzz]. intros HI H. apply bind_Ok in H as ([r1 [s2 d2]] & Hc & H).
  apply compareS_ok in Hc as [Hc HI2]; [|eapply SJ_same; [| | |exact HI]; reflexivity]. rewrite Hc. cbn [bind]. destruct r1 as [t'|].
  - apply climbStepsS_ok in H; auto.
  - injection H as <-. auto.
Qed.
Definition bodiesOk {A} (b' : A -> hs * dir -> res ((hs * dir) + (hs * dir))) (b : A -> hs -> res (hs + hs)) : Prop :=
  forall x s d q, SJ (s, d) -> b' x (s, d) = Ok q -> b x s = Ok (projS q) /\ SJq q.
Lemma loopS_ok {A} (le : A -> A -> bool) (add : A -> A -> A) hi st b' b : bodiesOk b' b ->
  forall fuel x s d q, SJ (s, d) -> forLoop le add fuel x hi st b' (s, d) = Ok q -> forLoop le add fuel x hi st b s = Ok (projS q) /\ SJq q.
Proof.
  intros HB. induction fuel as [|n IH]; intros x s d q HI H; cbn [forLoop] in *; [discriminate H|]. destruct (le x hi); [|injection H as <-; auto].
  apply bind_Ok in H as (q1 & Hq & H). apply HB in Hq as [Hq HI1]; [|auto]. rewrite Hq. cbn [bind]. destruct q1 as [[s1 d1]|[s1 d1]]; cbn [projS SJq fst] in *.
  - apply IH in H; auto.
  - injection H as <-. auto.
Qed.

Lemma finishS_ok q r d' : SJq q -> ggFinishS q = Ok (r, d') -> ggFinish (projS q) = Ok r /\ searchFiles T r d0 d' /\
  (gg_err r = false -> forall k a o, records 0 fzero (map evOut (gg_evals r)) <> [] -> last (records 0 fzero (map evOut (gg_evals r))) (0%nat, fzero, None) = (k, a, o) -> returned save (k, a, o) /\
     a = gg_acc r /\ d' (modelName a) = Some (T k a o) /\ exists o0 o', o = Some o' /\ nth_error (gg_evals r) k = Some (o0, o', a)).
Proof.
  intros HI H. set (sd := match q with inl sd | inr sd => sd end). assert (HJ : SJ sd) by (destruct q; exact HI).
  assert (HF : ggFinish (projS q) = Ok r /\ d' = snd sd).
  { destruct q as [[s d]|[s d]]; cbn [ggFinishS projS fst] in *; apply bind_Ok in H as (r' & Hr & H); injection H as <- <-; auto. }
  destruct HF as [HF ->]. split; [exact HF|]. clear H.
  assert (HE : gg_evals r = h_evals (fst sd) /\ (gg_err r = false -> gg_acc r = h_best (fst sd) /\ gg_accuracies r = h_accs (fst sd))).
  { destruct q as [[s d]|[s d]]; cbn [projS fst ggFinish] in HF; unfold sd; cbn [fst].
    - destruct (h_final s) as [t|]; [apply bind_Ok in HF as (o & _ & HF)|]; injection HF as <-; auto.
    - injection HF as <-. split; [reflexivity|discriminate]. }
  destruct HE as [HE HA]. destruct HJ as (J1 & J2 & J3 & J4 & J5). rewrite <- HE in *. set (outs := map evOut (gg_evals r)) in *.
  assert (HN : forall k a op, In (k, a, op) (records 0 fzero outs) -> exists o o', op = Some o' /\ nth_error (gg_evals r) k = Some (o, o', a)).
  { intros k a op HIn. apply records_In in HIn as [_ HIn]. rewrite Nat.sub_0_r in HIn. unfold outs in HIn. rewrite nth_error_map in HIn.
    destruct (nth_error (gg_evals r) k) as [[[o o'] a']|]; [|discriminate HIn]. injection HIn as <- <-. eauto. }
  destruct (records_last outs 0 fzero None) as [[R1 R2]|(rs & j & a & op & R1 & R2 & R3 & R4)].
  - rewrite R1 in *. cbn [fold_left] in J4. rewrite J4. split.
    + split; [auto|]. split; [auto|]. intros E1 E2. exfalso. apply E2. destruct (HA E1) as [_ ->]. apply J3. reflexivity.
    + intros _ k a o Hn. destruct Hn. reflexivity.
  - assert (HL : last (records 0 fzero outs) (0%nat, fzero, None) = (j, a, op)) by (rewrite R1; apply last_last).
    assert (HIn : In (j, a, op) (records 0 fzero outs)) by (rewrite R1; apply in_app_iff; right; left; auto).
    assert (Hd : snd sd (modelName a) = Some (T j a op)) by (rewrite J4, R1, fold_left_app; cbn [fold_left apply1]; apply setFile_same).
    rewrite R2 in J2. cbn [fst] in J2. destruct (HN j a op HIn) as (o & o' & Hop & Hj).
    assert (POS : forall k a' op', In (k, a', op') (records 0 fzero outs) -> fltb fzero a' = true).
    { clear. assert (G : forall l k b i a' op', In (i, a', op') (records k b l) -> fltb b a' = true).
      { induction l as [|[x xo] l IH]; intros k b i a' op' HI; cbn [records] in HI; [destruct HI|]. destruct (fltb b x) eqn:E; [|eauto]. destruct HI as [HI|HI]; [congruence|]. eapply fltb_trans; eauto. }
      intros. eapply G; eauto. }
    split.
    + split; [|split].
      * intros n. rewrite J4. destruct (apply_In T (records 0 fzero outs) d0 n) as [HX|(k1 & a1 & op1 & K1 & K2 & K3)]; [left; auto|]. right. destruct (HN _ _ _ K1) as (o1 & o1' & Hop1 & Hn1). subst op1.
        exists k1, o1, o1', a1. split; [auto|]. split; [auto|]. split; [eauto|]. split; [|auto]. intros E1. destruct (HA E1) as [-> _]. rewrite J2.
        rewrite R1 in K1. apply in_app_iff in K1 as [K1|[K1|[]]]; [apply fltb_leb; eauto|]. injection K1 as <- <- _. apply fltb_true in R3 as (_ & R3 & _). apply fleb_true. repeat split; auto. lra.
      * intros E1 E2. exfalso. destruct (HA E1) as [_ E3]. rewrite E3 in E2. apply J3 in E2. rewrite R1 in E2. destruct rs; discriminate E2.
      * intros E1 _. destruct (HA E1) as [-> _]. rewrite J2. exists j, o, o'. rewrite <- Hop. auto.
    + intros E1 k a' o1 _ HL1. rewrite HL in HL1. injection HL1 as <- <- <-. destruct (HA E1) as [-> _]. split; [rewrite Forall_forall in J5; apply J5; auto|]. split; [auto|]. split; [auto|]. eauto.
Qed.
End Search.

Section Both.
Context (T : nat -> f64 -> option Options -> text) (save : nat -> f64 -> option Options -> dir -> dir * res bool) (HS : savesText T save).
Context (cv : nat -> Options -> res cvRet) (gstep : nat -> Options -> res Options) (fz : nat -> nat -> f64 * bool) (HR : cvRaises cv).
(** both searches *)
Definition eitherS fuel id o d x : Prop := GradientGridSaving cv gstep fz save fuel id o d = Ok x \/ HybridGradientGridSaving cv gstep fz save fuel id o d = Ok x.
Lemma either_q fuel id o d r d' : eitherS fuel id o d (r, d') -> exists q, SJq T save d q /\ ggFinishS q = Ok (r, d').
Proof.
  intros [H|H]; unfold GradientGridSaving, HybridGradientGridSaving in H; apply bind_Ok in H as (q & Hq & H); exists q; (split; [|exact H]); revert Hq; unfold forZ, forF; intros Hq.
  - eapply loopS_ok with (b := fun cw => forLoop Z.leb Z.add fuel _ _ _ (fun md => climb cv gstep fz (g_nsteps o) (gradStart id o cw md))) in Hq; [apply Hq| |apply SJ0].
    intros ? ? ? ? HJ Hb. eapply loopS_ok in Hb; [exact Hb| |exact HJ]. intros ? ? ? ? HJ1 Hb1. eapply climbS_ok in Hb1; eauto.
  - eapply loopS_ok with (b := fun rounds => forLoop fleb fadd fuel _ _ _ (fun cw => forLoop Z.leb Z.add fuel _ _ _ (fun md => forLoop fleb fadd fuel _ _ _ (fun lam => climb cv gstep fz (g_nsteps o) (hybridStart id o rounds cw md lam))))) in Hq; [apply Hq| |apply SJ0].
    intros ? ? ? ? HJ Hb. eapply loopS_ok in Hb; [exact Hb| |exact HJ]. intros ? ? ? ? HJ1 Hb1. eapply loopS_ok in Hb1; [exact Hb1| |exact HJ1].
    intros ? ? ? ? HJ2 Hb2. eapply loopS_ok in Hb2; [exact Hb2| |exact HJ2]. intros ? ? ? ? HJ3 Hb3. eapply climbS_ok in Hb3; eauto.
Qed.
Lemma c116_grad_lemma fuel id o d r d' : GradientGridSaving cv gstep fz save fuel id o d = Ok (r, d') -> GradientGridWith cv gstep fz fuel id o = Ok r /\ searchFiles T r d d'.
Proof.
  intros H. unfold GradientGridSaving, GradientGridWith in *. apply bind_Ok in H as (q & Hq & H). revert Hq. unfold forZ, forF. intros Hq.
  eapply loopS_ok with (b := fun cw => forLoop Z.leb Z.add fuel (r_lo (g_maxdepth o)) (r_hi (g_maxdepth o)) (r_step (g_maxdepth o)) (fun md => climb cv gstep fz (g_nsteps o) (gradStart id o cw md))) in Hq; [| |apply (SJ0 T save)].
  - destruct Hq as [Hq HJ]. match goal with |- (_ <- ?A ;; _) = _ /\ _ => assert (HA : A = Ok (projS q)) by exact Hq end. rewrite HA. cbn [bind]. eapply finishS_ok in H; [|exact HJ]. tauto.
  - intros ? ? ? ? HJ Hb. eapply loopS_ok in Hb; [exact Hb| |exact HJ]. intros ? ? ? ? HJ1 Hb1. eapply climbS_ok in Hb1; eauto.
Qed.
Lemma c116_hybrid_lemma fuel id o d r d' : HybridGradientGridSaving cv gstep fz save fuel id o d = Ok (r, d') -> HybridGradientGridWith cv gstep fz fuel id o = Ok r /\ searchFiles T r d d'.
Proof.
  intros H. unfold HybridGradientGridSaving, HybridGradientGridWith in *. apply bind_Ok in H as (q & Hq & H). revert Hq. unfold forZ, forF. intros Hq.
  eapply loopS_ok with (b := fun rounds => forLoop fleb fadd fuel (r_lo (g_mcw o)) (r_hi (g_mcw o)) (r_step (g_mcw o)) (fun cw => forLoop Z.leb Z.add fuel (r_lo (g_maxdepth o)) (r_hi (g_maxdepth o)) (r_step (g_maxdepth o)) (fun md => forLoop fleb fadd fuel (r_lo (g_lambda o)) (r_hi (g_lambda o)) (r_step (g_lambda o)) (fun lam => climb cv gstep fz (g_nsteps o) (hybridStart id o rounds cw md lam))))) in Hq; [| |apply (SJ0 T save)].
  - destruct Hq as [Hq HJ]. match goal with |- (_ <- ?A ;; _) = _ /\ _ => assert (HA : A = Ok (projS q)) by exact Hq end. rewrite HA. cbn [bind]. eapply finishS_ok in H; [|exact HJ]. tauto.
  - intros ? ? ? ? HJ Hb. eapply loopS_ok in Hb; [exact Hb| |exact HJ]. intros ? ? ? ? HJ1 Hb1. eapply loopS_ok in Hb1; [exact Hb1| |exact HJ1].
    intros ? ? ? ? HJ2 Hb2. eapply loopS_ok in Hb2; [exact Hb2| |exact HJ2]. intros ? ? ? ? HJ3 Hb3. eapply climbS_ok in Hb3; eauto.
Qed.
End Both.

(** the cross-validations of the searches *)
Lemma cvLoop_raises {K} E rndf id n : forall (s : sampler K) O i accus accus' O', cvLoop E rndf id s (Some O) i n accus = Ok (accus', O') -> (1 <= n)%nat ->
  exists o', O' = Some o' /\ fltb (o_mcw o') fone = false.
Proof.
  induction n as [|n IH]; intros s O i accus accus' O' H Hn; [lia|]. cbn [cvLoop] in H. apply bind_Ok in H as ([tt_ s'] & _ & H). destruct tt_ as [[train test]|]; [|discriminate H].
  apply bind_Ok in H as (tr & Htr & H). apply bind_Ok in H as (r & _ & H).
  assert (HM : fltb (o_mcw (tr_opts tr)) fone = false).
  { apply train_opts in Htr. rewrite Htr. cbn [fixMCW o_mcw]. destruct (fltb (o_mcw O) fone) eqn:E0; [apply fltb_irrefl|exact E0]. }
  assert (HX : exists acc1, cvLoop E rndf id s' (Some (tr_opts tr)) (S i) n acc1 = Ok (accus', O')).
  { destruct (r <=? 0); [eauto|]. apply bind_Ok in H as (a & _ & H). eauto. }
  destruct HX as [acc1 HX]. destruct n as [|n]; [cbn [cvLoop] in HX; injection HX as <- <-; eauto|]. eapply IH; [exact HX|lia].
Qed.
Lemma searchCV_raises {K} E fuel q id (D : DataBunch K) : cvRaises (searchCV E fuel q id D).
Proof.
  intros k o r H He. unfold searchCV, MultiClassCrossValidation in H. apply bind_Ok in H as ([[n so] err] & Hs & H).
  destruct (err && Nat.eqb n 0) eqn:E1; [injection H as <-; discriminate He|]. destruct so as [s|]; [|discriminate H]. apply bind_Ok in H as ([accus O'] & Hl & H).
  injection H as <-. cbn [cv_opts]. eapply cvLoop_raises; [exact Hl|].
  unfold CrossValidationSamples in Hs. apply bind_Ok in Hs as (nf & Hnf & Hs). destruct (Nat.ltb_spec nf 2); [congruence|].
  apply bind_Ok in Hs as (f1 & _ & Hs). apply bind_Ok in Hs as (f2 & _ & Hs). injection Hs as <- _ _. lia.
Qed.
Lemma c116_best_lemma {K} size fok C E rnd (D : DataBunch K) cv gstep fz id fuel o d r d' : CodecOk C -> (forall k n, fok k n = None) -> (length (Data D) <= length (Labels D))%nat -> cvRaises cv ->
  eitherS (saveOf size fok C E rnd D id) cv gstep fz fuel id o d (r, d') -> gg_err r = false -> gg_accuracies r <> [] ->
  exists k o0 o' tr, nth_error (gg_evals r) k = Some (o0, o', gg_acc r) /\ NewMultiClass E (rnd k) D o' = Ok tr /\
    (modelFinite (tr_model tr) -> exists s M', d' (modelName (gg_acc r)) = Some s /\ modelText C (tr_model tr) s /\ UnJSONMultiClass C E s true = Ok (Some M') /\ mc_lr M' = o_lr o' /\
       mc_b M' = map (map unsampled) (removelast (mc_b (tr_model tr)))).
Proof.
  intros HC Hf HL HRs H He Ha. destruct (saveOf_savesText size fok C E rnd D id) as [T HT].
  destruct (either_q T _ HT cv gstep fz HRs fuel id o d r d' H) as (q & HJ & HF). destruct (finishS_ok T _ d q r d' HJ HF) as (_ & (_ & S2 & S3) & HX).
  destruct (last (records 0 fzero (map evOut (gg_evals r))) (0%nat, fzero, None)) as [[k a] op] eqn:EL.
  assert (Hne : records 0 fzero (map evOut (gg_evals r)) <> []).
  { intros E0. set (sd := match q with inl sd | inr sd => sd end). assert (HJ' : SJ T (saveOf size fok C E rnd D id) d sd) by (destruct q; exact HJ). destruct HJ' as (_ & _ & J3 & _).
    assert (HE : gg_evals r = h_evals (fst sd) /\ gg_accuracies r = h_accs (fst sd)).
    { destruct q as [[s1 d1]|[s1 d1]]; cbn [ggFinishS ggFinish] in HF; unfold sd; cbn [fst].
      - apply bind_Ok in HF as (r' & HF & HE). destruct (h_final s1) as [t|]; [apply bind_Ok in HF as (o1 & _ & HF)|]; injection HF as <-; injection HE as <- <-; auto.
      - apply bind_Ok in HF as (r' & HF & HE). injection HF as <-. injection HE as <- <-. discriminate He. }
    destruct HE as [E1 E2]. apply Ha. rewrite E2. apply J3. rewrite <- E1. exact E0. }
  destruct (HX He k a op Hne eq_refl) as (Hret & Hacc & Hd & o0 & o' & Hop & Hk). subst op.
  rewrite Hacc in *. clear HX. unfold returned, saveOf in Hret. destruct Hret as (d1 & d2 & ok & Hret). pose proof Hret as Hret0. unfold writeBest in Hret0. cbn [negb] in Hret0.
  destruct (NewMultiClass E (rnd k) D o') as [tr| |] eqn:ET; [|discriminate Hret0|discriminate Hret0]. exists k, o0, o', tr. split; [auto|]. split; [auto|]. intros HM.
  destruct (trained_writable _ _ _ _ _ ET HL) as [HW _].
  destruct (c111_complete_lemma size (fok k) C E (rnd k) D (gg_acc r) o' tr (Hf k) ET HW) as [HCm _]. destruct (HCm HM) as (s & Hs & HWB).
  assert (HTs : T k (gg_acc r) (Some o') = s).
  { rewrite HWB in Hret. injection Hret as Hd2 Hok. specialize (HT k (gg_acc r) (Some o') d1 d2 true). unfold saveOf in HT. rewrite HWB, Hd2 in HT. specialize (HT eq_refl).
    rewrite <- Hd2 in HT. apply (f_equal (fun h => h (modelName (gg_acc r)))) in HT. rewrite !setFile_same in HT. congruence. }
  destruct (c43_lemma C E (tr_model tr) (tx "softmax") HC HW HM) as (out & M' & H1 & H2 & H3 & H4). exists s, M'. split; [congruence|]. split; [auto|].
  destruct Hs as (out1 & Hs1 & Hs2). rewrite Hs1 in H1. apply Ok_inj in H1. injection H1 as ->. subst s. split; [auto|]. split; [|auto].
  destruct H4 as (H4 & _). rewrite H4. apply NewMultiClass_inv in ET. cbn zeta in ET. destruct ET as (EO & _ & Elr & _). rewrite Elr, EO. reflexivity.
Qed.
