(** Training does not panic on well-formed input (proof support for C98). *)
From Coq Require Import Reals Lra Sorted.
From Verif Require Import Base F64 F64Lemmas Env EnvLemmas Utils Tree Spec UtilsProofs TreeProofs TreeThms UtilsThms ActProofs
  Options Train SpecTrain SpecTot TrainProofs TrainThms TrainSteps TrainMore.
Open Scope Z_scope.

Lemma sumAt_ex v ix acc : (forall i, In i ix -> 0 <= i < Z.of_nat (length v)) -> exists s, sumAt v ix acc = Ok s.
Proof.
  revert acc; induction ix as [|w ix IH]; intros acc H; cbn [sumAt]; [eauto|].
  destruct (proj2 (idx_range v w)) as [x ->]; [apply H; left; auto|]. cbn [bind]. apply IH. intros i Hi. apply H. right; auto.
Qed.
Lemma updateLeaves_ex grad hess n t : length grad = n -> length hess = n -> t <> Nil ->
  (forall d l r, sub (Node d l r) t -> exists ix, t_samples d = Some ix /\ forall i, In i ix -> 0 <= i < Z.of_nat n) ->
  exists t', updateLeaves t grad hess = Ok t'.
Proof.
  intros Hg Hh. induction t as [|d l IHl r IHr]; intros Hn HS; [congruence|]. cbn [updateLeaves].
  assert (El : exists l', match l with Nil => Ok Nil | Node _ _ _ => updateLeaves l grad hess end = Ok l').
  { destruct l; [eauto|]. apply IHl; [discriminate|]. intros. eapply HS. apply sub_l. eauto. }
  assert (Er : exists r', match r with Nil => Ok Nil | Node _ _ _ => updateLeaves r grad hess end = Ok r').
  { destruct r; [eauto|]. apply IHr; [discriminate|]. intros. eapply HS. apply sub_r. eauto. }
  destruct El as [l' ->], Er as [r' ->]. cbn [bind]. destruct (t_leaf d); [|eauto].
  destruct (HS d l r (sub_refl _)) as (ix & -> & Hix).
  destruct (sumAt_ex hess ix fzero) as [sh ->]; [rewrite Hh; auto|]. cbn [bind].
  destruct (sumAt_ex grad ix fzero) as [sg ->]; [rewrite Hg; auto|]. cbn [bind]. eauto.
Qed.
Lemma grown_samples E X n o t d l r : grown E X n o t -> sub (Node d l r) t ->
  exists ix, t_samples d = Some ix /\ incl ix (initialSamples X o).
Proof.
  intros HG HS. destruct (grown_sub _ _ _ _ _ _ HG HS) as (n' & o' & G & _ & _ & _ & HI & _); [discriminate|].
  exists (initialSamples X o'). split; auto. inversion G; reflexivity.
Qed.

Section Tot.
Context (E : Env) (HE : EnvOk E) (O : Options) (data : list (list f64)) (HG : goodTable data)
        (HLs : lossSized (o_loss O)).
Notation n := (length data).
Definition ixOk (ix : option (list Z)) : Prop :=
  forall s, ix = Some s -> s <> [] /\ NoDup s /\ forall i, In i s -> 0 <= i < Z.of_nat n.

Lemma range_len_le l m : NoDup l -> (forall z, In z l -> 0 <= z < Z.of_nat m) -> (length l <= m)%nat.
Proof. apply TreeMid.range_length. Qed.
Lemma iota_NoDup m : NoDup (iota m).
Proof. unfold iota. apply FinFun.Injective_map_NoDup; [intros x y; lia|apply seq_NoDup]. Qed.
Lemma iota_range m i : In i (iota m) -> 0 <= i < Z.of_nat m.
Proof. unfold iota. intros H. apply in_map_iff in H as (k & <- & Hk). apply in_seq in Hk. lia. Qed.

Lemma tree_ex o : ixOk (to_indexes o) ->
  (if to_xgb o then exists g h, to_grads o = Some g /\ to_hess o = Some h /\ length g = n /\ length h = n
   else length (to_y o) = n) ->
  to_in o = Some (repeat 0 n) -> to_val o = Some (repeat fzero n) -> exists t, NewTree E data o = Ok t.
Proof.
  intros HI HY Hin Hval. destruct HG as [G1 G2 G3 G4]. destruct data as [|row0 rest] eqn:Ed; [congruence|]. rewrite <- Ed in *.
  assert (HS : initialSamples data o <> [] /\ NoDup (initialSamples data o) /\ forall i, In i (initialSamples data o) -> 0 <= i < Z.of_nat n).
  { unfold initialSamples. destruct (to_indexes o) as [s|] eqn:Es; [apply HI; auto|]. split; [|split].
    - rewrite Ed. discriminate.
    - apply iota_NoDup.
    - apply iota_range. }
  destruct HS as (S1 & S2 & S3).
  assert (HL : (length (initialSamples data o) <= n)%nat) by (apply range_len_le; auto).
  apply (c10_lemma E data o row0 rest HE Ed); auto.
  - intros row Hr. apply G2; auto. rewrite Ed. left; auto.
  - intros b Hb. rewrite Hin in Hb. injection Hb as <-. rewrite repeat_length. auto.
  - intros b Hb. rewrite Hval in Hb. injection Hb as <-. rewrite repeat_length. auto.
Qed.

Lemma classTree_ex ix cols lab pr row0 : ixOk ix -> length lab = n -> length pr = n -> nth_error data 0 = Some row0 ->
  exists t, classTree E O data ix cols lab pr = Ok t /\
    forall row, (length row0 <= length row)%nat -> exists p, PredictSingle t row = Ok p.
Proof.
  intros HI Hl Hp H0. destruct (HLs lab pr) as (L1 & L2 & L3); [congruence|].
  assert (HPr : forall o t, NewTree E data o = Ok t -> forall row, (length row0 <= length row)%nat -> exists p, PredictSingle t row = Ok p).
  { intros o t Ht row Hw. destruct (c15_lemma E data o t Ht) as (r0 & [_ Hr0] & HP). change (nth_error data 0 = Some r0) in Hr0.
    assert (r0 = row0) by congruence. subst r0. destruct (HP row Hw) as [(d & _ & Hd) _]. eauto. }
  unfold classTree. destruct (o_xgb O) eqn:Ex.
  - destruct (tree_ex (xTreeOpts O n ix cols (l_grad (o_loss O) lab pr) (l_hess (o_loss O) pr) lab)) as [t Ht]; auto.
    { cbn. eexists _, _. split; [reflexivity|]. split; [reflexivity|]. split; congruence. }
    rewrite Ht. exists t. split; auto. eapply HPr; eauto.
  - destruct (tree_ex (gTreeOpts O n (l_neg (o_loss O) lab pr))) as [t Ht]; auto.
    { intros s Hs. discriminate Hs. }
    { cbn. congruence. }
    rewrite Ht. cbn [bind]. pose proof (NewTree_grown _ _ _ _ Ht) as Gr.
    destruct (updateLeaves_ex (l_neg (o_loss O) lab pr) (l_hess (o_loss O) pr) n t) as [t' Ht'].
    { congruence. } { congruence. }
    { destruct (grown_node _ _ _ _ _ Gr) as (? & ? & ? & ->). discriminate. }
    { intros d l r HSub. destruct (grown_samples _ _ _ _ _ _ _ _ Gr HSub) as (ix' & Hix & Hincl). exists ix'. split; auto.
      intros i Hi. apply iota_range. apply (Hincl i Hi). }
    exists t'. split; auto. intros row Hw. eapply leavesUpdated_predict; [apply updateLeaves_spec; eauto|eapply HPr; eauto].
Qed.

Context (ohe : dense) (nl r : nat) (HO : wfDense ohe) (HOr : d_r ohe = r) (HOc : d_c ohe = nl) (Hn : n = r).

Lemma classStep_ex ix cols rd st acc k : wfst nl r st -> (k < nl)%nat -> ixOk ix ->
  exists st' acc', classStep E O data ohe ix cols rd (st, acc) k = Ok (st', acc') /\ wfst nl r st'.
Proof.
  intros HW Hk HI. cut (exists st' acc', classStep E O data ohe ix cols rd (st, acc) k = Ok (st', acc')).
  { intros (st' & acc' & HS). exists st', acc'. split; auto.
    destruct (classStep_spec E O data ohe nl r HOr HOc ix cols rd st acc k st' acc' HW Hk HS) as [(_ & -> & _)|(_ & t & l & _ & H & _)]; auto. }
  pose proof HW as (W1 & W2 & W3 & W4 & W5 & W6 & W7 & W8 & W9 & W10).
  unfold classStep. destruct (nth k (s_stopped st) false); [eauto|].
  destruct (c21_densecol_lemma ohe HO) as (HA & _). destruct (HA k ltac:(lia)) as (lab & -> & Hlab & _). cbn [bind].
  destruct (c21_densecol_lemma (s_probs st) W4) as (HB & _). destruct (HB k ltac:(lia)) as (pr & -> & Hpr & _). cbn [bind].
  destruct data as [|row0 rest] eqn:Ed; [destruct HG; congruence|]. rewrite <- Ed in *.
  destruct (classTree_ex ix cols lab pr row0 HI) as (t & -> & HP); [congruence|congruence|rewrite Ed; reflexivity|]. cbn [bind].
  destruct (c16_lemma t data (Some (s_tmp st))) as [HQ _].
  { intros row Hrow. apply HP. destruct HG as [_ G2 _ _]. rewrite (G2 row0 row); auto. rewrite Ed. left; auto. }
  destruct HQ as (preds & -> & HpL & _); [lia|]. cbn [bind]. cbn zeta.
  set (tmp := map (fun v => fmul v (o_lr O)) preds).
  assert (Ht : length tmp = d_r (s_raw st)) by (unfold tmp; rewrite map_length; congruence).
  destruct (c21_addtocol_lemma (s_raw st) tmp W1 Ht) as (HC & _ & _).
  destruct (HC k ltac:(lia)) as (D' & -> & Hr' & Hc' & HW' & _). cbn [bind].
  destruct (c80_lemma E D' (Some (s_probs st)) HW') as (P' & -> & HPW & HPr & HPc & _).
  { intros d [= <-]. split; auto. split; congruence. }
  cbn [bind]. destruct (c21_densecol_lemma P' HPW) as (HD & _). destruct (HD k ltac:(lia)) as (pr' & -> & _). cbn [bind]. eauto.
Qed.

Lemma classes_ex ix cols rd ks : ixOk ix -> (forall k, In k ks -> (k < nl)%nat) -> forall st acc, wfst nl r st ->
  exists st' acc', foldM (classStep E O data ohe ix cols rd) (st, acc) ks = Ok (st', acc') /\ wfst nl r st'.
Proof.
  intros HI. induction ks as [|k ks IH]; intros Hks st acc HW; cbn [foldM]; [eauto|].
  destruct (classStep_ex ix cols rd st acc k HW) as (st1 & acc1 & -> & HW1); [apply Hks; left; auto|auto|]. cbn [bind].
  apply IH; auto. intros j Hj. apply Hks. right; auto.
Qed.

Context (rnd : draws) (Hsize : forall row, In row data -> Z.of_nat (length row) < 2 ^ 62) (HsizeN : Z.of_nat n < 2 ^ 62)
        (Hss : fractionOk (o_ss O)) (Hcss : fractionOk (o_css O)).

Lemma SubSample_ex m p draw : Z.of_nat m < 2 ^ 62 -> fractionOk p -> fltb p fone = true -> exists s, SubSample (Z.of_nat m) p draw = Ok s.
Proof.
  intros Hm Hp Hl. destruct (c33_lemma (Z.of_nat m) p draw) as (_ & _ & H); [lia|]. apply H; auto. apply fltb_leb. auto.
Qed.

Lemma roundStep_ex rd st b : wfst nl r st -> roundFed O n (fst (rnd rd)) ->
  exists st' b', roundStep E O data ohe nl rnd (st, b) rd = Ok (st', b') /\ wfst nl r st'.
Proof.
  intros HW HF. unfold roundStep.
  assert (HS : exists ix cols, roundSamples O data (rnd rd) = Ok (ix, cols) /\ (o_minsample O <= Z.of_nat (length (orNil ix)) -> ixOk ix)).
  { unfold roundSamples.
    assert (HC : exists cols, (if fltb (o_css O) fone && o_xgb O
         then row0 <- idx data 0 ;; SubSample (Z.of_nat (length row0)) (o_css O) (snd (rnd rd)) else Ok []) = Ok cols).
    { destruct (fltb (o_css O) fone) eqn:E1; cbn [andb]; [|eauto]. destruct (o_xgb O); [|eauto].
      destruct data as [|row0 rest] eqn:Ed; [destruct HG; congruence|]. rewrite <- Ed in *.
      assert (Hi : idx data 0 = Ok row0) by (rewrite Ed; reflexivity). rewrite Hi. cbn [bind]. apply SubSample_ex; auto.
      apply Hsize. rewrite Ed. left; auto. }
    destruct (fltb (o_ss O) fone && o_xgb O)%bool eqn:E1.
    - apply andb_true_iff in E1 as [E1 E2]. destruct (SubSample_ex n (o_ss O) (fst (rnd rd)) HsizeN Hss E1) as [s Hs]. rewrite Hs. cbn [bind].
      destruct HC as [cols HC]. rewrite HC. cbn [bind]. exists (Some s), cols. split; auto. cbn [orNil]. intros Hm s' [= <-].
      destruct (c33_lemma (Z.of_nat n) (o_ss O) (fst (rnd rd))) as (HQ & _); [lia|]. destruct (HQ s Hs) as (Q1 & Q2 & _).
      split; [|split].
      + destruct HF as [F|[F|[F|(i & Hi & F)]]]; [congruence|congruence| |].
        * intros ->. simpl in Hm. lia.
        * intros ->. apply (in_nil (a := Z.of_nat i)). apply Q2. rewrite Nat2Z.id. split; [lia|auto].
      + clear - Q1. induction Q1 as [|a l HS IH HFa]; constructor; auto. rewrite Forall_forall in HFa. intros Hin. specialize (HFa a Hin). lia.
      + intros i Hi. apply Q2 in Hi. tauto.
    - cbn [bind]. destruct HC as [cols HC]. rewrite HC. cbn [bind]. exists None, cols. split; auto. intros _ s Hs. discriminate Hs. }
  destruct HS as (ix & cols & -> & HI). cbn [bind].
  destruct (Z.ltb_spec (Z.of_nat (length (orNil ix))) (o_minsample O)) as [Q|Q]; [eauto|].
  destruct (classes_ex ix cols rd (seq 0 nl) (HI Q)) with (st := st) (acc := @nil entryG) as (st' & cl & -> & HW'); auto.
  { intros k Hk. apply in_seq in Hk. lia. }
  cbn [bind]. eauto.
Qed.

Lemma rounds_ex rds : (forall rd, In rd rds -> roundFed O n (fst (rnd rd))) -> forall st b, wfst nl r st ->
  exists st' b', foldM (roundStep E O data ohe nl rnd) (st, b) rds = Ok (st', b').
Proof.
  induction rds as [|rd rds IH]; intros HF st b HW; cbn [foldM]; [eauto|].
  destruct (roundStep_ex rd st b HW) as (st1 & b1 & -> & HW1); [apply HF; left; auto|]. cbn [bind]. apply IH; auto.
  intros k Hk. apply HF. right; auto.
Qed.
End Tot.

Lemma c98_lemma {K} E rnd (D : DataBunch K) O : EnvOk E -> goodTable (Data D) -> length (Labels D) = length (Data D) ->
  lossSized (o_loss O) -> fractionOk (o_ss O) -> fractionOk (o_css O) ->
  Z.of_nat (length (Data D)) < 2 ^ 62 -> (forall row, In row (Data D) -> Z.of_nat (length row) < 2 ^ 62) ->
  (forall rd, (rd < Z.to_nat (o_rounds O))%nat -> roundFed O (length (Data D)) (fst (rnd rd))) ->
  exists tr, NewMultiClass E rnd D O = Ok tr.
Proof.
  intros HE HG HL HLs Hss Hcss Hn Hw HF. unfold NewMultiClass.
  assert (Hne : Labels D <> []).
  { intros Hl. rewrite Hl in HL. destruct HG as [G _ _ _]. destruct (Data D); [congruence|discriminate]. }
  destruct (c22_lemma (Labels D)) as [_ HS]. destruct (HS Hne) as (ohe & labels & -> & _ & HW & Hr & Hc & _). cbn [bind].
  pose proof HW as (HW1 & HW2 & HW3).
  unfold NewDense at 1. assert (Hz : (Nat.eqb (d_r ohe) 0 || Nat.eqb (d_c ohe) 0)%bool = false).
  { apply orb_false_iff. split; apply Nat.eqb_neq; lia. }
  rewrite Hz, repeat_length, Nat.eqb_refl. cbn [bind]. cbn zeta.
  set (raw := scaleDense (o_base (fixMCW O)) (ToOnes (Dense (d_r ohe) (d_c ohe) (repeat fzero (d_r ohe * d_c ohe))))).
  assert (HWr : wfDense raw /\ d_r raw = d_r ohe /\ d_c raw = d_c ohe).
  { unfold raw, scaleDense, ToOnes, wfDense. cbn [d_r d_c d_data]. rewrite !map_length, repeat_length. auto. }
  destruct HWr as (HWr & Hrr & Hcr).
  destruct (c80_lemma E raw None HWr) as (P & -> & HPW & HPr & HPc & _); [intros d; discriminate|]. cbn [bind].
  set (st0 := MkSt raw P (repeat fzero (d_r ohe)) (repeat false (length labels)) (repeat 0 (length labels)) (repeat fzero (length labels))).
  assert (HW0 : wfst (length labels) (length (Labels D)) st0).
  { unfold wfst, st0. cbn [s_raw s_probs s_tmp s_stopped s_noprog s_prev]. rewrite !repeat_length. repeat split; try congruence; try apply HWr; try apply HPW. }
  destruct (rounds_ex E HE (fixMCW O) (Data D) HG HLs ohe (length labels) (length (Labels D)) HW Hr Hc (eq_sym HL) rnd Hw Hn Hss Hcss
             (seq 0 (Z.to_nat (o_rounds (fixMCW O))))) with (st := st0) (b := @nil (list entryG)) as (st' & b' & ->).
  { intros rd Hrd. apply in_seq in Hrd. apply HF. cbn [fixMCW o_rounds] in Hrd. lia. }
  { exact HW0. }
  cbn [bind]. eauto.
Qed.

Lemma lossSized_std id : lossSized (SQErrLoss id) /\ lossSized (MSELoss id).
Proof.
  assert (HA : forall A B (l : list A) (l' : list B), length l = length l' -> length (combine l l') = length l').
  { intros A B l l' H. rewrite combine_length. lia. }
  split; intros lab pr H; cbn [SQErrLoss MSELoss l_neg l_grad l_hess]; unfold gradients, negGradients, sqHessian, mseHessian;
    rewrite !map_length; split; auto using HA.
Qed.

(** ** A round that samples no row *)
Lemma NewTree_empty E X o t row0 : NewTree E X o = Ok t -> initialSamples X o = [] -> 1 <= to_maxdepth o ->
  nth_error X 0 = Some row0 -> (exists f, In f (scannedColumns (length row0) (to_allowed o))) -> False.
Proof.
  intros H HI HD H0 [f Hf]. apply NewTree_grown in H.
  assert (HA : forall b, foldM (findBetterSplit E X (prepare X o) (initialSamples X o)) b (scannedColumns (length row0) (to_allowed o)) = Panic).
  { intros b. destruct (scannedColumns (length row0) (to_allowed o)) as [|f0 fs]; [destruct Hf|]. cbn [foldM]. rewrite HI. reflexivity. }
  assert (HX : forall r0, idx X 0 = Ok r0 -> r0 = row0).
  { intros r0 Hr. apply idx_Ok in Hr as [_ Hr]. simpl in Hr. destruct X; simpl in *; congruence. }
  inversion H as [n1 o1 value r0 b HV Hr0 HB HL1|n1 o1 value r0 b col l1 r1 HV Hr0 HF HL1 HC Hl Hr]; subst.
  - destruct HB as [[Hz _]|[_ HB]]; [lia|]. rewrite (HX r0 Hr0), HA in HB. discriminate HB.
  - rewrite (HX r0 Hr0), HA in HF. discriminate HF.
Qed.

Lemma foldM_cut {A S} (f : S -> A -> res S) l1 a l2 s s' : foldM f s (l1 ++ a :: l2) = Ok s' ->
  exists s1 s2, foldM f s l1 = Ok s1 /\ f s1 a = Ok s2.
Proof.
  rewrite foldM_app. intros H. apply bind_Ok in H as (s1 & H1 & H). cbn [foldM] in H. apply bind_Ok in H as (s2 & H2 & _). eauto.
Qed.

Lemma c98_empty_lemma {K} E rnd (D : DataBunch K) O rd row0 tr : o_xgb O = true -> fltb (o_ss O) fone = true -> o_minsample O <= 0 ->
  1 <= o_maxdepth O -> (rd < Z.to_nat (o_rounds O))%nat -> (rd = 0%nat \/ o_earlystop O <= 0) ->
  nth_error (Data D) 0 = Some row0 -> row0 <> [] ->
  (forall i, (i < length (Data D))%nat -> fleb (fst (rnd rd) i) (o_ss O) = false) ->
  NewMultiClass E rnd D O <> Ok tr.
Proof.
  intros Hx Hss Hms Hmd Hrd Hes H0 Hr0 Hdraw H.
  destruct (NewMultiClass_run E rnd D O tr H) as (_ & ohe & st0 & HW & Hr & Hc & _ & HI & HF).
  set (nl := length (mc_labels (tr_model tr))) in *. set (O' := fixMCW O) in *.
  replace (seq 0 (Z.to_nat (o_rounds O'))) with (seq 0 rd ++ rd :: seq (S rd) (Z.to_nat (o_rounds O) - S rd)) in HF.
  2: { change (o_rounds O') with (o_rounds O). replace (Z.to_nat (o_rounds O)) with (rd + S (Z.to_nat (o_rounds O) - S rd))%nat at 2 by lia. rewrite seq_app. reflexivity. }
  apply foldM_cut in HF as ([st h] & s2 & HF1 & HF2).
  destruct (rounds_hinv E O' (Data D) ohe nl _ rnd Hr Hc st0 rd (st, h) HI HF1) as [I1 _ I3 _ _]. cbn [fst snd] in *.
  assert (Hnl : (0 < nl)%nat) by (destruct HW as (_ & W & _); lia).
  assert (Hst : nth 0 (s_stopped st) false = false).
  { pose proof (inv_es _ _ _ _ _ _ _ I1 0%nat Hnl) as He.
    assert (Hi : fold_left (esStep O') (lossesOf (concat h) 0) init = init).
    { destruct Hes as [->|Hes]; [|apply esStep_off; auto]. simpl in HF1. injection HF1 as _ <-. reflexivity. }
    rewrite Hi in He. unfold esv, init in He. congruence. }
  unfold roundStep in HF2. apply bind_Ok in HF2 as ([ix cols] & HS & HF2).
  assert (HSx := HS). unfold roundSamples in HSx. change (o_ss O') with (o_ss O) in HSx. change (o_xgb O') with (o_xgb O) in HSx. rewrite Hss, Hx in HSx.
  cbn [andb] in HSx. apply bind_Ok in HSx as (ix' & Hix & HSx). apply bind_Ok in HSx as (cols' & Hcols & HSx). injection HSx as -> ->.
  apply bind_Ok in Hix as (s & Hs & Hix). injection Hix as <-.
  destruct (c33_lemma (Z.of_nat (length (Data D))) (o_ss O) (fst (rnd rd))) as (HQ & _); [lia|]. destruct (HQ s Hs) as (_ & Q2 & _).
  assert (Es : s = []).
  { destruct s as [|z s]; auto. exfalso. destruct (proj1 (Q2 z) (or_introl eq_refl)) as [Hz Hle]. rewrite Hdraw in Hle by lia. discriminate Hle. }
  subst s. cbn [orNil length] in HF2. change (Z.of_nat 0) with 0 in HF2.
  destruct (Z.ltb_spec 0 (o_minsample O')) as [Q|_]; [change (o_minsample O') with (o_minsample O) in Q; lia|].
  apply bind_Ok in HF2 as ([st' cl] & HF2 & _). replace nl with (1 + (nl - 1))%nat in HF2 by lia. rewrite seq_app in HF2. cbn [seq app foldM] in HF2.
  apply bind_Ok in HF2 as ([st1 cl1] & HC1 & _). unfold classStep in HC1. rewrite Hst in HC1.
  apply bind_Ok in HC1 as (lab & _ & HC1). apply bind_Ok in HC1 as (pr & _ & HC1). apply bind_Ok in HC1 as (t & Ht & _).
  unfold classTree in Ht. change (o_xgb O') with (o_xgb O) in Ht. rewrite Hx in Ht.
  eapply (NewTree_empty _ _ _ _ row0 Ht); auto.
  cbn [xTreeOpts to_allowed].
  assert (HL : (0 < length row0)%nat) by (destruct row0; [congruence|simpl; lia]).
  destruct cols as [|c cols].
  - exists 0. apply scannedColumns_In. split; [lia|]. left; auto.
  - exists c. apply scannedColumns_In. change (o_css O') with (o_css O) in Hcols.
    destruct (fltb (o_css O) fone); cbn [andb] in Hcols; [|discriminate Hcols].
    apply bind_Ok in Hcols as (r0 & Hr0' & Hcols). apply idx_Ok in Hr0' as [_ Hr0']. change (nth_error (Data D) 0 = Some r0) in Hr0'.
    assert (r0 = row0) by congruence. subst r0.
    destruct (c33_lemma (Z.of_nat (length row0)) (o_css O) (snd (rnd rd))) as (HP & _); [lia|]. destruct (HP _ Hcols) as (_ & P2 & _).
    destruct (proj1 (P2 c) (or_introl eq_refl)) as [Hc0 _]. split; [auto|]. right. left. auto.
Qed.
