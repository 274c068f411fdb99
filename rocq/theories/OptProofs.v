(** Which options a training depends on (proof support for C122). *)
From Verif Require Import Base F64 F64Lemmas Env Utils Tree Spec Options Train SpecOpt.
Open Scope Z_scope.

Definition withMCW (o : TreeOptions) (m : f64) : TreeOptions :=
  MkTO (to_xgb o) m (to_allowed o) (to_lambda o) (to_gamma o) (to_grads o) (to_hess o) (to_y o) (to_in o) (to_val o) (to_maxdepth o) (to_indexes o).
Lemma withMCW_id o : withMCW o (to_mcw o) = o. Proof. destruct o; reflexivity. Qed.
Lemma fbs_mcw E X o m ix b f : ftoZ m = ftoZ (to_mcw o) -> findBetterSplit E X (withMCW o m) ix b f = findBetterSplit E X o ix b f.
Proof. intros Hm. unfold findBetterSplit. cbn [withMCW to_in to_val to_mcw to_xgb to_grads to_hess to_y to_lambda to_gamma]. rewrite Hm. reflexivity. Qed.
Lemma foldM_ext {A S} (f g : S -> A -> res S) : (forall s a, f s a = g s a) -> forall l s, foldM f s l = foldM g s l.
Proof. intros H. induction l as [|a l IH]; intros s; cbn [foldM]; [reflexivity|]. rewrite H. destruct (g s a); cbn [bind]; auto. Qed.
Lemma grow_mcw E X n : forall o m, ftoZ m = ftoZ (to_mcw o) -> grow E X n (withMCW o m) = grow E X n o.
Proof.
  induction n as [|n IH]; intros o m Hm.
  - reflexivity.
  - cbn [grow]. change (prepare X (withMCW o m)) with (withMCW (prepare X o) m). set (p := prepare X o).
    assert (Hp : ftoZ m = ftoZ (to_mcw p)) by exact Hm.
    change (to_indexes (withMCW p m)) with (to_indexes p). change (to_xgb (withMCW p m)) with (to_xgb p). change (to_allowed (withMCW p m)) with (to_allowed p).
    change (nodeValue E (withMCW p m) (orNil (to_indexes p))) with (nodeValue E p (orNil (to_indexes p))).
    change (to_xgb (withMCW o m)) with (to_xgb o). change (to_grads (withMCW o m)) with (to_grads o). change (to_hess (withMCW o m)) with (to_hess o).
    destruct (to_xgb o && isNone (to_grads o) && isNone (to_hess o)); [reflexivity|].
    destruct (nodeValue E p (orNil (to_indexes p))) as [[v s0]| |]; cbn [bind]; [|reflexivity|reflexivity].
    destruct (idx X 0) as [row0| |]; cbn [bind]; [|reflexivity|reflexivity].
    rewrite (foldM_ext _ (findBetterSplit E X p (orNil (to_indexes p))) (fun s a => fbs_mcw E X p m _ s a Hp)).
    destruct (foldM (findBetterSplit E X p (orNil (to_indexes p))) _ _) as [b| |]; cbn [bind]; [|reflexivity|reflexivity].
    destruct (leafScore (to_xgb p) (b_score b)); [reflexivity|].
    destruct (column X (orNil (to_indexes p)) (b_split b)) as [col| |]; cbn [bind]; [|reflexivity|reflexivity].
    destruct (splitSamples (orNil (to_indexes p)) col (b_thr b)) as [il ir].
    change (childOpts (withMCW p m) il) with (withMCW (childOpts p il) m). change (childOpts (withMCW p m) ir) with (withMCW (childOpts p ir) m).
    rewrite !IH by exact Hp. reflexivity.
Qed.
Lemma NewTree_mcw E X o m : ftoZ m = ftoZ (to_mcw o) -> NewTree E X (withMCW o m) = NewTree E X o.
Proof. intros H. unfold NewTree. apply grow_mcw. exact H. Qed.
Lemma grow_depth E X n : forall o m, grow E X n (MkTO (to_xgb o) (to_mcw o) (to_allowed o) (to_lambda o) (to_gamma o) (to_grads o) (to_hess o) (to_y o) (to_in o) (to_val o) m (to_indexes o)) = grow E X n o.
Proof.
  induction n as [|n IH]; intros o m; [reflexivity|]. set (o' := MkTO _ _ _ _ _ _ _ _ _ _ _ _). cbn [grow].
  change (prepare X o') with (MkTO (to_xgb (prepare X o)) (to_mcw (prepare X o)) (to_allowed (prepare X o)) (to_lambda (prepare X o)) (to_gamma (prepare X o)) (to_grads (prepare X o)) (to_hess (prepare X o)) (to_y (prepare X o)) (to_in (prepare X o)) (to_val (prepare X o)) m (to_indexes (prepare X o))).
  set (p := prepare X o). set (p' := MkTO (to_xgb p) _ _ _ _ _ _ _ _ _ _ _).
  change (to_xgb o') with (to_xgb o). change (to_grads o') with (to_grads o). change (to_hess o') with (to_hess o).
  change (to_indexes p') with (to_indexes p). change (to_xgb p') with (to_xgb p). change (to_allowed p') with (to_allowed p).
  change (nodeValue E p' (orNil (to_indexes p))) with (nodeValue E p (orNil (to_indexes p))).
  destruct (to_xgb o && isNone (to_grads o) && isNone (to_hess o)); [reflexivity|].
  destruct (nodeValue E p (orNil (to_indexes p))) as [[v s0]| |]; cbn [bind]; [|reflexivity|reflexivity].
  destruct (idx X 0) as [row0| |]; cbn [bind]; [|reflexivity|reflexivity].
  change (findBetterSplit E X p' (orNil (to_indexes p))) with (findBetterSplit E X p (orNil (to_indexes p))).
  destruct (foldM (findBetterSplit E X p (orNil (to_indexes p))) _ _) as [b| |]; cbn [bind]; [|reflexivity|reflexivity].
  destruct (leafScore (to_xgb p) (b_score b)); [reflexivity|].
  destruct (column X (orNil (to_indexes p)) (b_split b)) as [col| |]; cbn [bind]; [|reflexivity|reflexivity].
  destruct (splitSamples (orNil (to_indexes p)) col (b_thr b)) as [il ir].
  pose proof (IH (childOpts p il) (m - 1)) as I1. pose proof (IH (childOpts p ir) (m - 1)) as I2.
  change (childOpts p' il) with (MkTO (to_xgb (childOpts p il)) (to_mcw (childOpts p il)) (to_allowed (childOpts p il)) (to_lambda (childOpts p il)) (to_gamma (childOpts p il)) (to_grads (childOpts p il)) (to_hess (childOpts p il)) (to_y (childOpts p il)) (to_in (childOpts p il)) (to_val (childOpts p il)) (m - 1) (to_indexes (childOpts p il))).
  change (childOpts p' ir) with (MkTO (to_xgb (childOpts p ir)) (to_mcw (childOpts p ir)) (to_allowed (childOpts p ir)) (to_lambda (childOpts p ir)) (to_gamma (childOpts p ir)) (to_grads (childOpts p ir)) (to_hess (childOpts p ir)) (to_y (childOpts p ir)) (to_in (childOpts p ir)) (to_val (childOpts p ir)) (m - 1) (to_indexes (childOpts p ir))).
  rewrite I1, I2. reflexivity.
Qed.
Lemma NewTree_same E X o o' : to_xgb o = to_xgb o' -> ftoZ (to_mcw o) = ftoZ (to_mcw o') -> to_allowed o = to_allowed o' -> to_lambda o = to_lambda o' -> to_gamma o = to_gamma o' ->
  to_grads o = to_grads o' -> to_hess o = to_hess o' -> to_y o = to_y o' -> to_in o = to_in o' -> to_val o = to_val o' -> Z.to_nat (to_maxdepth o) = Z.to_nat (to_maxdepth o') ->
  to_indexes o = to_indexes o' -> NewTree E X o = NewTree E X o'.
Proof.
  intros. unfold NewTree. rewrite <- (grow_mcw E X _ o' (to_mcw o)) by auto. rewrite <- (grow_depth E X _ (withMCW o' (to_mcw o)) (to_maxdepth o)).
  replace (Z.to_nat (to_maxdepth o')) with (Z.to_nat (to_maxdepth o)). f_equal. destruct o, o'. cbn in *. subst. reflexivity.
Qed.

Section Same.
Context (E : Env) (O O' : Options) (HS : sameTraining O O').
Let P := fixMCW O.
Let P' := fixMCW O'.
Lemma asked_eq : ftoZ (o_mcw P) = ftoZ (o_mcw P').
Proof.
  pose proof (st_mcw _ _ HS) as H. unfold askedWeight in H. unfold P, P', fixMCW. cbn [o_mcw].
  assert (H1 : ftoZ fone = 1) by (vm_compute; reflexivity). destruct (fltb (o_mcw O) fone), (fltb (o_mcw O') fone); congruence.
Qed.
Lemma depth_eq : Z.to_nat (o_maxdepth P) = Z.to_nat (o_maxdepth P').
Proof. destruct (st_depth _ _ HS) as [H|[H1 H2]]; unfold P, P', fixMCW; cbn [o_maxdepth]; lia. Qed.
Lemma classTree_same data ix cols lab pr : classTree E P data ix cols lab pr = classTree E P' data ix cols lab pr.
Proof.
  unfold classTree. change (o_loss P) with (o_loss O). change (o_loss P') with (o_loss O'). rewrite <- (st_loss _ _ HS).
  change (o_xgb P) with (o_xgb O). change (o_xgb P') with (o_xgb O'). rewrite <- (st_xgb _ _ HS). destruct (o_xgb O) eqn:EX.
  - destruct (st_xgbonly _ _ HS EX) as (Hl & Hg & _). apply NewTree_same; unfold xTreeOpts; cbn [to_xgb to_mcw to_allowed to_lambda to_gamma to_grads to_hess to_y to_in to_val to_maxdepth to_indexes]; first [reflexivity|exact Hl|exact Hg|apply asked_eq|apply depth_eq].
  - f_equal. apply NewTree_same; unfold gTreeOpts; cbn [to_xgb to_mcw to_allowed to_lambda to_gamma to_grads to_hess to_y to_in to_val to_maxdepth to_indexes]; first [reflexivity|apply asked_eq|apply depth_eq].
Qed.
Lemma earlyStop_same round k l st : earlyStop P round k l st = earlyStop P' round k l st.
Proof.
  unfold earlyStop. change (o_earlystop P) with (o_earlystop O). change (o_earlystop P') with (o_earlystop O').
  destruct (st_stop _ _ HS) as [->|[H1 H2]]; [reflexivity|]. assert (A : (0 <? o_earlystop O) = false) by lia. assert (B : (0 <? o_earlystop O') = false) by lia. rewrite A, B. reflexivity.
Qed.
Lemma classStep_same data ohe ix cols round sa k : classStep E P data ohe ix cols round sa k = classStep E P' data ohe ix cols round sa k.
Proof.
  unfold classStep. destruct sa as [st acc]. destruct (nth k (s_stopped st) false); [reflexivity|].
  destruct (DenseCol ohe (Z.of_nat k)) as [lab| |]; cbn [bind]; [|reflexivity|reflexivity].
  destruct (DenseCol (s_probs st) (Z.of_nat k)) as [pr| |]; cbn [bind]; [|reflexivity|reflexivity].
  rewrite classTree_same. destruct (classTree E P' data ix cols lab pr) as [t| |]; cbn [bind]; [|reflexivity|reflexivity].
  destruct (Predict t data (Some (s_tmp st))) as [preds| |]; cbn [bind]; [|reflexivity|reflexivity].
  change (o_lr P) with (o_lr O). change (o_lr P') with (o_lr O'). rewrite <- (st_lr _ _ HS).
  change (o_loss P) with (o_loss O). change (o_loss P') with (o_loss O'). rewrite <- (st_loss _ _ HS).
  destruct (AddToCol _ _ _) as [raw| |]; cbn [bind]; [|reflexivity|reflexivity].
  destruct (SoftMaxDense _ _ _) as [probs| |]; cbn [bind]; [|reflexivity|reflexivity].
  destruct (DenseCol probs _) as [pr'| |]; cbn [bind]; [|reflexivity|reflexivity].
  rewrite earlyStop_same. reflexivity.
Qed.
Lemma roundSamples_same data rd rd' : rd = rd' \/ noDraws O -> roundSamples P data rd = roundSamples P' data rd'.
Proof.
  intros HD. unfold roundSamples. change (o_ss P) with (o_ss O). change (o_ss P') with (o_ss O'). change (o_css P) with (o_css O). change (o_css P') with (o_css O').
  change (o_xgb P) with (o_xgb O). change (o_xgb P') with (o_xgb O'). rewrite <- (st_xgb _ _ HS). destruct (o_xgb O) eqn:EX.
  - destruct (st_xgbonly _ _ HS EX) as (_ & _ & Hss & Hcss). rewrite !Bool.andb_true_r.
    destruct HD as [<-|[Hx|[D1 D2]]]; [|congruence|].
    + assert (A : fltb (o_ss O) fone = fltb (o_ss O') fone /\ (fltb (o_ss O) fone = true -> o_ss O = o_ss O')) by (destruct Hss as [->|[-> ->]]; split; auto; discriminate).
      assert (B : fltb (o_css O) fone = fltb (o_css O') fone /\ (fltb (o_css O) fone = true -> o_css O = o_css O')) by (destruct Hcss as [->|[-> ->]]; split; auto; discriminate).
      destruct A as [A1 A2]. destruct B as [B1 B2]. rewrite <- A1, <- B1. destruct (fltb (o_ss O) fone) eqn:ES; destruct (fltb (o_css O) fone) eqn:EC;
        rewrite <- ?(A2 eq_refl), <- ?(B2 eq_refl); reflexivity.
    + assert (A : fltb (o_ss O') fone = false) by (destruct Hss as [<-|[_ ->]]; auto). assert (B : fltb (o_css O') fone = false) by (destruct Hcss as [<-|[_ ->]]; auto).
      rewrite D1, D2, A, B. reflexivity.
  - rewrite !Bool.andb_false_r. reflexivity.
Qed.
Lemma roundStep_same data ohe nl rnd rnd' sb rd : rnd = rnd' \/ noDraws O -> roundStep E P data ohe nl rnd sb rd = roundStep E P' data ohe nl rnd' sb rd.
Proof.
  intros HD. unfold roundStep. destruct sb as [st bs]. rewrite (roundSamples_same data (rnd rd) (rnd' rd)) by (destruct HD as [->|HD]; auto).
  destruct (roundSamples P' data (rnd' rd)) as [[ix cols]| |]; cbn [bind]; [|reflexivity|reflexivity].
  assert (EM : (Z.of_nat (length (orNil ix)) <? o_minsample P) = (Z.of_nat (length (orNil ix)) <? o_minsample P')).
  { change (o_minsample P) with (o_minsample O). change (o_minsample P') with (o_minsample O'). destruct (st_min _ _ HS) as [->|[H1 H2]]; [reflexivity|]. set (n := length (orNil ix)). clearbody n. transitivity false; [|symmetry]; apply Z.ltb_ge; lia. }
  rewrite EM. destruct (Z.of_nat (length (orNil ix)) <? o_minsample P'); [reflexivity|].
  rewrite (foldM_ext _ (classStep E P' data ohe ix cols rd)); [reflexivity|]. intros s a. apply classStep_same.
Qed.
Lemma c122_lemma {K} rnd rnd' (D : DataBunch K) : rnd = rnd' \/ noDraws O -> resultOf (NewMultiClass E rnd D O) = resultOf (NewMultiClass E rnd' D O').
Proof.
  intros HD. unfold NewMultiClass. destruct (oneHotEncodeDense (Labels D)) as [[ohe labels]| |]; cbn [bind]; [|reflexivity|reflexivity].
  destruct (NewDense _ _ _) as [raw0| |]; cbn [bind]; [|reflexivity|reflexivity]. fold P P'.
  change (o_base P) with (o_base O). change (o_base P') with (o_base O'). rewrite <- (st_base _ _ HS).
  destruct (SoftMaxDense E _ None) as [probs| |]; cbn [bind]; [|reflexivity|reflexivity].
  assert (ER : Z.to_nat (o_rounds P) = Z.to_nat (o_rounds P')).
  { change (o_rounds P) with (o_rounds O). change (o_rounds P') with (o_rounds O'). destruct (st_rounds _ _ HS) as [H1|[H1 H2]]; [congruence|lia]. }
  rewrite ER. rewrite (foldM_ext _ (roundStep E P' (Data D) ohe (length labels) rnd')) by (intros; apply roundStep_same; auto).
  destruct (foldM _ _ _) as [[st hist]| |]; cbn [bind resultOf]; [|reflexivity|reflexivity]. cbn [tr_model tr_hist].
  change (o_lr P) with (o_lr O). change (o_lr P') with (o_lr O'). rewrite <- (st_lr _ _ HS).
  change (o_xgb P) with (o_xgb O). change (o_xgb P') with (o_xgb O'). rewrite <- (st_xgb _ _ HS). reflexivity.
Qed.
End Same.
Lemma c122_options {K} E rnd (D : DataBunch K) O tr : NewMultiClass E rnd D O = Ok tr ->
  fltb (o_mcw (tr_opts tr)) fone = false /\ sameTraining O (tr_opts tr) /\ (fltb (o_mcw O) fone = false -> tr_opts tr = O) /\ (fltb (o_mcw O) fone = true -> o_mcw (tr_opts tr) = fone).
Proof.
  intros H. assert (EO : tr_opts tr = fixMCW O).
  { unfold NewMultiClass in H. apply bind_Ok in H as ([ohe labels] & _ & H). cbv zeta in H. apply bind_Ok in H as (? & _ & H). apply bind_Ok in H as (? & _ & H).
    apply bind_Ok in H as ([st hist] & _ & H). injection H as <-. reflexivity. }
  rewrite EO. destruct O as [x ro md es lr la mcw ga ss css ba ms me ve lo]. unfold fixMCW. cbn [o_mcw o_xgb o_rounds o_maxdepth o_earlystop o_lr o_lambda o_gamma o_ss o_css o_base o_minsample o_method o_verbose o_loss].
  assert (H1 : fltb fone fone = false) by (vm_compute; reflexivity).
  assert (H2 : ftoZ fone = 1) by (vm_compute; reflexivity).
  destruct (fltb mcw fone) eqn:EM.
  - split; [exact H1|]. split; [|split; [discriminate|reflexivity]].
    constructor; cbn [o_mcw o_xgb o_rounds o_maxdepth o_earlystop o_lr o_lambda o_gamma o_ss o_css o_base o_minsample o_method o_verbose o_loss]; unfold sameOrOff, sameOrAll; auto.
    unfold askedWeight. rewrite EM, H1, H2. reflexivity.
  - split; [exact EM|]. split; [|split; [reflexivity|discriminate]]. constructor; unfold sameOrOff, sameOrAll; auto.
Qed.
