(** Proofs of C148: labels and rows of different number. *)
From Verif Require Import Base F64 Env Utils UtilsProofs UtilsThms Spec Tree TreeProofs Options Train TrainProofs ErrProofs SpecSurp.
Open Scope Z_scope.

(** ** prefixes *)
Lemma begins_len {A} (a b : list A) : begins a b -> (length b <= length a)%nat.
Proof. intros [t ->]. rewrite app_length. lia. Qed.
Lemma begins_refl {A} (a : list A) : begins a a.
Proof. exists []. rewrite app_nil_r. reflexivity. Qed.
Lemma begins_nth {A} (a b : list A) i v : begins a b -> nth_error b i = Some v -> nth_error a i = Some v.
Proof. intros [t ->] H. rewrite nth_error_app1; auto. apply nth_error_Some. congruence. Qed.
Lemma begins_of_nth {A} (a : list A) : forall b, (forall i v, nth_error b i = Some v -> nth_error a i = Some v) -> begins a b.
Proof.
  induction a as [|x a IH]; intros [|y b] H.
  - exists []. reflexivity.
  - specialize (H O y eq_refl). discriminate H.
  - exists (x :: a). reflexivity.
  - assert (E : x = y) by (specialize (H O y eq_refl); cbn in H; congruence). subst y.
    destruct (IH b) as [t ->]; [intros i v Hv; apply (H (S i)); auto|]. exists t. reflexivity.
Qed.
Lemma begins_idx {A} (a b : list A) z v : begins a b -> idx b z = Ok v -> idx a z = Ok v.
Proof.
  intros HB H. apply idx_Ok in H as [H1 H2]. apply idx_Ok. split; [auto|]. eapply begins_nth; eauto.
Qed.
Lemma begins_sample {A} (a b : list A) ix r : begins a b -> SampleSlice b ix = Ok r -> SampleSlice a ix = Ok r.
Proof.
  intros HB. unfold SampleSlice. pose proof (begins_len _ _ HB). destruct (Nat.ltb_spec (length b) (length ix)); [discriminate|].
  destruct (Nat.ltb_spec (length a) (length ix)); [lia|]. clear H0 H1. revert r. induction ix as [|z ix IH]; intros r Hr; cbn [mapM] in *; [auto|].
  binv Hr. binv Hr. rewrite (begins_idx _ _ _ _ HB Hb). cbn [bind]. rewrite (IH _ Hb0). exact Hr.
Qed.
Lemma begins_sum a b ix : begins a b -> forall acc r, sumAt b ix acc = Ok r -> sumAt a ix acc = Ok r.
Proof.
  intros HB. induction ix as [|z ix IH]; intros acc r H; cbn [sumAt] in *; [auto|].
  binv H. rewrite (begins_idx _ _ _ _ HB Hb). cbn [bind]. auto.
Qed.

(** ** trees *)
Definition begins' {A} (a b : option (list A)) : Prop := begins (orNil a) (orNil b) /\ (a = None <-> b = None).
(** [o] has the options of [o'] with longer targets, gradients and hessians *)
Definition widened (o o' : TreeOptions) : Prop :=
  to_xgb o = to_xgb o' /\ to_mcw o = to_mcw o' /\ to_allowed o = to_allowed o' /\ to_lambda o = to_lambda o' /\ to_gamma o = to_gamma o' /\
  to_in o = to_in o' /\ to_val o = to_val o' /\ to_maxdepth o = to_maxdepth o' /\ to_indexes o = to_indexes o' /\
  begins' (to_grads o) (to_grads o') /\ begins' (to_hess o) (to_hess o') /\ begins (to_y o) (to_y o').
Lemma isNone_begins {A} (a b : option (list A)) : begins' a b -> isNone a = isNone b.
Proof. intros [_ [H1 H2]]. destruct a, b; cbn; auto; [specialize (H2 eq_refl)|specialize (H1 eq_refl)]; discriminate. Qed.

Section Grow.
Context (E : Env) (X : list (list f64)).
Lemma prepare_widened o o' : widened o o' -> widened (prepare X o) (prepare X o').
Proof.
  intros (H1 & H2 & H3 & H4 & H5 & H6 & H7 & H8 & H9 & H10 & H11 & H12). unfold widened, prepare; cbn [to_xgb to_mcw to_allowed to_lambda to_gamma to_in to_val to_maxdepth to_indexes to_grads to_hess to_y].
  rewrite H6, H7, H9. repeat (split; auto).
Qed.
Lemma child_widened o o' ix : widened o o' -> widened (childOpts o ix) (childOpts o' ix).
Proof.
  intros (H1 & H2 & H3 & H4 & H5 & H6 & H7 & H8 & H9 & H10 & H11 & H12). unfold widened, childOpts, clone; cbn [to_xgb to_mcw to_allowed to_lambda to_gamma to_in to_val to_maxdepth to_indexes to_grads to_hess to_y].
  repeat (split; [solve [auto | congruence]|]). auto.
Qed.
Lemma value_widened o o' ix r : widened o o' -> nodeValue E o' ix = Ok r -> nodeValue E o ix = Ok r.
Proof.
  intros (H1 & H2 & H3 & H4 & H5 & H6 & H7 & H8 & H9 & H10 & H11 & H12) H. unfold nodeValue in *. rewrite H1, H4. destruct (to_xgb o').
  - binv H. rewrite (begins_sample _ _ _ _ (proj1 H10) Hb). cbn [bind]. binv H. rewrite (begins_sample _ _ _ _ (proj1 H11) Hb0). exact H.
  - binv H. rewrite (begins_sample _ _ _ _ H12 Hb). exact H.
Qed.
Lemma fbs_widened o o' ix b f r : widened o o' -> findBetterSplit E X o' ix b f = Ok r -> findBetterSplit E X o ix b f = Ok r.
Proof.
  intros (H1 & H2 & H3 & H4 & H5 & H6 & H7 & H8 & H9 & H10 & H11 & H12) H. unfold findBetterSplit in *. rewrite H1, H2, H4, H5, H6, H7.
  binv H. rewrite Hb. cbn [bind]. binv H. rewrite Hb0. cbn [bind]. binv H. rewrite Hb1. cbn [bind]. binv H. rewrite Hb2. cbn [bind].
  destruct v2 as [si sx]. destruct (to_xgb o').
  - binv H. rewrite (begins_sample _ _ _ _ (proj1 H10) Hb3). cbn [bind]. binv H. rewrite (begins_sample _ _ _ _ (proj1 H11) Hb4). exact H.
  - binv H. rewrite (begins_sample _ _ _ _ H12 Hb3). exact H.
Qed.
Lemma fold_widened o o' ix fs : widened o o' -> forall b r, foldM (findBetterSplit E X o' ix) b fs = Ok r -> foldM (findBetterSplit E X o ix) b fs = Ok r.
Proof.
  intros HW. induction fs as [|f fs IH]; intros b r H; cbn [foldM] in *; [auto|].
  binv H. rewrite (fbs_widened _ _ _ _ _ _ HW Hb). cbn [bind]. auto.
Qed.
Lemma grow_widened n : forall o o' t, widened o o' -> grow E X n o' = Ok t -> grow E X n o = Ok t.
Proof.
  induction n as [|n IH]; intros o o' t HW H; pose proof HW as (H1 & H2 & H3 & H4 & H5 & H6 & H7 & H8 & H9 & H10 & H11 & H12);
    cbn [grow] in H |- *; rewrite H1, (isNone_begins _ _ H10), (isNone_begins _ _ H11);
    destruct (to_xgb o' && isNone (to_grads o') && isNone (to_hess o')); try discriminate H;
    pose proof (prepare_widened _ _ HW) as HP;
    assert (HI : to_indexes (prepare X o) = to_indexes (prepare X o')) by apply HP; rewrite HI;
    assert (HX : to_xgb (prepare X o) = to_xgb (prepare X o')) by apply HP; rewrite HX.
  - binv H. rewrite (value_widened _ _ _ _ HP Hb). cbn [bind]. destruct v as [value s0]. exact H.
  - binv H. rewrite (value_widened _ _ _ _ HP Hb). cbn [bind]. destruct v as [value s0]. binv H. rewrite Hb0. cbn [bind].
    assert (HA : to_allowed (prepare X o) = to_allowed (prepare X o')) by apply HP. rewrite HA.
    binv H. rewrite (fold_widened _ _ _ _ HP _ _ Hb1). cbn [bind]. destruct (leafScore _ _); [exact H|].
    binv H. rewrite Hb2. cbn [bind]. destruct (splitSamples _ _ _) as [il ir].
    binv H. rewrite (IH _ _ _ (child_widened _ _ il HP) Hb3). cbn [bind]. binv H. rewrite (IH _ _ _ (child_widened _ _ ir HP) Hb4). exact H.
Qed.
End Grow.

Lemma leaves_widened g g' h h' : begins g g' -> begins h h' -> forall t u, updateLeaves t g' h' = Ok u -> updateLeaves t g h = Ok u.
Proof.
  intros HG HH. induction t as [|d l IHl r IHr]; intros u H; [discriminate H|]. cbn [updateLeaves] in H |- *.
  assert (HC : forall (t : tree) t', (forall u, updateLeaves t g' h' = Ok u -> updateLeaves t g h = Ok u) ->
     match t with Nil => Ok Nil | Node _ _ _ => updateLeaves t g' h' end = Ok t' -> match t with Nil => Ok Nil | Node _ _ _ => updateLeaves t g h end = Ok t').
  { intros [|d0 l0 r0] t' IH Ht; [exact Ht|]. apply IH. exact Ht. }
  binv H. rewrite (HC _ _ IHl Hb). cbn [bind]. binv H. rewrite (HC _ _ IHr Hb0). cbn [bind].
  destruct (t_leaf d); [|exact H]. destruct (t_samples d); [|discriminate H].
  binv H. rewrite (begins_sum _ _ _ HH _ _ Hb1). cbn [bind]. binv H. rewrite (begins_sum _ _ _ HG _ _ Hb2). exact H.
Qed.

Lemma classTree_widened E O data ix cols lab lab' pr pr' t : rowwise (o_loss O) -> begins lab lab' -> begins pr pr' -> length lab' = length pr' ->
  classTree E O data ix cols lab' pr' = Ok t -> classTree E O data ix cols lab pr = Ok t.
Proof.
  intros [HR1 HR2] HL HP HE H. unfold classTree in *.
  assert (HG : begins (l_grad (o_loss O) lab pr) (l_grad (o_loss O) lab' pr') /\ begins (l_neg (o_loss O) lab pr) (l_neg (o_loss O) lab' pr')).
  { destruct HL as [a ->], HP as [b ->]. apply HR1. exact HE. }
  assert (HH : begins (l_hess (o_loss O) pr) (l_hess (o_loss O) pr')) by (destruct HP as [b ->]; apply HR2).
  destruct HG as [HG HN]. destruct (o_xgb O).
  - unfold NewTree in *. eapply grow_widened; [|exact H]. unfold widened, xTreeOpts; cbn. repeat (split; auto); congruence.
  - binv H. unfold NewTree in *. assert (HB : begins' (@None (list f64)) None) by (split; [exists []; reflexivity|tauto]).
    assert (HGr : grow E data (Z.to_nat (o_maxdepth O)) (gTreeOpts O (length data) (l_neg (o_loss O) lab pr)) = Ok v).
    { eapply grow_widened; [|exact Hb]. unfold widened, gTreeOpts; cbn. repeat (split; [solve [auto]|]). auto. }
    cbn [gTreeOpts to_maxdepth]. cbn [gTreeOpts] in HGr. rewrite HGr. cbn [bind]. eapply leaves_widened; eauto.
Qed.

(** ** matrices with more rows *)
Definition taller (A B : dense) : Prop := wfDense A /\ wfDense B /\ d_c A = d_c B /\ (d_r B <= d_r A)%nat /\ begins (d_data A) (d_data B).
Lemma taller_entry A B i j v : taller A B -> (i < d_r B)%nat -> entry A i j v -> entry B i j v.
Proof.
  intros (HA & HB & HC & HR & HG) Hi [Hj He]. rewrite HC in *. split; [auto|]. destruct HB as (_ & _ & HL).
  destruct (nth_error (d_data B) (i * d_c B + j)) as [w|] eqn:Ew.
  - rewrite (begins_nth _ _ _ _ HG Ew) in He. congruence.
  - apply nth_error_None in Ew. nia.
Qed.
Lemma taller_col A B col l : taller A B -> (col < d_c B)%nat -> DenseCol B (Z.of_nat col) = Ok l -> exists l', DenseCol A (Z.of_nat col) = Ok l' /\ begins l' l /\ length l = d_r B.
Proof.
  intros HT Hc H. pose proof HT as (HA & HB & HC & HR & HG).
  destruct (proj1 (c21_densecol_lemma B HB) col Hc) as (lb & E1 & L1 & N1). rewrite H in E1. apply Ok_inj' in E1. subst lb.
  destruct (proj1 (c21_densecol_lemma A HA) col ltac:(lia)) as (la & E2 & L2 & N2).
  exists la. split; [auto|]. split; [|auto]. apply begins_of_nth. intros i v Hv. apply N1 in Hv as [Hi [_ He]]. apply N2. split; [lia|].
  split; [lia|]. rewrite HC. eapply begins_nth; eauto.
Qed.
Lemma taller_add A B s s' col B' : taller A B -> (col < d_c B)%nat -> length s = d_r A -> length s' = d_r B -> begins s s' ->
  AddToCol B s' (Z.of_nat col) = Ok B' -> exists A', AddToCol A s (Z.of_nat col) = Ok A' /\ taller A' B' /\ d_r A' = d_r A /\ d_r B' = d_r B /\ d_c B' = d_c B.
Proof.
  intros (HA & HB & HC & HR & HG) Hc L L' HS H.
  destruct (AddToCol_gen B s' col HB ltac:(lia) L') as (b & E1 & R1 & C1 & W1 & I1 & O1). rewrite H in E1. apply Ok_inj' in E1. subst b.
  destruct (AddToCol_gen A s col HA ltac:(lia) L) as (a & E2 & R2 & C2 & W2 & I2 & O2).
  exists a. split; [auto|]. split; [|auto]. split; [auto|]. split; [auto|]. split; [congruence|]. split; [lia|].
  destruct (Nat.ltb_spec col (d_c B)) as [_|]; [|lia]. destruct (Nat.ltb_spec col (d_c A)) as [_|]; [|lia].
  apply begins_of_nth. intros p v Hv. destruct W1 as (_ & _ & LB'). pose proof HB as (_ & Pc & LB).
  assert (Hp : (p < d_r B * d_c B)%nat) by (rewrite <- R1, <- C1, <- LB'; apply nth_error_Some; congruence).
  assert (Hdm : (p = (p / d_c B) * d_c B + p mod d_c B)%nat) by (rewrite Nat.mul_comm; apply Nat.div_mod; lia).
  assert (Hm : (p mod d_c B < d_c B)%nat) by (apply Nat.mod_upper_bound; lia).
  set (i := (p / d_c B)%nat) in *. set (j := (p mod d_c B)%nat) in *. clearbody i j. subst p.
  assert (Hi : (i < d_r B)%nat) by nia.
  destruct (Nat.eq_dec j col) as [->|Hne].
  - destruct (nth_error (d_data B) (i * d_c B + col)) as [w|] eqn:Ew; [|apply nth_error_None in Ew; nia].
    destruct (nth_error s' i) as [x|] eqn:Ex; [|apply nth_error_None in Ex; lia].
    rewrite (I1 i w x Hi Ew Ex) in Hv. rewrite <- HC. rewrite <- Hv. apply I2; [lia| |eapply begins_nth; eauto].
    rewrite HC. eapply begins_nth; eauto.
  - rewrite O1 in Hv by (intros i' Hi' Heq; apply divmod_eq in Heq; lia).
    rewrite O2 by (intros i' Hi' Heq; rewrite HC in Heq; apply divmod_eq in Heq; lia). eapply begins_nth; eauto.
Qed.
Lemma taller_rowView A B k : taller A B -> (k < d_r B)%nat -> rowView A k = rowView B k.
Proof.
  intros (HA & HB & HC & HR & [t HG]) Hk. unfold rowView. rewrite HC, HG. destruct HB as (_ & _ & LB).
  rewrite skipn_app, firstn_app. rewrite skipn_length, LB. replace (d_c B - (d_r B * d_c B - k * d_c B))%nat with O by nia.
  rewrite firstn_O, app_nil_r. reflexivity.
Qed.
Lemma taller_of_rows A B : wfDense A -> wfDense B -> d_c A = d_c B -> (d_r B <= d_r A)%nat -> (forall k, (k < d_r B)%nat -> rowView A k = rowView B k) -> taller A B.
Proof.
  intros HA HB HC HR HV. split; [auto|]. split; [auto|]. split; [auto|]. split; [auto|].
  apply begins_of_nth. intros p v Hv. pose proof HB as (_ & Pc & LB). pose proof HA as (_ & _ & LA).
  assert (Hp : (p < d_r B * d_c B)%nat) by (rewrite <- LB; apply nth_error_Some; congruence).
  assert (Hdm : (p = (p / d_c B) * d_c B + p mod d_c B)%nat) by (rewrite Nat.mul_comm; apply Nat.div_mod; lia).
  assert (Hm : (p mod d_c B < d_c B)%nat) by (apply Nat.mod_upper_bound; lia).
  set (i := (p / d_c B)%nat) in *. set (j := (p mod d_c B)%nat) in *. clearbody i j. subst p.
  assert (Hi : (i < d_r B)%nat) by nia.
  assert (HN : forall D, wfDense D -> d_c D = d_c B -> (i < d_r D)%nat -> nth_error (rowView D i) j = nth_error (d_data D) (i * d_c B + j)).
  { intros D (_ & _ & LD) HD HiD. unfold rowView. rewrite HD, nth_firstn by auto. rewrite nth_skipn. reflexivity. }
  rewrite <- (HN A) by (auto; lia). rewrite (HV i Hi). rewrite (HN B) by auto. exact Hv.
Qed.
Lemma taller_softmax E A B dA dB P' : taller A B -> (forall d, dA = Some d -> wfDense d /\ d_r d = d_r A /\ d_c d = d_c A) ->
  (forall d, dB = Some d -> wfDense d /\ d_r d = d_r B /\ d_c d = d_c B) ->
  SoftMaxDense E B dB = Ok P' -> exists P, SoftMaxDense E A dA = Ok P /\ taller P P' /\ d_r P = d_r A /\ d_r P' = d_r B /\ d_c P' = d_c B.
Proof.
  intros HT HdA HdB H. pose proof HT as (HA & HB & HC & HR & _).
  destruct (c80_lemma E B dB HB HdB) as (Q & E1 & W1 & R1 & C1 & V1). rewrite H in E1. apply Ok_inj' in E1. subst Q.
  destruct (c80_lemma E A dA HA HdA) as (P & E2 & W2 & R2 & C2 & V2). exists P. split; [auto|]. split; [|auto].
  apply taller_of_rows; auto; try congruence; try lia. intros k Hk. specialize (V1 k ltac:(lia)). specialize (V2 k ltac:(lia)).
  rewrite (taller_rowView _ _ _ HT) in V2 by lia. rewrite HC in V2. rewrite V1 in V2. apply Ok_inj' in V2. auto.
Qed.

(** ** the loop *)
Definition alike (n : nat) (st st' : tstate) : Prop :=
  taller (s_raw st) (s_raw st') /\ taller (s_probs st) (s_probs st') /\ d_r (s_raw st) = d_r (s_probs st) /\ d_r (s_raw st') = n /\ d_r (s_probs st') = n /\
  d_c (s_raw st') = d_c (s_probs st') /\ length (s_tmp st) = d_r (s_raw st) /\ length (s_tmp st') = n /\
  s_stopped st = s_stopped st' /\ s_noprog st = s_noprog st' /\ s_prev st = s_prev st'.

Lemma predict_more t data p p' out : length p' = length data -> (length p' <= length p)%nat -> Predict t data (Some p') = Ok out ->
  exists out2, Predict t data (Some p) = Ok out2 /\ begins out2 out /\ length out2 = length p /\ length out = length p'.
Proof.
  intros HL HP H. pose proof (Predict_inv _ _ _ _ H) as [L1 N1].
  destruct (predictLoop_spec t data 0 p ltac:(lia)) as (out2 & E2 & L2 & N2 & _).
  { intros row Hr. apply In_nth_error in Hr as [k Hk]. destruct (N1 _ _ Hk) as (v & Hv & _). eauto. }
  { lia. }
  exists out2. split; [exact E2|]. split; [|auto]. apply begins_of_nth. intros i v Hv.
  assert (Hi : (i < length data)%nat) by (rewrite <- HL, <- L1; apply nth_error_Some; congruence).
  destruct (nth_error data i) as [row|] eqn:Er; [|apply nth_error_None in Er; lia].
  destruct (N1 _ _ Er) as (w & Hw & Ho). destruct (N2 _ _ Er) as (w2 & Hw2 & Ho2). cbn in Ho2. congruence.
Qed.
Lemma begins_map {A B} (f : A -> B) a b : begins a b -> begins (map f a) (map f b).
Proof. intros [t ->]. exists (map f t). apply map_app. Qed.

Definition sameTrees (a b : list entryG) : Prop := map g_tree a = map g_tree b.
Lemma step_more E O data ohe ohe' ix cols round st st' acc acc' k r' : rowwise (o_loss O) -> o_earlystop O <= 0 -> alike (length data) st st' -> taller ohe ohe' ->
  d_r ohe' = length data -> (k < d_c ohe')%nat -> d_c (s_raw st') = d_c ohe' -> sameTrees acc acc' ->
  classStep E O data ohe' ix cols round (st', acc') k = Ok r' ->
  exists r, classStep E O data ohe ix cols round (st, acc) k = Ok r /\ alike (length data) (fst r) (fst r') /\ sameTrees (snd r) (snd r') /\ d_c (s_raw (fst r')) = d_c ohe'.
Proof.
  intros HW HE HA HO HR Hk HC HT H. pose proof HA as (A1 & A2 & A3 & A4 & A5 & A6 & A7 & A8 & A9 & A10 & A11). unfold classStep in *. rewrite A9.
  destruct (nth k (s_stopped st') false).
  { apply Ok_inj' in H. subst r'. eexists. split; [reflexivity|]. auto. }
  binv H. rename v into lab'. destruct (taller_col _ _ _ _ HO Hk Hb) as (lab & El & Bl & Ll). rewrite El. cbn [bind].
  binv H. rename v into pr'. destruct (taller_col _ _ k _ A2 ltac:(lia) Hb0) as (pr & Ep & Bp & Lp). rewrite Ep. cbn [bind].
  binv H. rename v into t. rewrite (classTree_widened _ _ _ _ _ _ _ _ _ _ HW Bl Bp ltac:(congruence) Hb1). cbn [bind].
  binv H. rename v into preds'. destruct A1 as (W1 & W2 & W3 & W4 & W5).
  destruct (predict_more t data (s_tmp st) (s_tmp st') preds' ltac:(lia) ltac:(lia) Hb2) as (preds & Ed & Bd & Ld & Ld'). rewrite Ed. cbn [bind].
  binv H. rename v into raw'.
  destruct (taller_add (s_raw st) (s_raw st') (map (fun v => fmul v (o_lr O)) preds) (map (fun v => fmul v (o_lr O)) preds') k raw') as (raw & Er & T1 & R1 & R2 & C2); auto.
  { split; auto. } { lia. } { rewrite map_length. lia. } { rewrite map_length. lia. } { apply begins_map; auto. }
  rewrite Er. cbn [bind]. binv H. rename v into probs'. destruct A2 as (V1 & V2 & V3 & V4 & V5).
  destruct (taller_softmax E raw raw' (Some (s_probs st)) (Some (s_probs st')) probs' T1) as (probs & Es & T2 & R3 & R4 & C4); auto.
  { intros d Hd. injection Hd as <-. split; [auto|]. destruct T1 as (_ & _ & Q & _). split; [congruence|]. congruence. }
  { intros d Hd. injection Hd as <-. split; [auto|]. split; congruence. }
  rewrite Es. cbn [bind]. binv H. rename v into pr2'. destruct (taller_col _ _ k _ T2 ltac:(lia) Hb5) as (pr2 & Ep2 & _). rewrite Ep2. cbn [bind].
  apply Ok_inj' in H. subst r'. eexists. split; [reflexivity|]. cbn [fst snd]. unfold earlyStop. destruct (Z.ltb_spec 0 (o_earlystop O)); [lia|].
  split; [|split; [unfold sameTrees in *; rewrite !map_app, HT; reflexivity|cbn [s_raw]; congruence]].
  unfold alike; cbn [s_raw s_probs s_tmp s_stopped s_noprog s_prev].
  split; [auto|]. split; [auto|]. split; [congruence|]. split; [congruence|]. split; [congruence|]. split; [congruence|].
  rewrite !map_length. split; [congruence|]. split; [congruence|]. auto.
Qed.
Lemma classes_more E O data ohe ohe' ix cols round ks : rowwise (o_loss O) -> o_earlystop O <= 0 -> taller ohe ohe' -> d_r ohe' = length data ->
  (forall k, In k ks -> (k < d_c ohe')%nat) -> forall st st' acc acc' r', alike (length data) st st' -> d_c (s_raw st') = d_c ohe' -> sameTrees acc acc' ->
  foldM (classStep E O data ohe' ix cols round) (st', acc') ks = Ok r' ->
  exists r, foldM (classStep E O data ohe ix cols round) (st, acc) ks = Ok r /\ alike (length data) (fst r) (fst r') /\ sameTrees (snd r) (snd r') /\ d_c (s_raw (fst r')) = d_c ohe'.
Proof.
  intros HW HE HO HR. induction ks as [|k ks IH]; intros Hks st st' acc acc' r' HA HC HT H; cbn [foldM] in *.
  - apply Ok_inj' in H. subst r'. eexists. split; [reflexivity|]. auto.
  - binv H. destruct (step_more _ _ _ _ _ _ _ _ _ _ _ _ _ _ HW HE HA HO HR (Hks k ltac:(left; auto)) HC HT Hb) as ([st1 acc1] & E1 & A1 & T1 & C1).
    rewrite E1. cbn [bind]. destruct v as [st1' acc1']. cbn [fst snd] in *. eapply IH; eauto. intros; apply Hks; right; auto.
Qed.
Lemma rounds_more E O data ohe ohe' nl rnd ks : rowwise (o_loss O) -> o_earlystop O <= 0 -> taller ohe ohe' -> d_r ohe' = length data -> nl = d_c ohe' ->
  forall st st' bs bs' r', alike (length data) st st' -> d_c (s_raw st') = d_c ohe' -> map (map g_tree) bs = map (map g_tree) bs' ->
  foldM (roundStep E O data ohe' nl rnd) (st', bs') ks = Ok r' ->
  exists r, foldM (roundStep E O data ohe nl rnd) (st, bs) ks = Ok r /\ alike (length data) (fst r) (fst r') /\ map (map g_tree) (snd r) = map (map g_tree) (snd r').
Proof.
  intros HW HE HO HR HN. induction ks as [|k ks IH]; intros st st' bs bs' r' HA HC HT H; cbn [foldM] in *.
  - apply Ok_inj' in H. subst r'. eexists. split; [reflexivity|]. auto.
  - binv H. rename Hb into H1. unfold roundStep in H1 |- * at 1. binv H1. rewrite Hb. cbn [bind]. destruct v0 as [ix cols].
    destruct (Z.ltb_spec (Z.of_nat (length (orNil ix))) (o_minsample O)).
    + apply Ok_inj' in H1. subst v. cbn [bind]. eapply IH; eauto.
    + binv H1. destruct (classes_more E O data ohe ohe' ix cols k (seq 0 nl) HW HE HO HR ltac:(intros z Hz; apply in_seq in Hz; lia) st st' [] [] _ HA HC eq_refl Hb0) as ([st1 acc1] & E1 & A1 & T1 & C1).
      rewrite E1. cbn [bind]. destruct v0 as [st1' acc1']. apply Ok_inj' in H1. subst v. cbn [fst snd] in *. cbn [bind]. apply (IH st1 st1' (bs ++ [acc1]) (bs' ++ [acc1']) r' A1 C1); [|exact H].
      rewrite !map_app, HT. cbn [map]. unfold sameTrees in T1. rewrite T1. reflexivity.
Qed.

Lemma distinct_more l s : (forall v, In v s -> In v l) -> distinctElements (l ++ s) = distinctElements l.
Proof.
  induction s as [|v s IH] using rev_ind; intros H; [rewrite app_nil_r; reflexivity|].
  rewrite app_assoc, distinct_snoc, IH by (intros w Hw; apply H; apply in_or_app; auto).
  destruct (contains (distinctElements l) v) eqn:Ec; [reflexivity|]. exfalso.
  assert (Hin : In v (distinctElements l)) by (apply (distinct_spec l); apply H; apply in_or_app; right; left; auto).
  apply contains_iff in Hin. congruence.
Qed.
Lemma ohe_snd labels D de : oneHotEncodeDense labels = Ok (D, de) -> de = distinctElements labels.
Proof. unfold oneHotEncodeDense. intros H. binv H. binv H. apply Ok_inj' in H. apply (f_equal snd) in H. auto. Qed.

Lemma more_lemma K E rnd (D : DataBunch K) S O tr : rowwise (o_loss O) -> o_earlystop O <= 0 -> length (Labels D) = length (Data D) ->
  (forall v, In v S -> In v (Labels D)) -> NewMultiClass E rnd D O = Ok tr ->
  exists tr', NewMultiClass E rnd (moreLabels D S) O = Ok tr' /\ tr_model tr' = tr_model tr /\ tr_opts tr' = tr_opts tr.
Proof.
  intros HW HE HL HS H. unfold NewMultiClass in *. cbn [moreLabels Labels Data].
  binv H. rename Hb into H0. destruct v as [ohe' labels].
  assert (Hne : Labels D <> []) by (intros En; rewrite En in H0; discriminate H0).
  destruct (proj2 (c22_lemma (Labels D)) Hne) as (D1 & de1 & E1 & F1 & W1 & R1 & C1 & N1). rewrite H0 in E1. apply Ok_inj' in E1.
  pose proof (f_equal fst E1) as Ea. pose proof (f_equal snd E1) as Eb. cbn [fst snd] in Ea, Eb. subst D1 de1. clear E1.
  destruct (proj2 (c22_lemma (Labels D ++ S))) as (ohe & de & E2 & F2 & W2 & R2 & C2 & N2); [destruct (Labels D); [congruence|discriminate]|].
  pose proof (ohe_snd _ _ _ E2) as Hde. pose proof (ohe_snd _ _ _ H0) as Hde'. rewrite distinct_more in Hde by auto. rewrite <- Hde' in Hde. subst de.
  rewrite E2. cbn [bind]. cbn beta iota zeta in H |- *.
  assert (HT : taller ohe ohe').
  { split; [auto|]. split; [auto|]. split; [congruence|]. split; [rewrite R1, R2, app_length; lia|].
    apply begins_of_nth. intros p v Hv. pose proof W1 as (_ & Pc & LB).
    assert (Hp : (p < d_r ohe' * d_c ohe')%nat) by (rewrite <- LB; apply nth_error_Some; congruence).
    assert (Hdm : (p = (p / d_c ohe') * d_c ohe' + p mod d_c ohe')%nat) by (rewrite Nat.mul_comm; apply Nat.div_mod; lia).
    assert (Hm : (p mod d_c ohe' < d_c ohe')%nat) by (apply Nat.mod_upper_bound; lia).
    set (i := (p / d_c ohe')%nat) in *. set (j := (p mod d_c ohe')%nat) in *. clearbody i j. subst p.
    assert (Hi : (i < d_r ohe')%nat) by nia.
    destruct (nth_error (Labels D) i) as [l|] eqn:El; [|apply nth_error_None in El; lia].
    destruct (nth_error labels j) as [w|] eqn:Ew; [|apply nth_error_None in Ew; lia].
    destruct (N1 i j l w El Ew) as [_ Q1].
    destruct (N2 i j l w) as [_ Q2]; [rewrite nth_error_app1; auto; apply nth_error_Some; congruence|auto|].
    rewrite C2, <- C1 in Q2. congruence. }
  set (bs := o_base (fixMCW O)) in *.
  binv H. rename v into raw0'. rename Hb into Hr'.
  assert (Hraw0 : NewDense (d_r ohe) (d_c ohe) (repeat fzero (d_r ohe * d_c ohe)) = Ok (Dense (d_r ohe) (d_c ohe) (repeat fzero (d_r ohe * d_c ohe)))).
  { destruct W2 as (P1 & P2 & _). unfold NewDense. rewrite repeat_length, Nat.eqb_refl. destruct (Nat.eqb_spec (d_r ohe) 0); [lia|]. destruct (Nat.eqb_spec (d_c ohe) 0); [lia|]. reflexivity. }
  rewrite Hraw0. cbn [bind].
  assert (Hraw0' : raw0' = Dense (d_r ohe') (d_c ohe') (repeat fzero (d_r ohe' * d_c ohe'))).
  { destruct W1 as (P1 & P2 & _). unfold NewDense in Hr'. rewrite repeat_length, Nat.eqb_refl in Hr'. destruct (Nat.eqb_spec (d_r ohe') 0); [lia|]. destruct (Nat.eqb_spec (d_c ohe') 0); [lia|].
    cbn in Hr'. apply Ok_inj' in Hr'. auto. }
  subst raw0'. clear Hr'.
  set (rawA := scaleDense bs (ToOnes (Dense (d_r ohe) (d_c ohe) (repeat fzero (d_r ohe * d_c ohe))))) in *.
  set (rawB := scaleDense bs (ToOnes (Dense (d_r ohe') (d_c ohe') (repeat fzero (d_r ohe' * d_c ohe'))))) in *.
  assert (HTr : taller rawA rawB).
  { destruct HT as (_ & _ & Q1 & Q2 & _). destruct W1 as (P1 & P2 & _), W2 as (P3 & P4 & _).
    split; [split; [exact P3|split; [exact P4|]]; unfold rawA, rawB; cbn [scaleDense ToOnes d_r d_c d_data]; rewrite !map_length, repeat_length; reflexivity|].
    split; [split; [exact P1|split; [exact P2|]]; unfold rawA, rawB; cbn [scaleDense ToOnes d_r d_c d_data]; rewrite !map_length, repeat_length; reflexivity|].
    split; [exact Q1|]. split; [exact Q2|]. unfold rawA, rawB. cbn [scaleDense ToOnes d_data]. apply begins_map, begins_map. exists (repeat fzero (d_r ohe * d_c ohe - d_r ohe' * d_c ohe')).
    rewrite <- repeat_app. f_equal. rewrite Q1. nia. }
  binv H. rename v into probs'. destruct (taller_softmax E rawA rawB None None probs' HTr) as (probs & Es & T2 & R3 & R4 & C4); auto; try (intros d Hd; discriminate Hd).
  rewrite Es. cbn [bind]. binv H. rename Hb0 into HF.
  destruct (rounds_more E (fixMCW O) (Data D) ohe ohe' (length labels) rnd (seq 0 (Z.to_nat (o_rounds (fixMCW O)))) HW HE HT ltac:(congruence) ltac:(congruence)
     (MkSt rawA probs (repeat fzero (d_r ohe)) (repeat false (length labels)) (repeat 0 (length labels)) (repeat fzero (length labels)))
     (MkSt rawB probs' (repeat fzero (d_r ohe')) (repeat false (length labels)) (repeat 0 (length labels)) (repeat fzero (length labels))) [] [] v) as ([st hist] & Ef & _ & Hh); auto.
  { unfold alike; cbn [s_raw s_probs s_tmp s_stopped s_noprog s_prev]. split; [auto|]. split; [auto|]. split; [rewrite R3; reflexivity|]. split; [cbn; congruence|].
    split; [rewrite R4; cbn; congruence|]. split; [symmetry; exact C4|]. rewrite !repeat_length. split; [reflexivity|]. split; [congruence|]. auto. }
  cbn [moreLabels Data]. rewrite Ef. cbn [bind]. destruct v as [st' hist']. cbn [fst snd] in Hh. apply Ok_inj' in H. subst tr.
  eexists. split; [reflexivity|]. cbn [tr_model tr_opts]. rewrite Hh. auto.
Qed.

Lemma rowwise_std id : rowwise (SQErrLoss id) /\ rowwise (MSELoss id).
Proof.
  assert (HN : forall y p y' p' : list f64, length y = length p -> begins (negGradients F (y ++ y') (p ++ p')) (negGradients F y p)).
  { intros y p y' p' HL. exists (negGradients F y' p'). unfold negGradients. rewrite <- map_app. f_equal.
    revert p HL. induction y as [|a y IH]; intros [|b p] HL; try discriminate HL; [reflexivity|]. cbn [app combine]. rewrite IH by (cbn in HL; lia). reflexivity. }
  split; split; cbn [SQErrLoss MSELoss l_grad l_neg l_hess].
  - intros y p y' p' HL. split; [apply begins_map; auto|auto].
  - intros p p'. apply begins_map. exists p'. reflexivity.
  - intros y p y' p' HL. split; [apply begins_map; auto|auto].
  - intros p p'. apply begins_map. exists p'. reflexivity.
Qed.

(** ** fewer labels than rows *)
Lemma few_class E O data ohe ix cols round r ks : (r < length data)%nat -> forall st acc st' acc', length (s_tmp st) = r ->
  foldM (classStep E O data ohe ix cols round) (st, acc) ks = Ok (st', acc') -> st' = st /\ acc' = acc /\ forall k, In k ks -> nth k (s_stopped st) false = true.
Proof.
  intros Hr. induction ks as [|k ks IH]; intros st acc st' acc' HT H; cbn [foldM] in H.
  - apply Ok_inj' in H. pose proof (f_equal fst H). pose proof (f_equal snd H). cbn in *. split; [auto|]. split; [auto|]. intros k [].
  - binv H. unfold classStep in Hb. destruct (nth k (s_stopped st) false) eqn:Ek.
    + apply Ok_inj' in Hb. subst v. destruct (IH _ _ _ _ HT H) as (Q1 & Q2 & Q3). split; [auto|]. split; [auto|]. intros j [<-|Hj]; auto.
    + exfalso. binv Hb. binv Hb. binv Hb. binv Hb. unfold Predict in Hb3. rewrite predictLoop_short in Hb3; [discriminate Hb3|lia| |lia].
      intros; apply PredictSingle_not_Diverge.
Qed.
Lemma few_rounds E O data ohe nl rnd r ks : (r < length data)%nat -> (0 < nl)%nat -> forall st bs st' bs', length (s_tmp st) = r -> s_stopped st = repeat false nl ->
  foldM (roundStep E O data ohe nl rnd) (st, bs) ks = Ok (st', bs') ->
  st' = st /\ bs' = bs /\ forall k, In k ks -> exists ix cols, roundSamples O data (rnd k) = Ok (ix, cols) /\ Z.of_nat (length (orNil ix)) < o_minsample O.
Proof.
  intros Hr Hnl. induction ks as [|k ks IH]; intros st bs st' bs' HT HS H; cbn [foldM] in H.
  - apply Ok_inj' in H. pose proof (f_equal fst H). pose proof (f_equal snd H). cbn in *. split; [auto|]. split; [auto|]. intros k [].
  - binv H. unfold roundStep in Hb. binv Hb. destruct v0 as [ix cols]. destruct (Z.ltb_spec (Z.of_nat (length (orNil ix))) (o_minsample O)) as [HM|HM].
    + apply Ok_inj' in Hb. subst v. destruct (IH _ _ _ _ HT HS H) as (Q1 & Q2 & Q3). split; [auto|]. split; [auto|]. intros j [<-|Hj]; eauto.
    + exfalso. binv Hb. destruct v0 as [st1 acc1]. destruct (few_class _ _ _ _ _ _ _ _ _ Hr _ _ _ _ HT Hb1) as (_ & _ & Q).
      specialize (Q 0%nat ltac:(apply in_seq; lia)). rewrite HS in Q. destruct nl; [lia|discriminate Q].
Qed.
Lemma few_lemma K E rnd (D : DataBunch K) O tr : (length (Labels D) < length (Data D))%nat -> NewMultiClass E rnd D O = Ok tr ->
  mc_b (tr_model tr) = [] /\ forall rd, (rd < Z.to_nat (o_rounds O))%nat -> exists ix cols, roundSamples O (Data D) (rnd rd) = Ok (ix, cols) /\ Z.of_nat (length (orNil ix)) < o_minsample O.
Proof.
  intros HL H. unfold NewMultiClass in H. binv H. destruct v as [ohe labels].
  assert (Hne : Labels D <> []) by (intros En; rewrite En in Hb; discriminate Hb).
  destruct (proj2 (c22_lemma (Labels D)) Hne) as (D1 & de1 & E1 & F1 & W1 & R1 & C1 & _). rewrite Hb in E1. apply Ok_inj' in E1.
  pose proof (f_equal fst E1) as Ea. pose proof (f_equal snd E1) as Eb. cbn [fst snd] in Ea, Eb. subst D1 de1. clear E1.
  cbn beta iota zeta in H. binv H. binv H. binv H. destruct v1 as [st hist].
  eapply few_rounds with (r := length (Labels D)) in Hb2 as (_ & -> & Q); [|exact HL|rewrite <- C1; apply W1|cbn [s_tmp]; rewrite repeat_length; exact R1|reflexivity].
  apply Ok_inj' in H. subst tr. cbn [tr_model mc_b map]. split; [reflexivity|]. intros rd Hrd. apply (Q rd). apply in_seq. cbn [fixMCW o_rounds]. lia.
Qed.
Lemma none_lemma K E rnd (D : DataBunch K) O : Labels D = [] -> NewMultiClass E rnd D O = Panic.
Proof. intros H. unfold NewMultiClass. rewrite H. reflexivity. Qed.

(** ** accuracy *)
Lemma count_more M rows : forall actual S i right r, 0 <= i -> i + Z.of_nat (length rows) <= Z.of_nat (length actual) ->
  countRight M rows (actual ++ S) i right = r <-> countRight M rows actual i right = r.
Proof.
  induction rows as [|v rows IH]; intros actual S i right r Hi HL; cbn [countRight]; [tauto|]. cbn [length] in HL.
  destruct (PredictSingleClass M v [[]]) as [[p b]| |]; cbn [bind]; [|tauto|tauto]. destruct (idx (mc_labels M) p) as [lab| |]; cbn [bind]; [|tauto|tauto].
  assert (E : idx (actual ++ S) i = idx actual i).
  { destruct (proj2 (idx_range actual i)) as [a Ha]; [lia|]. rewrite Ha. eapply begins_idx; [|exact Ha]. exists S. reflexivity. }
  rewrite E. destruct (idx actual i); cbn [bind]; [|tauto|tauto]. apply IH; lia.
Qed.
Lemma count_few M rows : forall actual i right r, 0 <= i -> countRight M rows actual i right = Ok r -> rows = [] \/ i + Z.of_nat (length rows) <= Z.of_nat (length actual).
Proof.
  induction rows as [|v rows IH]; intros actual i right r Hi H; [auto|]. right. cbn [countRight] in H. binv H. destruct v0 as [p b]. binv H. binv H.
  apply idx_Ok in Hb1 as [R1 R2]. assert (HL : (Z.to_nat i < length actual)%nat) by (apply nth_error_Some; congruence).
  destruct (IH actual (i + 1) _ _ ltac:(lia) H) as [->|Q]; cbn [length]; lia.
Qed.
Lemma accuracy_lemma K M (D : DataBunch K) S :
  (length (Labels D) = length (Data D) -> Accuracy M (moreLabels D S) = Accuracy M D) /\
  ((length (Labels D) < length (Data D))%nat -> forall a, Accuracy M D <> Ok a).
Proof.
  split.
  - intros HL. unfold Accuracy. cbn [moreLabels Data Labels]. f_equal. apply count_more; [lia|lia|reflexivity].
  - intros HL a H. unfold Accuracy in H. binv H. apply count_few in Hb; [|lia]. destruct Hb as [Hb|Hb]; [rewrite Hb in HL; cbn in HL; lia|lia].
Qed.

Lemma classes_lemma K E rnd (D : DataBunch K) O tr : NewMultiClass E rnd D O = Ok tr -> firstOccurrences (Labels D) (mc_labels (tr_model tr)).
Proof.
  intros H. unfold NewMultiClass in H. binv H. destruct v as [ohe labels]. apply ohe_snd in Hb. subst labels.
  cbn beta iota zeta in H. binv H. binv H. binv H. destruct v1 as [st hist]. apply Ok_inj' in H. subst tr. cbn [tr_model mc_labels]. apply distinct_spec.
Qed.
