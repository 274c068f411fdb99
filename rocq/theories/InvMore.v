(** Pairs of training runs: depth, rounds, constant columns, labels (proof support for C102-C105). *)
From Coq Require Import Reals Lra.
From Verif Require Import Base F64 F64Lemmas Env EnvLemmas Utils Tree Spec Options Train UtilsProofs TreeProofs TreeSplit TreeThms TrainProofs TrainThms TrainMore SpecTot SpecInv TreeInv.
Open Scope Z_scope.

(** ** depth *)
Lemma prepare_withDepth X o m : prepare X (withDepth o m) = withDepth (prepare X o) m.
Proof. reflexivity. Qed.
Lemma fbs_withDepth E X o m ix b f : findBetterSplit E X (withDepth o m) ix b f = findBetterSplit E X o ix b f.
Proof. reflexivity. Qed.
Lemma grow_withDepth E X n : forall o m, grow E X n (withDepth o m) = grow E X n o.
Proof.
  induction n as [|n IH]; intros o m; cbn [grow]; [reflexivity|]. rewrite prepare_withDepth.
  change (to_xgb (withDepth o m)) with (to_xgb o). change (to_grads (withDepth o m)) with (to_grads o). change (to_hess (withDepth o m)) with (to_hess o).
  destruct (_ && _ && _); [reflexivity|].
  change (nodeValue E (withDepth (prepare X o) m)) with (nodeValue E (prepare X o)). change (to_indexes (withDepth (prepare X o) m)) with (to_indexes (prepare X o)).
  change (findBetterSplit E X (withDepth (prepare X o) m)) with (findBetterSplit E X (prepare X o)).
  destruct (nodeValue E (prepare X o) (orNil (to_indexes (prepare X o)))) as [[v s]| |]; [cbn [bind]|reflexivity|reflexivity].
  destruct (idx X 0) as [row0| |]; [cbn [bind]|reflexivity|reflexivity].
  change (to_allowed (withDepth (prepare X o) m)) with (to_allowed (prepare X o)). change (to_xgb (withDepth (prepare X o) m)) with (to_xgb (prepare X o)).
  destruct (foldM _ _ _) as [b| |]; [cbn [bind]|reflexivity|reflexivity].
  destruct (leafScore _ _); [reflexivity|].
  destruct (column _ _ _) as [col| |]; [cbn [bind]|reflexivity|reflexivity].
  destruct (splitSamples _ _ _) as [il ir].
  assert (HC : forall i, childOpts (withDepth (prepare X o) m) i = withDepth (childOpts (prepare X o) i) (m - 1)) by reflexivity.
  rewrite !HC, !IH. reflexivity.
Qed.

Lemma grow_cut E X : forall n m o u, (n <= m)%nat -> grow E X m o = Ok u -> exists t, grow E X n o = Ok t /\ cutAt n u t.
Proof.
  induction n as [|n IH]; intros m o u Hm H.
  - assert (HU : exists value row0 d l r, nodeValue E (prepare X o) (orNil (to_indexes (prepare X o))) = Ok (value, startScore (to_xgb o)) /\ idx X 0 = Ok row0 /\
       (to_xgb o && isNone (to_grads o) && isNone (to_hess o) = false) /\ u = Node d l r /\ t_samples d = Some (orNil (to_indexes (prepare X o))) /\ t_value d = value /\
       t_nsamples d = Z.of_nat (length (orNil (to_indexes (prepare X o)))) /\ t_xgb d = to_xgb o).
    { destruct m as [|m]; cbn [grow] in H; destruct (to_xgb o && isNone (to_grads o) && isNone (to_hess o)) eqn:EN; try discriminate.
      - binv H. destruct v as [value s0]. binv H. injection H as <-. pose proof (nodeValue_score _ _ _ _ _ Hb) as ->.
        exists value, v, (MkT (Some (orNil (to_indexes (prepare X o)))) (startScore (to_xgb o)) value (Z.of_nat (length (orNil (to_indexes (prepare X o))))) 0 fzero (to_xgb o) 1), Nil, Nil.
        repeat split; auto.
      - binv H. destruct v as [value s0]. binv H. binv H. pose proof (nodeValue_score _ _ _ _ _ Hb) as ->.
        destruct (leafScore _ _) eqn:EL.
        + injection H as <-. do 5 eexists. repeat split; eauto.
        + binv H. destruct (splitSamples _ _ _) as [il ir]. binv H. binv H. injection H as <-. do 5 eexists. repeat split; eauto. }
    destruct HU as (value & row0 & d & l & r & U1 & U2 & U3 & -> & U5 & U6 & U7 & U8).
    cbn [grow]. rewrite U3, U1. cbn [bind]. rewrite U2. cbn [bind]. eexists. split; [reflexivity|]. constructor; cbn [t_samples t_value t_nsamples t_xgb]; try (symmetry; assumption).
    unfold t_leaf. cbn [t_xgb t_best b_score]. exact (leafScore_b0 (to_xgb o)).
  - destruct m as [|m]; [lia|]. cbn [grow] in H |- *. destruct (to_xgb o && isNone (to_grads o) && isNone (to_hess o)); [discriminate|].
    binv H. destruct v as [value s0]. rewrite Hb. cbn [bind]. binv H. rewrite Hb0. cbn [bind]. binv H. rewrite Hb1. cbn [bind].
    destruct (leafScore _ _) eqn:EL.
    + injection H as <-. eexists. split; [reflexivity|]. constructor. unfold t_leaf. cbn [t_xgb t_best]. exact EL.
    + binv H. rewrite Hb2. cbn [bind]. destruct (splitSamples _ _ _) as [il ir]. binv H. binv H. injection H as <-.
      destruct (IH m _ _ ltac:(lia) Hb3) as (l & Hl & Cl). destruct (IH m _ _ ltac:(lia) Hb4) as (r & Hr & Cr). rewrite Hl, Hr. cbn [bind].
      eexists. split; [reflexivity|]. constructor; auto.
Qed.
Lemma c102_lemma E X o n m u : n <= m -> NewTree E X (withDepth o m) = Ok u ->
  exists t, NewTree E X (withDepth o n) = Ok t /\ cutAt (Z.to_nat n) u t.
Proof.
  intros Hn H. unfold NewTree in *. cbn [withDepth to_maxdepth] in *. rewrite grow_withDepth in H |- *. apply (grow_cut E X (Z.to_nat n) (Z.to_nat m)); [lia|exact H].
Qed.

(** ** rounds *)
Lemma roundStep_app E O data ohe nl rnd rs : forall st h st1 h1, foldM (roundStep E O data ohe nl rnd) (st, h) rs = Ok (st1, h1) -> exists rest, h1 = h ++ rest.
Proof.
  induction rs as [|r rs IH]; intros st h st1 h1 H; cbn [foldM] in H; [injection H as <- <-; exists []; rewrite app_nil_r; auto|].
  binv H. destruct v as [st2 h2]. apply IH in H as [rest ->]. unfold roundStep in Hb. binv Hb. destruct v as [ix cols].
  destruct (_ <? _); [injection Hb as <- <-; eauto|]. binv Hb. destruct v as [st3 cl]. injection Hb as <- <-. rewrite <- app_assoc. eauto.
Qed.
Lemma foldM_roundStep_opts E O O' data ohe nl rnd rs : (forall st r, roundStep E O data ohe nl rnd st r = roundStep E O' data ohe nl rnd st r) ->
  forall st, foldM (roundStep E O data ohe nl rnd) st rs = foldM (roundStep E O' data ohe nl rnd) st rs.
Proof. intros H. induction rs as [|r rs IH]; intros st; cbn [foldM]; [reflexivity|]. rewrite H. destruct (roundStep E O' data ohe nl rnd st r); cbn [bind]; auto. Qed.

Lemma c103_lemma {K} E rnd (D : DataBunch K) O n m tr : n <= m -> NewMultiClass E rnd D (withRounds O m) = Ok tr ->
  exists tr0 rest, NewMultiClass E rnd D (withRounds O n) = Ok tr0 /\ mc_b (tr_model tr) = mc_b (tr_model tr0) ++ rest /\
    mc_lr (tr_model tr) = mc_lr (tr_model tr0) /\ mc_labels (tr_model tr) = mc_labels (tr_model tr0) /\ mc_base (tr_model tr) = mc_base (tr_model tr0) /\
    mc_xgb (tr_model tr) = mc_xgb (tr_model tr0).
Proof.
  intros Hn H. unfold NewMultiClass in *. binv H. destruct v as [ohe labels]. rewrite Hb. cbn [bind]. binv H. rewrite Hb0. cbn [bind].
  change (o_base (fixMCW (withRounds O n))) with (o_base (fixMCW (withRounds O m))). binv H. rewrite Hb1. cbn [bind].
  set (st0 := MkSt _ _ _ _ _ _) in *. binv H. destruct v1 as [st h].
  assert (HF : foldM (roundStep E (fixMCW (withRounds O n)) (Data D) ohe (length labels) rnd) (st0, []) (seq 0 (Z.to_nat m)) = Ok (st, h)).
  { rewrite <- Hb2. change (o_rounds (fixMCW (withRounds O m))) with m. apply foldM_roundStep_opts. reflexivity. }
  change (o_rounds (fixMCW (withRounds O n))) with n.
  replace (Z.to_nat m) with (Z.to_nat n + (Z.to_nat m - Z.to_nat n))%nat in HF by lia. rewrite seq_app, foldM_app in HF. binv HF. destruct v1 as [st1 h1].
  rewrite Hb3. cbn [bind]. apply roundStep_app in HF as [rest ->]. injection H as <-. eexists. exists (map (map g_tree) rest).
  split; [reflexivity|]. cbn [tr_model mc_b mc_lr mc_labels mc_base mc_xgb]. rewrite map_app. repeat split.
Qed.

(** ** a constant column *)
Section Constant.
Context (E : Env) (HE : EnvOk E) (X : list (list f64)) (c : f64) (n : nat) (Hn : (1 <= n)%nat) (HR : forall row, In row X -> length row = n) (Hc : fnanb c = false).
Notation X2 := (addColumn X c).

Lemma idx_add j : idx X2 j = (r <- idx X j ;; Ok (r ++ [c])).
Proof. unfold addColumn, idx. destruct (j <? 0); [reflexivity|]. rewrite nth_error_map. destruct (nth_error X (Z.to_nat j)); reflexivity. Qed.
Lemma idx_row (row : list f64) f : 0 <= f < Z.of_nat (length row) -> idx (row ++ [c]) f = idx row f.
Proof. intros H. unfold idx. destruct (f <? 0); [reflexivity|]. rewrite nth_error_app1 by lia. reflexivity. Qed.
Lemma idx_X j row : idx X j = Ok row -> length row = n.
Proof. intros H. apply idx_Ok in H as [_ H]. apply HR. eapply nth_error_In; eauto. Qed.

Lemma sample_add f ix : 0 <= f < Z.of_nat n -> SampleMatrix X2 ix [f] = SampleMatrix X ix [f].
Proof.
  intros Hf. unfold SampleMatrix. induction ix as [|j ix IH]; cbn [mapM]; [reflexivity|]. rewrite idx_add.
  destruct (idx X j) as [row| |] eqn:Ej; cbn [bind]; [|reflexivity|reflexivity].
  assert (HS : SampleSlice (row ++ [c]) [f] = SampleSlice row [f]).
  { pose proof (idx_X _ _ Ej). unfold SampleSlice. rewrite app_length. cbn [length mapM]. rewrite idx_row by lia.
    destruct (Nat.ltb_spec (length row + 1) 1), (Nat.ltb_spec (length row) 1); try lia; reflexivity. }
  rewrite HS. destruct (SampleSlice row [f]); cbn [bind]; try reflexivity. rewrite IH. reflexivity.
Qed.
Lemma column_add f ix : 0 <= f < Z.of_nat n -> column X2 ix f = column X ix f.
Proof. intros Hf. unfold column. rewrite sample_add by auto. reflexivity. Qed.
Lemma fbs_add o ix b f : 0 <= f < Z.of_nat n -> findBetterSplit E X2 o ix b f = findBetterSplit E X o ix b f.
Proof. intros Hf. unfold findBetterSplit. rewrite column_add by auto. reflexivity. Qed.

Lemma scan_const {P S} (step : S -> P -> S) score better mcw f (l : list (f64 * P)) : (forall p, In p l -> fst p = c) ->
  forall s nl nr b, scan step score better mcw f l s nl nr b = b.
Proof.
  assert (Hcc : feqb c c = true) by (apply feqb_true; auto).
  induction l as [|[x p] t IH]; intros HA s nl nr b; [reflexivity|]. destruct t as [|[y q] t]; [reflexivity|]. rewrite scan_cons2.
  pose proof (HA (x, p) ltac:(left; auto)) as Ex. pose proof (HA (y, q) ltac:(right; left; auto)) as Ey. cbn [fst] in Ex, Ey. subst x y. rewrite Hcc, orb_true_r. apply IH. intros; apply HA; right; auto.
Qed.

Lemma fbs_const o ix b b1 f b2 : findBetterSplit E X o ix b1 f = Ok b2 -> findBetterSplit E X2 o ix b (Z.of_nat n) = Ok b.
Proof.
  intros H. unfold findBetterSplit in *. binv H. rename v into col. binv H. binv H. binv H. apply column_Ok in Hb as [Hne F1].
  assert (HX : forall j, In j ix -> cell X2 j (Z.of_nat n) c).
  { intros j Hj. apply In_nth_error in Hj as [m Hm]. destruct (Forall2_nth1 _ _ _ F1 _ _ Hm) as (v' & _ & (row & R1 & _)).
    apply look_idx in R1. pose proof (idx_X _ _ R1) as HLn. exists (row ++ [c]). split; [apply look_idx; rewrite idx_add, R1; reflexivity|].
    split; [lia|]. rewrite Nat2Z.id, nth_error_app2, HLn, Nat.sub_diag by lia. reflexivity. }
  destruct (column_ex X2 ix (Z.of_nat n) Hne ltac:(intros; eexists; eauto)) as [col2 Hc2]. rewrite Hc2. cbn [bind]. apply column_Ok in Hc2 as [_ F2].
  assert (L1 : length col2 = length col) by (rewrite <- (Forall2_len _ _ _ F2); eapply Forall2_len; eauto). rewrite L1, Hb0, Hb1. cbn [bind].
  assert (HL : length v = length col /\ length v0 = length col).
  { unfold slice0 in *. destruct (Nat.ltb_spec (length (orNil (to_in o))) (length col)); [discriminate|].
    destruct (Nat.ltb_spec (length (orNil (to_val o))) (length col)); [discriminate|].
    injection Hb0 as <-. injection Hb1 as <-. rewrite !firstn_length. lia. }
  destruct HL as [HL1 HL2]. rewrite MemArgSort_ArgSort by lia. cbn [bind].
  assert (HA : forall w, In w col2 -> w = c).
  { intros w Hw. apply In_nth_error in Hw as [m Hm]. destruct (Forall2_nth2 _ _ _ F2 _ _ Hm) as (j & Hj & Hcl). apply nth_error_In in Hj. eapply cell_fun; eauto. }
  pose proof (ArgSort_perm E HE col2) as HP. pose proof (ArgSort_perm_vals E HE col2) as HPv. destruct (ArgSort E col2) as [si sx]. cbn [fst snd] in *.
  assert (HA' : forall w, In w sx -> w = c) by (intros w Hw; apply HA; eapply Permutation_in; [apply Permutation_sym; exact HPv|auto]).
  assert (HSS : forall s : list f64, length s = length ix -> exists r, SampleSlice s si = Ok r).
  { intros s Hs. pose proof (Permutation_length HP) as HPl. rewrite iota_length in HPl. pose proof (Forall2_len _ _ _ F2).
    unfold SampleSlice. destruct (Nat.ltb_spec (length s) (length si)); [lia|]. apply mapM_all_Ok. intros z Hz. apply idx_range.
    eapply Permutation_in in Hz; [|apply Permutation_sym; exact HP]. apply iota_In in Hz. lia. }
  destruct v1 as [si1 sx1]. cbn match in H. destruct (to_xgb o).
  - binv H. rewrite Hb. cbn [bind]. binv H. rewrite Hb3. cbn [bind]. 
    apply SampleSlice_Ok in Hb as [_ Hb]. apply SampleSlice_Ok in Hb3 as [_ Hb3].
    destruct (HSS v1) as [sg ->]; [symmetry; eapply Forall2_len; eauto|]. destruct (HSS v2) as [sh ->]; [symmetry; eapply Forall2_len; eauto|]. cbn [bind].
    f_equal. apply scan_const. intros [x p] Hp. apply in_combine_l in Hp. cbn [fst]. auto.
  - binv H. rewrite Hb. cbn [bind]. apply SampleSlice_Ok in Hb as [_ Hb].
    destruct (HSS v1) as [sy ->]; [symmetry; eapply Forall2_len; eauto|]. cbn [bind].
    f_equal. apply scan_const. intros [x p] Hp. apply in_combine_l in Hp. cbn [fst]. auto.
Qed.

Lemma scanned_all m : scannedColumns m [] = iota m.
Proof. unfold scannedColumns. cbn [length Nat.eqb orb]. induction (iota m) as [|z l IH]; [reflexivity|]. cbn [filter]. rewrite IH. reflexivity. Qed.

Lemma fold_add o ix b r : foldM (findBetterSplit E X o ix) b (iota n) = Ok r -> foldM (findBetterSplit E X2 o ix) b (iota (S n)) = Ok r.
Proof.
  intros H. rewrite iota_S, foldM_app.
  assert (HF : forall fs b, (forall f, In f fs -> 0 <= f < Z.of_nat n) -> foldM (findBetterSplit E X2 o ix) b fs = foldM (findBetterSplit E X o ix) b fs).
  { induction fs as [|f fs IH]; intros b1 Hf; cbn [foldM]; [reflexivity|]. rewrite fbs_add by (apply Hf; left; auto).
    destruct (findBetterSplit E X o ix b1 f); cbn [bind]; auto. apply IH. intros; apply Hf; right; auto. }
  rewrite HF by (intros f Hf; apply iota_In in Hf; lia). rewrite H. cbn [bind foldM].
  destruct n as [|n'] eqn:En; [lia|]. rewrite <- En in *. assert (HI : exists rest, iota n = 0 :: rest) by (subst n; eexists; reflexivity).
  destruct HI as [rest HI]. rewrite HI in H. cbn [foldM] in H. binv H. rewrite (fbs_const _ _ _ _ _ _ Hb). reflexivity.
Qed.

Fixpoint splitsIn (t : tree) : Prop :=
  match t with
  | Nil => True
  | Node d l r => (t_leaf d = false -> 0 <= t_split d < Z.of_nat n) /\ splitsIn l /\ splitsIn r
  end.
Lemma splitsIn_predict row : length row = n -> forall t, splitsIn t -> PredictSingle t (row ++ [c]) = PredictSingle t row.
Proof.
  intros HL. induction t as [|d l IHl r IHr]; intros HS; cbn [PredictSingle]; [reflexivity|]. destruct HS as (S1 & S2 & S3).
  destruct (t_leaf d); [reflexivity|]. rewrite idx_row by (rewrite HL; auto). destruct (idx row (t_split d)); cbn [bind]; auto. rewrite IHl, IHr by auto. reflexivity.
Qed.
Lemma splitsIn_update g h : forall t u, splitsIn t -> updateLeaves t g h = Ok u -> splitsIn u.
Proof.
  induction t as [|d l IHl r IHr]; intros u HS H; [discriminate|]. cbn [updateLeaves] in H. destruct HS as (S1 & S2 & S3).
  assert (HC : forall (t : tree) t', (forall u, splitsIn t -> updateLeaves t g h = Ok u -> splitsIn u) -> splitsIn t ->
     (match t with Nil => Ok Nil | Node _ _ _ => updateLeaves t g h end = Ok t') -> splitsIn t').
  { intros [|d0 l0 r0] t' IH Hs Ht; [injection Ht as <-; exact I|]. eapply IH; eauto. }
  binv H. binv H. pose proof (HC _ _ IHl S2 Hb). pose proof (HC _ _ IHr S3 Hb0).
  destruct (t_leaf d) eqn:EL.
  - destruct (t_samples d); [|discriminate]. binv H. binv H. injection H as <-. cbn [splitsIn]. split; [|auto].
    unfold t_leaf in *. cbn [t_xgb t_best t_split]. congruence.
  - injection H as <-. cbn [splitsIn]. auto.
Qed.

Lemma prepare_add o : prepare X2 o = prepare X o.
Proof. unfold prepare, addColumn. rewrite map_length. reflexivity. Qed.
Lemma grow_add k : forall o t, to_allowed o = [] -> grow E X k o = Ok t -> grow E X2 k o = Ok t /\ splitsIn t.
Proof.
  induction k as [|k IH]; intros o t HA H; cbn [grow] in H |- *; rewrite prepare_add; destruct (to_xgb o && isNone (to_grads o) && isNone (to_hess o)); try discriminate.
  - binv H. destruct v as [value s0]. rewrite Hb. cbn [bind]. pose proof (nodeValue_score _ _ _ _ _ Hb) as Hs0. binv H. rewrite idx_add, Hb0. cbn [bind]. injection H as <-.
    split; [reflexivity|]. cbn [splitsIn]. split; [|auto]. unfold t_leaf. cbn [t_xgb t_best b_score t_split b_split]. lia.
  - binv H. destruct v as [value s0]. rewrite Hb. cbn [bind]. pose proof (nodeValue_score _ _ _ _ _ Hb) as Hs0. binv H. rewrite idx_add, Hb0. cbn [bind].
    pose proof (idx_X _ _ Hb0) as HLr. rewrite app_length, HLr. cbn [length]. rewrite HLr in H.
    change (to_allowed (prepare X o)) with (to_allowed o) in *. rewrite HA, scanned_all in *. rewrite Nat.add_1_r.
    binv H. rename v0 into b. rewrite (fold_add _ _ _ _ Hb1). cbn [bind].
    assert (HSp : 0 <= b_split b < Z.of_nat n).
    { apply foldM_split in Hb1. destruct Hb1 as [->|Hb1]; [cbn [b_split]; lia|]. apply iota_In. exact Hb1. }
    destruct (leafScore _ _) eqn:EL.
    + injection H as <-. split; [reflexivity|]. cbn [splitsIn]. split; [|auto]. intros _. cbn [t_split]. exact HSp.
    + rewrite column_add by auto. binv H. rewrite Hb2. cbn [bind]. destruct (splitSamples _ _ _) as [il ir].
      binv H. binv H. injection H as <-. destruct (IH (childOpts (prepare X o) il) _ eq_refl Hb3) as [-> Sl]. destruct (IH (childOpts (prepare X o) ir) _ eq_refl Hb4) as [-> Sr]. cbn [bind].
      split; [reflexivity|]. cbn [splitsIn]. split; [intros _; cbn [t_split]; exact HSp|auto].
Qed.
Lemma c104_tree_lemma o t : to_allowed o = [] -> NewTree E X o = Ok t -> NewTree E X2 o = Ok t.
Proof. intros HA H. apply grow_add; auto. Qed.

Lemma classTree_add O ix lab pr t : classTree E O X ix [] lab pr = Ok t ->
  classTree E O X2 ix [] lab pr = Ok t /\ splitsIn t.
Proof.
  unfold classTree. assert (HL : length X2 = length X) by apply map_length. rewrite HL. destruct (o_xgb O); intros H.
  - apply grow_add; auto.
  - binv H. apply grow_add in Hb as [H1 H2]; [|reflexivity]. unfold NewTree. rewrite H1. cbn [bind]. split; [exact H|]. eapply splitsIn_update; eauto.
Qed.
Lemma predict_add t preds : splitsIn t -> Predict t X2 preds = Predict t X preds.
Proof.
  intros HS. unfold Predict. unfold addColumn at 2. rewrite map_length. symmetry. apply predictLoop_rel. clear preds. revert HR. unfold addColumn.
  induction X as [|row Y IH]; intros HR'; cbn [map]; constructor.
  - symmetry. apply splitsIn_predict; auto. apply HR'. left; auto.
  - apply IH. intros; apply HR'; right; auto.
Qed.
Lemma classStep_add O ohe ix rd sa k r : classStep E O X ohe ix [] rd sa k = Ok r -> classStep E O X2 ohe ix [] rd sa k = Ok r.
Proof.
  unfold classStep. destruct sa as [st acc]. destruct (nth k (s_stopped st) false); [auto|]. intros H.
  binv H. rewrite Hb. cbn [bind]. binv H. rewrite Hb0. cbn [bind]. binv H. apply classTree_add in Hb1 as [H1 H2]. rewrite H1. cbn [bind]. rewrite predict_add by auto. exact H.
Qed.
Lemma foldM_mono {A S} (f g : S -> A -> res S) : (forall s a r, f s a = Ok r -> g s a = Ok r) -> forall l s r, foldM f s l = Ok r -> foldM g s l = Ok r.
Proof. intros HM. induction l as [|a l IH]; intros s r H; cbn [foldM] in *; [auto|]. binv H. rewrite (HM _ _ _ Hb). cbn [bind]. auto. Qed.
Lemma roundStep_add O ohe nl rnd sb rd r : fltb (o_css O) fone && o_xgb O = false -> roundStep E O X ohe nl rnd sb rd = Ok r -> roundStep E O X2 ohe nl rnd sb rd = Ok r.
Proof.
  intros HC. unfold roundStep. destruct sb as [st h]. unfold roundSamples. rewrite HC. assert (HL : length X2 = length X) by apply map_length. rewrite HL.
  destruct (if fltb (o_ss O) fone && o_xgb O then _ else _) as [ix| |]; cbn [bind]; [|discriminate|discriminate].
  destruct (_ <? _); [auto|]. intros H. binv H. rewrite (foldM_mono _ _ (fun s a r0 => classStep_add O ohe ix rd s a r0) _ _ _ Hb). exact H.
Qed.

Definition splitsH (h : list entryG) : Prop := forall e, In e h -> splitsIn (g_tree e).
Lemma classStep_splits O ohe ix rd st acc k st' acc' : classStep E O X ohe ix [] rd (st, acc) k = Ok (st', acc') -> splitsH acc -> splitsH acc'.
Proof.
  unfold classStep. destruct (nth k (s_stopped st) false); intros H HS; [injection H as <- <-; auto|].
  binv H. binv H. binv H. binv H. binv H. binv H. binv H. injection H as _ <-. intros e He. apply in_app_or in He as [He|[<-|[]]]; [auto|]. cbn [g_tree].
  apply classTree_add in Hb1 as [_ H2]. exact H2.
Qed.
Lemma roundStep_splits O ohe nl rnd st h rd st' h' : fltb (o_css O) fone && o_xgb O = false -> roundStep E O X ohe nl rnd (st, h) rd = Ok (st', h') ->
  (forall cl, In cl h -> splitsH cl) -> forall cl, In cl h' -> splitsH cl.
Proof.
  intros HC. unfold roundStep, roundSamples. rewrite HC.
  destruct (if fltb (o_ss O) fone && o_xgb O then _ else _) as [ix| |]; cbn [bind]; [|discriminate|discriminate].
  destruct (_ <? _); intros H HS cl Hcl; [injection H as <- <-; auto|]. binv H. destruct v as [s1 cls]. injection H as <- <-.
  apply in_app_or in Hcl as [Hcl|[<-|[]]]; [auto|].
  change (splitsH (snd (s1, cls))). revert Hb. apply (foldM_inv _ (fun _ sb => splitsH (snd sb))).
  - intros e [].
  - intros _ a [sa1 ac1] [sa2 ac2] HP Hstep _ _. cbn [snd] in *. eapply classStep_splits; eauto.
Qed.
End Constant.

Lemma addTrees_eq lr row row' ens : (forall t, In t ens -> PredictSingle t row' = PredictSingle t row) -> forall c tmp, addTrees lr row' c ens tmp = addTrees lr row c ens tmp.
Proof.
  induction ens as [|t ens IH]; intros HT c tmp; cbn [addTrees]; [reflexivity|]. rewrite (HT t) by (left; auto). destruct (PredictSingle t row); cbn [bind]; auto.
  destruct (idx tmp c); cbn [bind]; auto. destruct (upd _ _ _); cbn [bind]; auto. apply IH. intros; apply HT; right; auto.
Qed.
Lemma rawScores_eq M row row' : (forall ens t, In ens (mc_b M) -> In t ens -> PredictSingle t row' = PredictSingle t row) -> rawScores M row' = rawScores M row.
Proof.
  intros HT. unfold rawScores. destruct (idx (mc_b M) 0); cbn [bind]; auto. generalize (repeat (mc_base M) (length a)). clear a.
  induction (mc_b M) as [|ens b IH]; intros tmp; cbn [foldM]; [reflexivity|]. rewrite (addTrees_eq _ row row') by (intros t Ht; apply (HT ens t); [left|]; auto).
  destruct (addTrees _ _ _ _ _); cbn [bind]; auto. apply IH. intros ens' t He Ht. apply (HT ens' t); [right|]; auto.
Qed.
Lemma c104_predict_lemma {K} E rnd (D : DataBunch K) O tr c n : EnvOk E -> (1 <= n)%nat -> (forall row, In row (Data D) -> length row = n) -> fnanb c = false ->
  (o_xgb O = false \/ fltb (o_css O) fone = false) -> NewMultiClass E rnd D O = Ok tr ->
  forall row bufs, length row = n -> PredictMC (tr_model tr) (row ++ [c]) bufs = PredictMC (tr_model tr) row bufs /\
    PredictSingleClass (tr_model tr) (row ++ [c]) bufs = PredictSingleClass (tr_model tr) row bufs.
Proof.
  intros HE Hn HR Hc HS H row bufs HL.
  assert (HS' : fltb (o_css (fixMCW O)) fone && o_xgb (fixMCW O) = false).
  { cbn [fixMCW o_css o_xgb]. destruct HS as [->| ->]; [apply andb_false_r|reflexivity]. }
  assert (HT : forall ens t, In ens (mc_b (tr_model tr)) -> In t ens -> splitsIn n t).
  { unfold NewMultiClass in H. apply bind_Ok in H as ([ohe labels] & _ & H). apply bind_Ok in H as (w1 & _ & H).
    apply bind_Ok in H as (w2 & _ & H). apply bind_Ok in H as ([st h] & HF & H). injection H as <-. cbn [tr_model mc_b].
    intros ens t He Ht. apply in_map_iff in He as (cl & <- & Hcl). apply in_map_iff in Ht as (e & <- & He). revert e He. change (splitsH n cl). revert cl Hcl.
    change (forall cl, In cl (snd (st, h)) -> splitsH n cl). revert HF. apply (foldM_inv _ (fun _ sb => forall cl, In cl (snd sb) -> splitsH n cl)).
    - intros cl [].
    - intros _ a [sa1 ac1] [sa2 ac2] HP Hstep _ _. cbn [snd] in *. eapply roundStep_splits; eauto. }
  assert (HQ : rawScores (tr_model tr) (row ++ [c]) = rawScores (tr_model tr) row).
  { apply rawScores_eq. intros ens t He Ht. eapply splitsIn_predict; eauto. }
  assert (HP : PredictMC (tr_model tr) (row ++ [c]) bufs = PredictMC (tr_model tr) row bufs) by (unfold PredictMC; rewrite HQ; reflexivity).
  split; [exact HP|]. unfold PredictSingleClass. rewrite HP. reflexivity.
Qed.

Lemma c104_ens_lemma {K} E rnd (D : DataBunch K) O tr c n : EnvOk E -> (1 <= n)%nat -> (forall row, In row (Data D) -> length row = n) -> fnanb c = false ->
  (o_xgb O = false \/ fltb (o_css O) fone = false) -> NewMultiClass E rnd D O = Ok tr ->
  forall keys : list K, NewMultiClass E rnd (MkData (addColumn (Data D) c) keys (Labels D)) O = Ok tr.
Proof.
  intros HE Hn HR Hc HS H keys. unfold NewMultiClass in *. cbn [Labels Data]. binv H. rewrite Hb. cbn [bind]. destruct v as [ohe labels].
  binv H. rewrite Hb0. cbn [bind]. binv H. rewrite Hb1. cbn [bind]. binv H.
  assert (HS' : fltb (o_css (fixMCW O)) fone && o_xgb (fixMCW O) = false).
  { cbn [fixMCW o_css o_xgb]. destruct HS as [->| ->]; [apply andb_false_r|reflexivity]. }
  rewrite (foldM_mono (roundStep E (fixMCW O) (Data D) ohe (length labels) rnd) (roundStep E (fixMCW O) (addColumn (Data D) c) ohe (length labels) rnd)
    (fun s a r => roundStep_add E HE (Data D) c n Hn HR Hc _ _ _ _ s a r HS') _ _ _ Hb2). exact H.
Qed.

(** ** renaming the labels *)
Section Rename.
Context (f : Z -> Z) (Hf : forall a b, f a = f b -> a = b).
Lemma feq a b : (f a =? f b) = (a =? b).
Proof. destruct (Z.eqb_spec (f a) (f b)) as [e|e], (Z.eqb_spec a b) as [e'|e']; auto; [apply Hf in e; contradiction|subst; congruence]. Qed.
Lemma contains_map l v : contains (map f l) (f v) = contains l v.
Proof. unfold contains. induction l as [|x l IH]; [reflexivity|]. cbn [map existsb]. rewrite feq, IH. reflexivity. Qed.
Lemma distinct_map s : distinctElements (map f s) = map f (distinctElements s).
Proof.
  unfold distinctElements.
  assert (HG : forall s acc, fold_left (fun diff v => if contains diff v then diff else diff ++ [v]) (map f s) (map f acc) =
    map f (fold_left (fun diff v => if contains diff v then diff else diff ++ [v]) s acc)).
  { clear s. induction s as [|v s IH]; intros acc; cbn [map fold_left]; [reflexivity|]. rewrite contains_map.
    destruct (contains acc v); [apply IH|]. rewrite <- IH, map_app. reflexivity. }
  exact (HG s []).
Qed.
Lemma index_map l v : forall k, sliceIndexFrom (map f l) (f v) k = sliceIndexFrom l v k.
Proof. induction l as [|x l IH]; intros k; cbn [map sliceIndexFrom]; [reflexivity|]. rewrite feq. destruct (x =? v); auto. Qed.
Lemma oheFill_map de ls : forall D i, oheFill D (map f de) (map f ls) i = oheFill D de ls i.
Proof.
  induction ls as [|v ls IH]; intros D i; cbn [map oheFill]; [reflexivity|]. unfold sliceIndex. rewrite index_map. destruct (_ || _ || _); auto.
Qed.
Lemma ohe_map ls D de : oneHotEncodeDense ls = Ok (D, de) -> oneHotEncodeDense (map f ls) = Ok (D, map f de).
Proof.
  unfold oneHotEncodeDense. rewrite distinct_map, !map_length. intros H. binv H. rewrite Hb. cbn [bind]. rewrite oheFill_map. binv H. rewrite Hb0. cbn [bind].
  injection H as -> <-. reflexivity.
Qed.

Lemma c105_lemma {K} E rnd (D : DataBunch K) O tr : NewMultiClass E rnd D O = Ok tr ->
  NewMultiClass E rnd (MkData (Data D) (Keys D) (map f (Labels D))) O = Ok (MkTr (renameModel f (tr_model tr)) (tr_opts tr) (tr_state tr) (tr_hist tr)).
Proof.
  intros H. unfold NewMultiClass in *. cbn [Labels Data]. binv H. destruct v as [ohe labels]. rewrite (ohe_map _ _ _ Hb). cbn [bind]. rewrite map_length.
  binv H. rewrite Hb0. cbn [bind]. binv H. rewrite Hb1. cbn [bind]. binv H. rewrite Hb2. cbn [bind]. destruct v1 as [st h]. injection H as <-. reflexivity.
Qed.
Lemma predict_rename M row bufs : PredictSingleClass (renameModel f M) row bufs = PredictSingleClass M row bufs.
Proof. reflexivity. Qed.
Lemma countRight_map M actual rows : forall i right, countRight (renameModel f M) rows (map f actual) i right = countRight M rows actual i right.
Proof.
  induction rows as [|v rows IH]; intros i right; cbn [countRight]; [reflexivity|]. rewrite predict_rename.
  destruct (PredictSingleClass M v [[]]) as [[p b]| |]; cbn [bind]; [|reflexivity|reflexivity]. cbn [renameModel mc_labels].
  assert (HI : forall l z, idx (map f l) z = (x <- idx l z ;; Ok (f x))).
  { intros l z. unfold idx. destruct (z <? 0); [reflexivity|]. rewrite nth_error_map. destruct (nth_error l (Z.to_nat z)); reflexivity. }
  rewrite !HI. destruct (idx (mc_labels M) p); cbn [bind]; [|reflexivity|reflexivity]. destruct (idx actual i); cbn [bind]; [|reflexivity|reflexivity].
  rewrite feq. apply IH.
Qed.
Lemma c105_accuracy_lemma {K} M (D : DataBunch K) : Accuracy (renameModel f M) (MkData (Data D) (Keys D) (map f (Labels D))) = Accuracy M D.
Proof. unfold Accuracy. cbn [Data Labels]. rewrite countRight_map. reflexivity. Qed.
End Rename.

(** ** a single label *)
Lemma distinct_const a (s : list Z) : s <> [] -> (forall v, In v s -> v = a) -> distinctElements s = [a].
Proof.
  intros Hne HA. unfold distinctElements. destruct s as [|v s]; [congruence|]. cbn [fold_left]. rewrite (HA v) by (left; auto). change (contains [] a) with false. cbn match. cbn [app].
  assert (HA' : forall v, In v s -> v = a) by (intros; apply HA; right; auto). clear Hne HA. induction s as [|w s IH]; [reflexivity|]. cbn [fold_left].
  rewrite (HA' w) by (left; auto). unfold contains. cbn [existsb]. rewrite Z.eqb_refl. cbn [orb]. apply IH. intros; apply HA'; right; auto.
Qed.
Lemma c106_lemma {K} E rnd (D : DataBunch K) O tr a : (forall v, In v (Labels D) -> v = a) -> NewMultiClass E rnd D O = Ok tr ->
  ClassLabels (tr_model tr) = [a] /\ forall row bufs k bufs', PredictSingleClass (tr_model tr) row bufs = Ok (k, bufs') -> k = 0.
Proof.
  intros HA H.
  assert (HL : ClassLabels (tr_model tr) = [a]).
  { unfold ClassLabels. unfold NewMultiClass in H. apply bind_Ok in H as ([ohe labels] & Ho & H). apply bind_Ok in H as (w1 & _ & H).
    apply bind_Ok in H as (w2 & _ & H). apply bind_Ok in H as ([st h] & _ & H). injection H as <-. cbn [tr_model mc_labels].
    unfold oneHotEncodeDense in Ho. destruct (Labels D) as [|l ls] eqn:EL; [discriminate Ho|]. rewrite <- EL in *.
    apply bind_Ok in Ho as (Z0 & _ & Ho). apply bind_Ok in Ho as (Z1 & _ & Ho). injection Ho as _ <-. apply distinct_const; [congruence|auto]. }
  split; [exact HL|]. intros row bufs k bufs' HP. pose proof (c36_trained E rnd D O tr H row bufs k bufs' HP) as Hk. rewrite HL in Hk. cbn [length] in Hk. lia.
Qed.
