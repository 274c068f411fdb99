(** The order of the columns matters only for ties (proof support for C143). *)
From Coq Require Import Reals Lra.
From Verif Require Import Base F64 F64Lemmas Env EnvLemmas Utils Tree Spec Options Train UtilsProofs TreeProofs TreeSplit TreeThms SpecTot SpecInv SpecTrain TreeInv TrainProofs TrainThms TrainSteps InvMore RowProofs SpecCols ErrProofs.
From Verif Require UtilsThms.
Open Scope Z_scope.

Lemma better_notleaf xgb x : betterScore xgb x (b_score (b0 xgb)) = true -> leafScore xgb x = false.
Proof.
  unfold b0, startScore, betterScore, leafScore. cbn [b_score]. destruct xgb; intros H.
  - destruct (feqb x fzero) eqn:EQ; [|reflexivity]. apply feqb_true in EQ as (N1 & N2 & EQ). apply fltb_true in H as (_ & _ & H). lra.
  - destruct x as [sg|[|]| |sg m e Hs]; try reflexivity. simpl in H. discriminate H.
Qed.

Section Cols.
Context (E : Env) (HE : EnvOk E) (n : nat) (s : Z -> Z) (HS : reorders n s) (X X' : list (list f64)) (HM : movedColumns n s X X').

Lemma cols_len : length X' = length X.
Proof. symmetry. exact (Forall2_len _ _ _ HM). Qed.
Lemma row_move row row' f v : movedRow n s row row' -> 0 <= f < Z.of_nat n -> look row f v <-> look row' (s f) v.
Proof.
  intros (L1 & L2 & HR) Hf. split; [apply HR|]. intros [_ H]. destruct (nth_error row (Z.to_nat f)) as [w|] eqn:EW; [|apply nth_error_None in EW; lia].
  assert (HW : look row f w) by (split; [lia|exact EW]). apply HR in HW as [_ HW']. assert (v = w) by congruence. subst v. split; [lia|exact EW].
Qed.
Lemma idx_move row row' f : movedRow n s row row' -> 0 <= f < Z.of_nat n -> idx row' (s f) = idx row f.
Proof.
  intros HR Hf. destruct HR as (L1 & L2 & HR). destruct (nth_error row (Z.to_nat f)) as [w|] eqn:EW; [|apply nth_error_None in EW; lia].
  assert (HW : look row f w) by (split; [lia|exact EW]). rewrite (proj2 (look_idx _ _ _) HW). apply look_idx. apply HR. exact HW.
Qed.
Lemma look_rows i row : look X i row -> exists row', look X' i row' /\ movedRow n s row row'.
Proof. intros [H0 H]. destruct (Forall2_nth1 _ _ _ HM _ _ H) as (row' & H1 & H2). exists row'. split; [split; auto|exact H2]. Qed.
Lemma look_rows' i row' : look X' i row' -> exists row, look X i row /\ movedRow n s row row'.
Proof. intros [H0 H]. destruct (Forall2_nth2 _ _ _ HM _ _ H) as (row & H1 & H2). exists row. split; [split; auto|exact H2]. Qed.
Lemma cell_move i f v : 0 <= f < Z.of_nat n -> cell X i f v <-> cell X' i (s f) v.
Proof.
  intros Hf. split.
  - intros (row & H1 & H2). destruct (look_rows _ _ H1) as (row' & R1 & R2). exists row'. split; [exact R1|]. apply (row_move _ _ _ _ R2 Hf). exact H2.
  - intros (row' & H1 & H2). destruct (look_rows' _ _ H1) as (row & R1 & R2). exists row. split; [exact R1|]. apply (row_move _ _ _ _ R2 Hf). exact H2.
Qed.
Lemma cells_move ix f col : 0 <= f < Z.of_nat n -> Forall2 (fun j v => cell X j f v) ix col <-> Forall2 (fun j v => cell X' j (s f) v) ix col.
Proof. intros Hf. split; apply Forall2_impl'; intros j v _ H; apply (cell_move _ _ _ Hf); exact H. Qed.
Lemma column_move ix f col : 0 <= f < Z.of_nat n -> column X ix f = Ok col -> column X' ix (s f) = Ok col.
Proof.
  intros Hf H. apply column_Ok in H as [Hne HC]. apply (cells_move _ _ _ Hf) in HC.
  destruct (column_ex X' ix (s f) Hne) as [c Hc].
  { intros j Hj. apply In_nth_error in Hj as [m Hm]. destruct (Forall2_nth1 _ _ _ HC _ _ Hm) as (v & _ & Hv). eauto. }
  rewrite Hc. apply column_Ok in Hc as [_ HC']. f_equal. exact (col_fun _ _ _ _ _ HC' HC).
Qed.
Lemma cand_move o ix f i sc thr : 0 <= f < Z.of_nat n -> candidate E X o ix f i sc thr <-> candidate E X' o ix (s f) i sc thr.
Proof.
  intros Hf. split; intros (col & a & b & H1 & H2); exists col, a, b; (split; [apply (cells_move _ _ _ Hf); exact H1|exact H2]).
Qed.
Lemma fbs_move o ix b b' f r : 0 <= f < Z.of_nat n -> findBetterSplit E X o ix b f = Ok r -> exists r', findBetterSplit E X' o ix b' (s f) = Ok r'.
Proof.
  intros Hf H. unfold findBetterSplit in *. apply bind_Ok in H as (c & Hc & H). rewrite (column_move _ _ _ Hf Hc). cbn [bind].
  apply bind_Ok in H as (v & Hv & H). rewrite Hv. cbn [bind]. apply bind_Ok in H as (w & Hw & H). rewrite Hw. cbn [bind].
  apply bind_Ok in H as ([si sx] & Hm & H). rewrite Hm. cbn [bind]. destruct (to_xgb o).
  - apply bind_Ok in H as (g & Hg & H). rewrite Hg. cbn [bind]. apply bind_Ok in H as (h & Hh & H). rewrite Hh. cbn [bind].
    apply bind_Ok in H as (sg & Hsg & H). rewrite Hsg. cbn [bind]. apply bind_Ok in H as (sh & Hsh & H). rewrite Hsh. cbn [bind]. eexists. reflexivity.
  - apply bind_Ok in H as (y & Hy & H). rewrite Hy. cbn [bind]. apply bind_Ok in H as (sy & Hsy & H). rewrite Hsy. cbn [bind]. eexists. reflexivity.
Qed.
(** the outcome of [findBetterSplit] does not depend on where the search stands *)
Lemma fold_ok o ix fs : forall b r, foldM (findBetterSplit E X o ix) b fs = Ok r -> forall f, In f fs -> exists b1 r1, findBetterSplit E X o ix b1 f = Ok r1.
Proof.
  induction fs as [|f0 fs IH]; intros b r H f Hf; [destruct Hf|]. cbn [foldM] in H. apply bind_Ok in H as (b1 & Hb & H). destruct Hf as [<-|Hf]; eauto.
Qed.
Lemma fold_ex o ix fs' : (forall g, In g fs' -> exists f b1 r1, 0 <= f < Z.of_nat n /\ s f = g /\ findBetterSplit E X o ix b1 f = Ok r1) ->
  forall b, exists r, foldM (findBetterSplit E X' o ix) b fs' = Ok r.
Proof.
  induction fs' as [|g fs' IH]; intros H b; cbn [foldM]; [eauto|].
  destruct (H g (or_introl eq_refl)) as (f & b1 & r1 & Hf & <- & HB). destruct (fbs_move _ _ _ b _ _ Hf HB) as [r' Hr]. rewrite Hr. cbn [bind].
  apply IH. intros g Hg. apply H. right. exact Hg.
Qed.
Lemma scanned_in m A f : In f (scannedColumns m A) <-> 0 <= f < Z.of_nat m /\ (A = [] \/ In f A).
Proof.
  unfold scannedColumns. rewrite filter_In. rewrite iota_In. rewrite orb_true_iff, Nat.eqb_eq, contains_In. split; intros [H1 H2]; (split; [exact H1|]); destruct H2 as [H2|H2]; auto.
  - left. destruct A; [reflexivity|discriminate].
  - left. rewrite H2. reflexivity.
Qed.
Lemma set_move A A' f : movedSet n s A A' -> 0 <= f < Z.of_nat n -> (A = [] \/ In f A) <-> (A' = [] \/ In (s f) A').
Proof. intros [H1 H2] Hf. specialize (H2 f Hf). tauto. Qed.
(** the whole search *)
Lemma fold_move o ix A A' b : movedSet n s A A' ->
  foldM (findBetterSplit E X o ix) (b0 (to_xgb o)) (scannedColumns n A) = Ok b ->
  (leafScore (to_xgb o) (b_score b) = false -> forall f j sc thr, 0 <= f < Z.of_nat n -> (A = [] \/ In f A) -> candidate E X o ix f j sc thr -> feqb sc (b_score b) = true -> f = b_split b) ->
  foldM (findBetterSplit E X' o ix) (b0 (to_xgb o)) (scannedColumns n A') =
    Ok (MkB (b_score b) (if leafScore (to_xgb o) (b_score b) then b_split b else s (b_split b)) (b_thr b)) /\
  (leafScore (to_xgb o) (b_score b) = false -> 0 <= b_split b < Z.of_nat n).
Proof.
  intros HA H HT. pose proof (fold_ok _ _ _ _ _ H) as HO.
  destruct (fold_ex o ix (scannedColumns n A')) with (b := b0 (to_xgb o)) as [b' H'].
  { intros g Hg. apply scanned_in in Hg as [Hg HgA]. destruct (proj2 HS _ Hg) as (f & Hf & <-). apply (set_move _ _ _ HA Hf) in HgA.
    destruct (HO f) as (b1 & r1 & HB); [apply scanned_in; auto|]. exists f, b1, r1. auto. }
  rewrite H'. apply (foldM_cand E HE) in H as [P B]; [|apply scannedColumns_sorted]. apply (foldM_cand E HE) in H' as [P' B']; [|apply scannedColumns_sorted].
  assert (HL0 : leafScore (to_xgb o) (b_score (b0 (to_xgb o))) = true) by apply leafScore_b0.
  destruct B as [->|(f & i & B1 & B2 & B3 & B4 & B5)].
  - split; [|congruence]. rewrite HL0. destruct B' as [->|(g & i & C1 & C2 & C3 & C4 & C5)]; [f_equal|]. exfalso.
    apply scanned_in in C1 as [Hg HgA]. destruct (proj2 HS _ Hg) as (f & Hf & <-). apply (set_move _ _ _ HA Hf) in HgA. apply (cand_move _ _ _ _ _ _ Hf) in C2.
    rewrite (P f i _ _ (proj2 (scanned_in _ _ _) (conj Hf HgA)) C2) in C4. discriminate C4.
  - pose proof B1 as B1'. apply scanned_in in B1' as [Hf HfA].
    assert (HL : leafScore (to_xgb o) (b_score b) = false) by (eapply better_notleaf; exact B4).
    split; [|intros _; rewrite B3; exact Hf]. rewrite HL. specialize (HT HL).
    destruct B' as [->|(g & i' & C1 & C2 & C3 & C4 & C5)].
    { exfalso. apply (cand_move _ _ _ _ _ _ Hf) in B2. apply (set_move _ _ _ HA Hf) in HfA.
      rewrite (P' (s f) i _ _ (proj2 (scanned_in _ _ _) (conj (proj1 HS _ Hf) HfA)) B2) in B4. discriminate B4. }
    apply scanned_in in C1 as [Hg HgA]. destruct (proj2 HS _ Hg) as (f' & Hf' & Eg). pose proof HgA as HgA'. rewrite <- Eg in HgA. apply (set_move _ _ _ HA Hf') in HgA.
    pose proof C2 as C2'. rewrite <- Eg in C2. apply (cand_move _ _ _ _ _ _ Hf') in C2. pose proof B2 as B2'. apply (cand_move _ _ _ _ _ _ Hf) in B2'.
    assert (HfA2 : A' = [] \/ In (s f) A') by (apply (set_move _ _ _ HA Hf); exact HfA).
    assert (N1 : fnanb (b_score b) = false) by (eapply better_nan; eauto). assert (N2 : fnanb (b_score b') = false) by (eapply better_nan; eauto).
    pose proof (P f' i' _ _ (proj2 (scanned_in _ _ _) (conj Hf' HgA)) C2) as Q1.
    pose proof (P' (s f) i _ _ (proj2 (scanned_in _ _ _) (conj (proj1 HS _ Hf) HfA2)) B2') as Q2.
    assert (HQ : feqb (b_score b') (b_score b) = true).
    { revert Q1 Q2. unfold betterScore. destruct (to_xgb o); intros Q1 Q2; rewrite nonan_eq by auto; rewrite Q1, Q2; reflexivity. }
    assert (f' = f) by (rewrite <- B3; apply (HT f' i' _ _ Hf' HgA C2 HQ)). subst f'.
    assert (i = i').
    { destruct (Nat.lt_trichotomy i i') as [Hlt|[Hi|Hlt]]; [|exact Hi|]; exfalso.
      - destruct (C5 (s f) i _ _ (proj2 (scanned_in _ _ _) (conj (proj1 HS _ Hf) HfA2)) (or_intror (conj Eg Hlt)) B2') as [N|N]; congruence.
      - destruct (B5 f i' _ _ B1 (or_intror (conj eq_refl Hlt)) C2) as [N|N]; congruence. }
    subst i'. destruct (candidate_fun _ _ _ _ _ _ _ _ _ _ B2 C2) as [E1 E2]. f_equal. destruct b as [s1 f1 t1], b' as [s2 f2 t2]. cbn [b_score b_split b_thr] in *. congruence.
Qed.

Lemma prepare_cols o A' : prepare X' (withColumns o A') = withColumns (prepare X o) A'.
Proof. unfold prepare, withColumns. cbn [to_xgb to_mcw to_allowed to_lambda to_gamma to_grads to_hess to_y to_in to_val to_maxdepth to_indexes]. rewrite cols_len. reflexivity. Qed.
Lemma set_nil : movedSet n s [] [].
Proof. split; [tauto|]. intros f _. simpl. tauto. Qed.
Lemma t_leaf_score d : t_leaf d = leafScore (t_xgb d) (t_best d). Proof. reflexivity. Qed.
Lemma row0_n r0 : idx X 0 = Ok r0 -> length r0 = n /\ exists r0', idx X' 0 = Ok r0' /\ length r0' = n.
Proof.
  intros H. apply look_idx in H. destruct (look_rows _ _ H) as (r0' & H1 & H2). destruct H2 as (L1 & L2 & _). split; [exact L1|].
  exists r0'. split; [apply look_idx; exact H1|exact L2].
Qed.
Lemma childOpts_cols o A ix : childOpts (withColumns o A) ix = withColumns (childOpts o ix) [].
Proof. reflexivity. Qed.
Lemma noTies_ext o o' A : (forall ix f j sc thr, candidate E X o' ix f j sc thr -> candidate E X o ix f j sc thr) ->
  forall t, noTies E X o n A t -> noTies E X o' n A t.
Proof.
  intros HC t. revert A. induction t as [|d l IHl r IHr]; intros A H; [exact I|]. destruct H as (H1 & H2 & H3). cbn [noTies]. split; [|auto].
  intros HL f j sc thr Hf HA Hc. apply (H1 HL f j sc thr Hf HA). apply HC. exact Hc.
Qed.
Lemma grow_move k : forall o A' t, movedSet n s (to_allowed o) A' -> grow E X k o = Ok t -> noTies E X o n (to_allowed o) t ->
  grow E X' k (withColumns o A') = Ok (moveTree s t) /\ splitsIn n t.
Proof.
  induction k as [|k IH]; intros o A' t HA H HT; cbn [grow] in H |- *; rewrite prepare_cols;
    change (to_xgb (withColumns o A')) with (to_xgb o); change (to_grads (withColumns o A')) with (to_grads o); change (to_hess (withColumns o A')) with (to_hess o);
    destruct (to_xgb o && isNone (to_grads o) && isNone (to_hess o)); try discriminate H;
    change (to_indexes (withColumns (prepare X o) A')) with (to_indexes (prepare X o)); change (to_xgb (withColumns (prepare X o) A')) with (to_xgb (prepare X o));
    apply bind_Ok in H as ([value s0] & Hb & H); change (nodeValue E (withColumns (prepare X o) A')) with (nodeValue E (prepare X o)); rewrite Hb; cbn [bind];
    pose proof (nodeValue_score _ _ _ _ _ Hb) as Hs0; apply bind_Ok in H as (row0 & Hb0 & H); destruct (row0_n _ Hb0) as (L0 & row0' & Hb0' & L0'); rewrite Hb0'; cbn [bind].
  - apply Ok_inj' in H. subst t. cbn [moveTree t_samples t_best t_value t_nsamples t_split t_thr t_xgb t_branches b_score b_split b_thr].
    assert (HLf : leafScore (to_xgb (prepare X o)) s0 = true) by (rewrite Hs0; apply leafScore_b0).
    rewrite t_leaf_score. cbn [t_xgb t_best]. rewrite HLf. split; [reflexivity|]. cbn [splitsIn]. split; [|auto]. rewrite t_leaf_score. cbn [t_xgb t_best]. congruence.
  - rewrite L0'. rewrite L0 in H. change (to_allowed (withColumns (prepare X o) A')) with A'. change (to_allowed (prepare X o)) with (to_allowed o) in H.
    apply bind_Ok in H as (b & Hb1 & H). change (findBetterSplit E X' (withColumns (prepare X o) A')) with (findBetterSplit E X' (prepare X o)).
    subst s0. 
    assert (HT0 : leafScore (to_xgb (prepare X o)) (b_score b) = false -> forall f j sc thr, 0 <= f < Z.of_nat n -> (to_allowed o = [] \/ In f (to_allowed o)) ->
       candidate E X (prepare X o) (orNil (to_indexes (prepare X o))) f j sc thr -> feqb sc (b_score b) = true -> f = b_split b).
    { intros HL. rewrite HL in H. apply bind_Ok in H as (col & _ & H). destruct (splitSamples _ _ _) as [il ir]. apply bind_Ok in H as (l & _ & H). apply bind_Ok in H as (r & _ & H).
      apply Ok_inj' in H. subst t. destruct HT as (HT & _). exact (HT HL). }
    destruct (fold_move (prepare X o) (orNil (to_indexes (prepare X o))) (to_allowed o) A' b HA Hb1 HT0) as [HF HR].
    unfold b0 in HF. rewrite HF. cbn [bind b_score b_split b_thr]. destruct (leafScore (to_xgb (prepare X o)) (b_score b)) eqn:EL.
    + apply Ok_inj' in H. subst t. cbn [moveTree t_samples t_best t_value t_nsamples t_split t_thr t_xgb t_branches]. rewrite t_leaf_score. cbn [t_xgb t_best]. rewrite EL.
      split; [reflexivity|]. cbn [splitsIn]. split; [|auto]. rewrite t_leaf_score. cbn [t_xgb t_best]. congruence.
    + specialize (HR eq_refl). apply bind_Ok in H as (col & Hc & H). rewrite (column_move _ _ _ HR Hc). cbn [bind]. destruct (splitSamples _ _ _) as [il ir].
      apply bind_Ok in H as (l & Hl & H). apply bind_Ok in H as (r & Hr & H). apply Ok_inj' in H. subst t. destruct HT as (_ & HT1 & HT2).
      destruct (IH (childOpts (prepare X o) il) [] l set_nil Hl (noTies_ext o (childOpts (prepare X o) il) [] (fun _ _ _ _ _ H => H) _ HT1)) as [Gl Sl].
      destruct (IH (childOpts (prepare X o) ir) [] r set_nil Hr (noTies_ext o (childOpts (prepare X o) ir) [] (fun _ _ _ _ _ H => H) _ HT2)) as [Gr Sr].
      rewrite !childOpts_cols, Gl. cbn [bind]. rewrite Gr. cbn [bind].
      split; [|cbn [splitsIn]; split; [intros _; exact HR|auto]].
      cbn [moveTree t_samples t_best t_value t_nsamples t_split t_thr t_xgb t_branches]. rewrite t_leaf_score. cbn [t_xgb t_best]. rewrite EL.
      assert (HBr : forall u, branchesOf (moveTree s u) = branchesOf u) by (intros [|d u1 u2]; reflexivity). rewrite !HBr. reflexivity.
Qed.
Lemma moved_leaf d : t_leaf (MkT (t_samples d) (t_best d) (t_value d) (t_nsamples d) (if t_leaf d then t_split d else s (t_split d)) (t_thr d) (t_xgb d) (t_branches d)) = t_leaf d.
Proof. reflexivity. Qed.
Lemma predict_move row row' : movedRow n s row row' -> forall t, splitsIn n t -> PredictSingle (moveTree s t) row' = PredictSingle t row.
Proof.
  intros HR. induction t as [|d l IHl r IHr]; intros HI; [reflexivity|]. destruct HI as (H1 & H2 & H3). cbn [moveTree PredictSingle]. rewrite moved_leaf.
  destruct (t_leaf d) eqn:EL; [reflexivity|]. cbn [t_split t_thr]. rewrite (idx_move _ _ _ HR (H1 eq_refl)), IHl, IHr by auto. reflexivity.
Qed.
End Cols.
