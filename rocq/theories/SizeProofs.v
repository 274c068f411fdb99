(** Size bounds (proof support for C123). *)
From Coq Require Import Reals.
From Verif Require Import Base F64 F64Lemmas Env EnvLemmas Utils Tree Spec Options Train SpecTrain UtilsProofs UtilsThms TreeProofs TreeSplit TreeMid TreeThms TrainProofs TrainThms TrainMore TrainSteps SpecTot MemProofs SpecOpt SpecSize SatProofs.
Open Scope Z_scope.

Section Size.
Context (E : Env) (HE : EnvOk E) (X : list (list f64)) (HG : goodTable X).

(** the children of a split node are not small *)
Lemma split_sizes n o value row0 b col l r :
  nodeValue E (prepare X o) (initialSamples X o) = Ok (value, startScore (to_xgb o)) -> idx X 0 = Ok row0 ->
  foldM (findBetterSplit E X (prepare X o) (initialSamples X o)) (b0 (to_xgb o)) (scannedColumns (length row0) (to_allowed o)) = Ok b ->
  leafScore (to_xgb o) (b_score b) = false -> column X (initialSamples X o) (b_split b) = Ok col ->
  let fl := filter (below X (b_split b) (b_thr b)) (initialSamples X o) in
  let fr := filter (fun i => negb (below X (b_split b) (b_thr b) i)) (initialSamples X o) in
  grown E X n (childOpts (prepare X o) fl) l -> grown E X n (childOpts (prepare X o) fr) r ->
  leastSamples (to_mcw o) <= Z.of_nat (length fl) /\ leastSamples (to_mcw o) <= Z.of_nat (length fr) /\
  (length fl + length fr = length (initialSamples X o))%nat.
Proof.
  intros HV HX HF HL HC fl fr Hl Hr. assert (HGr := grown_split E X n o value row0 b col l r HV HX HF HL HC Hl Hr).
  destruct (chosen_split _ HE _ _ _ _ _ _ HGr) as (row1 & k & R1 & _ & R2 & _); [unfold t_leaf; exact HL|]. cbn [t_split t_best t_thr] in R2.
  destruct (candidate_counts E HE X o _ _ _ _ _ R2) as (a & c & ja & jb & J1 & J2 & Ca & Cb & Lab & Et & K & W1 & W2 & _ & N1 & N2).
  { intros z v Hz Cv. eapply (gt_nan X HG); eauto. }
  destruct (gt_mid X HG _ _ _ _ _ Ca Cb Lab) as [M1 M2]. rewrite <- Et in M1, M2. specialize (N1 M1). specialize (N2 M2).
  fold fl in N1. fold fr in N2. unfold leastSamples. split; [lia|]. split; [lia|].
  pose proof (Permutation_length (filter_split_perm (below X (b_split b) (b_thr b)) (initialSamples X o))) as HPl. rewrite app_length in HPl. unfold fl, fr. lia.
Qed.

Lemma grown_size n o t : grown E X n o t -> let m := leastSamples (to_mcw o) in let s := Z.of_nat (length (initialSamples X o)) in
  (forall k d l r, subAt (Node d l r) (Datatypes.S k) t -> m <= t_nsamples d) /\
  (nodes t = 1 \/ (nodes t + 1) * m <= 2 * s) /\
  (depth t = O \/ (Z.of_nat (depth t) + 1) * m <= s).
Proof.
  induction 1 as [n o value row0 b HV HX HB HL|n o value row0 b col l r HV HX HF HL HC Hl IHl Hr IHr]; intros m s.
  - cbn [nodes depth]. split; [|split; left; reflexivity]. intros k d l r H. inversion H as [|? ? ? ? H1|? ? ? ? H1]; subst; inversion H1.
  - destruct (split_sizes n o value row0 b col l r HV HX HF HL HC Hl Hr) as (S1 & S2 & S3).
    set (fl := filter (below X (b_split b) (b_thr b)) (initialSamples X o)) in *.
    set (fr := filter (fun i => negb (below X (b_split b) (b_thr b) i)) (initialSamples X o)) in *.
    change (initialSamples X (childOpts (prepare X o) fl)) with fl in IHl. change (initialSamples X (childOpts (prepare X o) fr)) with fr in IHr.
    change (to_mcw (childOpts (prepare X o) fl)) with (to_mcw o) in IHl. change (to_mcw (childOpts (prepare X o) fr)) with (to_mcw o) in IHr.
    fold m in IHl, IHr, S1, S2. cbn zeta in IHl, IHr. destruct IHl as (A1 & A2 & A3). destruct IHr as (B1 & B2 & B3).
    assert (HM : 1 <= m) by (unfold m, leastSamples; lia).
    assert (Nl : exists dl ll lr, l = Node dl ll lr /\ t_nsamples dl = Z.of_nat (length fl)).
    { inversion Hl; subst; (eexists _, _, _; split; [reflexivity|reflexivity]). }
    assert (Nr : exists dr rl rr, r = Node dr rl rr /\ t_nsamples dr = Z.of_nat (length fr)).
    { inversion Hr; subst; (eexists _, _, _; split; [reflexivity|reflexivity]). }
    destruct Nl as (dl & ll & lr & El & Ql). destruct Nr as (dr & rl & rr & Er & Qr).
    assert (S4 : Z.of_nat (length fl) + Z.of_nat (length fr) = s) by (unfold s; lia).
    split; [|split].
    + intros k d l0 r0 H. inversion H as [|? ? ? ? H1|? ? ? ? H1]; subst.
      * destruct k as [|k]; [|apply (A1 k _ _ _ H1)]. inversion H1; subst. lia.
      * destruct k as [|k]; [|apply (B1 k _ _ _ H1)]. inversion H1; subst. lia.
    + right. cbn [nodes]. destruct A2 as [->|A2]; destruct B2 as [->|B2]; nia.
    + right. assert (ED : forall d, depth (Node d l r) = Datatypes.S (Nat.max (depth l) (depth r))) by (intros d0; subst l r; reflexivity).
      rewrite ED. destruct A3 as [A3|A3]; destruct B3 as [B3|B3]; destruct (Nat.max_spec (depth l) (depth r)) as [[_ ->]|[_ ->]]; nia.
Qed.
End Size.

Lemma most_of s m k : 1 <= m -> 0 <= s -> k = 1 \/ (k + 1) * m <= 2 * s -> Z.odd k = true -> k <= mostNodes s m.
Proof.
  unfold mostNodes. intros Hm Hs [->|H] Ho; [lia|]. apply Z.odd_spec in Ho as [h Ho]. subst k.
  assert (h + 1 <= s / m) by (apply Z.div_le_lower_bound; nia). lia.
Qed.

Lemma c123_tree_lemma E X o t : EnvOk E -> goodTable X -> NewTree E X o = Ok t ->
  let m := leastSamples (to_mcw o) in let s := Z.of_nat (length (initialSamples X o)) in
  (forall k d l r, subAt (Node d l r) (Datatypes.S k) t -> m <= t_nsamples d) /\
  Branches t = Ok (nodes t) /\ nodes t <= mostNodes s m /\
  (depth t = O \/ (Z.of_nat (depth t) + 1) * m <= s) /\ (s < 2 * m -> nodes t = 1).
Proof.
  intros HE HG HT m s. destruct (c04_lemma _ _ _ _ HT) as (B & Ho & HN & _). apply NewTree_grown in HT.
  destruct (grown_size E HE X HG _ _ _ HT) as (A1 & A2 & A3). fold m s in A1, A2, A3.
  assert (HM : 1 <= m) by (unfold m, leastSamples; lia).
  split; [exact A1|]. split; [exact B|]. split; [apply most_of; auto; unfold s; lia|]. split; [exact A3|].
  intros Hs. destruct A2 as [A2|A2]; [exact A2|]. apply Z.odd_spec in Ho as [h Ho]. rewrite Ho in *. nia.
Qed.

Lemma updated_nodes g h t t' : leavesUpdated g h t t' -> nodes t' = nodes t.
Proof. induction 1; cbn [nodes]; lia. Qed.

Lemma mostNodes_mono s s' m : 1 <= m -> s <= s' -> mostNodes s m <= mostNodes s' m.
Proof. unfold mostNodes. intros Hm Hs. pose proof (Z.div_le_mono s s' m ltac:(lia) Hs). lia. Qed.

Lemma asked_least O : leastSamples (o_mcw (fixMCW O)) = Z.max 1 (askedWeight (o_mcw O)).
Proof.
  unfold leastSamples, askedWeight, fixMCW. cbn [o_mcw]. destruct (fltb (o_mcw O) fone); [|reflexivity].
  assert (ftoZ fone = 1) by (vm_compute; reflexivity). lia.
Qed.

Lemma allNodes_bound ts b : 0 <= b -> (forall t, In t ts -> nodes t <= b) -> allNodes ts <= Z.of_nat (length ts) * b.
Proof.
  intros Hb. induction ts as [|t ts IH]; intros H; cbn [allNodes fold_right length]; [lia|].
  pose proof (H t ltac:(left; auto)). assert (allNodes ts <= Z.of_nat (length ts) * b) by (apply IH; intros; apply H; right; auto).
  unfold allNodes in *. nia.
Qed.
Lemma concat_len {A} (l : list (list A)) b : (forall x, In x l -> (length x <= b)%nat) -> (length (concat l) <= length l * b)%nat.
Proof.
  induction l as [|x l IH]; intros H; cbn [concat length]; [lia|]. rewrite app_length. pose proof (H x ltac:(left; auto)).
  assert (length (concat l) <= length l * b)%nat by (apply IH; intros; apply H; right; auto). lia.
Qed.

Lemma c123_model_lemma {K} E rnd (D : DataBunch K) O tr : EnvOk E -> goodTable (Data D) -> (length (Data D) <= length (Labels D))%nat ->
  NewMultiClass E rnd D O = Ok tr ->
  let m := Z.max 1 (askedWeight (o_mcw O)) in let ts := concat (mc_b (tr_model tr)) in
  (forall t, In t ts -> nodes t <= mostNodes (Z.of_nat (length (Data D))) m) /\
  Z.of_nat (length ts) <= Z.max 0 (o_rounds O) * Z.of_nat (length (ClassLabels (tr_model tr))) /\
  allNodes ts <= Z.max 0 (o_rounds O) * Z.of_nat (length (ClassLabels (tr_model tr))) * mostNodes (Z.of_nat (length (Data D))) m.
Proof.
  intros HE HG HL H m ts.
  assert (HM : 1 <= m) by (unfold m; lia).
  assert (A : forall t, In t ts -> nodes t <= mostNodes (Z.of_nat (length (Data D))) m).
  { intros t Ht. destruct (NewMultiClass_inv E rnd D O tr H) as (EO & Eb & _). cbn zeta in Eb, EO.
    unfold ts in Ht. rewrite Eb, <- concat_map in Ht. apply in_map_iff in Ht as (e & <- & He). apply in_split in He as (es1 & es2 & He).
    destruct (c81_lemma E rnd D O tr H HL es1 e es2 He) as (lab & pr & pr' & _ & _ & HF & _).
    unfold fitted in HF. rewrite EO in HF. unfold m. rewrite <- asked_least in *. destruct (o_xgb (fixMCW O)).
    - destruct HF as (rows & cols & topts & HR & _ & HO & _ & _ & HT).
      assert (HW : to_mcw topts = o_mcw (fixMCW O) /\ to_indexes topts = rows) by (split; congruence). destruct HW as [W1 W2].
      destruct (c123_tree_lemma E (Data D) topts (g_tree e) HE HG HT) as (_ & _ & HN & _). rewrite W1 in HN.
      etransitivity; [exact HN|]. apply mostNodes_mono; [unfold leastSamples; lia|]. unfold initialSamples. rewrite W2.
      destruct (fltb (o_ss (fixMCW O)) fone); subst rows; [|rewrite iota_length; lia].
      rewrite map_length. pose proof (filter_le (fun i => fleb (fst (rnd (g_round e)) i) (o_ss (fixMCW O))) (seq 0 (length (Data D)))) as HFl.
      rewrite seq_length in HFl. lia.
    - destruct HF as (topts & t0 & HO & _ & HT & HU).
      assert (HW : to_mcw topts = o_mcw (fixMCW O) /\ to_indexes topts = None) by (split; congruence). destruct HW as [W1 W2].
      destruct (c123_tree_lemma E (Data D) topts t0 HE HG HT) as (_ & _ & HN & _). rewrite W1 in HN. rewrite (updated_nodes _ _ _ _ HU).
      unfold initialSamples in HN. rewrite W2, iota_length in HN. exact HN. }
  destruct (c30_lemma E rnd D O tr H) as (C1 & C2 & _).
  assert (B : Z.of_nat (length ts) <= Z.max 0 (o_rounds O) * Z.of_nat (length (ClassLabels (tr_model tr)))).
  { pose proof (concat_len (mc_b (tr_model tr)) _ C2) as HC. fold ts in HC. unfold ClassLabels in *. nia. }
  split; [exact A|]. split; [exact B|].
  assert (HP : 1 <= mostNodes (Z.of_nat (length (Data D))) m) by (unfold mostNodes; lia).
  etransitivity; [apply (allNodes_bound ts (mostNodes (Z.of_nat (length (Data D))) m)); [lia|exact A]|]. apply Z.mul_le_mono_nonneg_r; lia.
Qed.
