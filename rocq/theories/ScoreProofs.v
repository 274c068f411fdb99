(** Proofs of C136. *)
From Coq Require Import Reals Lra Permutation.
From Flocq Require Import Core BinarySingleNaN.
From Verif Require Import Base F64 F64Lemmas Env EnvLemmas Utils UtilsThms Tree Spec SpecErr NumErr ErrProofs Train SpecTrain SpecLearn LearnNum TrainProofs TrainMore TreeProofs JsonMore SpecScore.
From Coq Require Import List.
Open Scope R_scope.

Lemma forall2_len {A B} (P : A -> B -> Prop) l l' : Forall2 P l l' -> length l = length l'.
Proof. induction 1; simpl; congruence. Qed.
Lemma fold_products lr ps : forall a : f64, fold_left (fun a p => fadd a (fmul p lr)) ps a = fold_left fadd (map (fun p => fmul p lr) ps) a.
Proof. induction ps as [|p ps IH]; intros a; simpl; [reflexivity|apply IH]. Qed.
Lemma score_is_sum lr ps (a : f64) : is_sum (a :: map (fun p => fmul p lr) ps) (fold_left (fun a p => fadd a (fmul p lr)) ps a).
Proof. rewrite fold_products. apply (sum_left_acc _ a [a]). constructor. Qed.

(** the products *)
Lemma product_error p lr : ffinite (fmul p lr) = true ->
  Rabs (B2R (fmul p lr) - B2R p * B2R lr) <= uu * Rabs (B2R p * B2R lr) + ee.
Proof.
  intros H. destruct (fmul_real _ _ H) as (_ & _ & ->). destruct (rnd_any (B2R p * B2R lr)) as (e & n & He & Hn & ->).
  set (x := B2R p * B2R lr). replace (x * (1 + e) + n - x) with (e * x + n) by ring. eapply Rle_trans; [apply Rabs_triang|].
  rewrite Rabs_mult. apply Rplus_le_compat; [|exact Hn]. apply Rmult_le_compat_r; [apply Rabs_pos|exact He].
Qed.
Definition prods (lr : f64) (ps : list f64) : list f64 := map (fun p => fmul p lr) ps.
Definition terms (lr : f64) (ps : list f64) : list R := map (fun p => B2R p * B2R lr) ps.
Lemma products_error lr ps : allFinite (prods lr ps) ->
  Rabs (rsum (exact (prods lr ps)) - rsum (terms lr ps)) <= uu * asum (terms lr ps) + INR (length ps) * ee /\
  asum (exact (prods lr ps)) <= (1 + uu) * asum (terms lr ps) + INR (length ps) * ee.
Proof.
  induction ps as [|p ps IH]; intros H.
  - unfold asum; simpl. rewrite Rminus_0_r, Rabs_R0. split; lra.
  - destruct IH as [I1 I2]. { intros x Hx. apply H. right. exact Hx. }
    assert (Hp : ffinite (fmul p lr) = true) by (apply H; left; reflexivity). pose proof (product_error p lr Hp) as HP.
    unfold prods, terms, exact, asum in *. cbn [map rsum length]. rewrite S_INR.
    set (q := B2R (fmul p lr)) in *. set (x := B2R p * B2R lr) in *.
    set (Q := rsum (map (@B2R 53 1024) (map (fun p => fmul p lr) ps))) in *. set (X := rsum (map (fun p => B2R p * B2R lr) ps)) in *.
    set (AX := rsum (map Rabs (map (fun p => B2R p * B2R lr) ps))) in *. set (AQ := rsum (map Rabs (map (@B2R 53 1024) (map (fun p => fmul p lr) ps)))) in *.
    change (@BinarySingleNaN.B2R 53 1024 (fmul p lr)) with q.
    split.
    + replace (q + Q - (x + X)) with ((q - x) + (Q - X)) by ring. eapply Rle_trans; [apply Rabs_triang|]. lra.
    + assert (Rabs q <= Rabs x + Rabs (q - x)). { replace q with (x + (q - x)) at 1 by ring. apply Rabs_triang. } lra.
Qed.
Lemma prods_length lr ps : length (prods lr ps) = length ps.
Proof. apply map_length. Qed.
Lemma terms_abs lr ps : rsum (map (fun p => Rabs (B2R p * B2R lr)) ps) = asum (terms lr ps).
Proof. unfold asum, terms. rewrite map_map. reflexivity. Qed.

Lemma two_uu : two (-52) = 2 * uu.
Proof. unfold two, uu. simpl. lra. Qed.
Lemma two_ee : two (-1074) = 2 * ee.
Proof. unfold two, ee. replace (-1074)%Z with (1 + -1075)%Z by lia. rewrite (bpow_plus radix2 1 (-1075)). simpl (bpow radix2 1). reflexivity. Qed.

Lemma score_error lr ps start : ffinite (fold_left (fun a p => fadd a (fmul p lr)) ps start) = true -> fits (length ps + 1) ->
  Rabs (B2R (fold_left (fun a p => fadd a (fmul p lr)) ps start) - (B2R start + rsum (terms lr ps))) <= scoreError (length ps) (Rabs (B2R start) + asum (terms lr ps)).
Proof.
  intros Hf Hn. pose proof (score_is_sum lr ps start) as HS. set (s := fold_left _ ps start) in *. fold (prods lr ps) in HS.
  destruct (sum_error _ _ HS Hf) as (Hfin & _ & HE).
  assert (Hq : allFinite (prods lr ps)) by (intros x Hx; apply Hfin; right; exact Hx).
  destruct (products_error lr ps Hq) as [P1 P2]. unfold asum in HE. cbn [map rsum length] in HE. change (map (@BinarySingleNaN.B2R 53 1024) (prods lr ps)) with (exact (prods lr ps)) in HE.
  change (rsum (map Rabs (exact (prods lr ps)))) with (asum (exact (prods lr ps))) in HE.
  rewrite prods_length in HE. unfold gam in HE. cbn [Nat.pred] in HE.
  set (n := length ps) in *. unfold scoreError. rewrite two_uu, two_ee.
  assert (Hb : INR (n + 1) * uu <= / 2). { apply gam_lin in Hn as [_ Hn]. lra. }
  pose proof (pow_lin _ Hb) as HP. rewrite Nat.add_1_r, <- tech_pow_Rmult, S_INR in HP. rewrite Nat.add_1_r, S_INR in Hb.
  set (g := (1 + uu) ^ n) in *. pose proof (pow_ge1 n) as Hg. fold g in Hg. set (m := INR n) in *. pose proof (pos_INR n) as Hm. fold m in Hm.
  pose proof one_uu as [U1 U2]. assert (Ee : 0 < ee) by (unfold ee; apply bpow_gt_0).
  set (a := B2R start) in *. set (Q := rsum (exact (prods lr ps))) in *. set (X := rsum (terms lr ps)) in *. set (AQ := asum (exact (prods lr ps))) in *.
  pose proof (asum_nn (terms lr ps)) as HX. set (AX := asum (terms lr ps)) in *. pose proof (Rabs_pos a) as Ha. set (aa := Rabs a) in *.
  change (B2R s) with (@BinarySingleNaN.B2R 53 1024 s).
  assert (HE' : Rabs (@BinarySingleNaN.B2R 53 1024 s - (a + Q)) <= (g - 1) * (aa + ((1 + uu) * AX + m * ee))).
  { eapply Rle_trans; [exact HE|]. apply Rmult_le_compat_l; [lra|]. change (Rabs (@BinarySingleNaN.B2R 53 1024 start)) with aa. lra. }
  replace (@BinarySingleNaN.B2R 53 1024 s - (a + X)) with ((@BinarySingleNaN.B2R 53 1024 s - (a + Q)) + (Q - X)) by ring.
  eapply Rle_trans; [apply Rabs_triang|]. eapply Rle_trans; [apply Rplus_le_compat; [exact HE'|exact P1]|].
  assert (Hg2 : g <= 2) by nra. assert (Hme : 0 <= m * ee) by (apply Rmult_le_pos; lra).
  assert (K1 : (g - 1) * aa <= ((1 + uu) * g - 1) * aa) by (apply Rmult_le_compat_r; nra).
  assert (K2 : ((1 + uu) * g - 1) * (aa + AX) <= (m + 1) * (2 * uu) * (aa + AX)) by (apply Rmult_le_compat_r; lra).
  assert (K3 : g * (m * ee) <= 2 * (m * ee)) by (apply Rmult_le_compat_r; lra).
  replace ((g - 1) * (aa + ((1 + uu) * AX + m * ee)) + (uu * AX + m * ee)) with ((g - 1) * aa + ((1 + uu) * g - 1) * AX + g * (m * ee)) by ring.
  lra.
Qed.

(** finite scores *)
Lemma score_finite lr ps start : allFinite (start :: lr :: ps) -> (Z.of_nat (length ps) < 2 ^ 40)%Z -> Rabs (B2R start) + asum (terms lr ps) <= 600 ->
  ffinite (fold_left (fun a p => fadd a (fmul p lr)) ps start) = true /\ Rabs (B2R (fold_left (fun a p => fadd a (fmul p lr)) ps start)) <= 610.
Proof.
  intros Hf Hn40 HA. assert (Hn : fits (length ps + 1)) by (unfold fits; lia). pose proof one_uu as [U1 U2]. pose proof (Rabs_pos (B2R start)) as Ha. pose proof (asum_nn (terms lr ps)) as HX.
  assert (Hq : allFinite (prods lr ps)).
  { intros q Hq. apply in_map_iff in Hq as (p & <- & Hp). apply fmul_small.
    - apply Hf. right. right. exact Hp.
    - apply Hf. right. left. reflexivity.
    - apply In_nth_error in Hp as [i Hp].
      assert (HH : Rabs (B2R p * B2R lr) <= asum (terms lr ps)).
      { unfold asum. apply (rsum_one _ i).
        - intros x Hx. apply in_map_iff in Hx as (y & <- & _). apply Rabs_pos.
        - apply map_nth_error. exact (map_nth_error (fun p => B2R p * B2R lr) _ _ Hp). }
      lra. }
  destruct (products_error lr ps Hq) as [P1 P2]. pose proof (gam_lin _ Hn) as [G1 G2]. pose proof (gam_nn (length ps + 1)) as G0.
  assert (G3 : gam (length ps + 1) <= / 4) by nra.
  assert (Hne : INR (length ps) * ee <= / 1000).
  { pose proof ee_small as E1. assert (Hl : INR (length ps) <= 1125899906842624). { rewrite INR_IZR_INZ. apply IZR_le. unfold fits in Hn. lia. }
    assert (E2 : ee <= bpow radix2 (-100)) by (unfold ee; apply bpow_le; lia). assert (E3 : 0 < ee) by (unfold ee; apply bpow_gt_0). pose proof (pos_INR (length ps)).
    apply Rle_trans with (1125899906842624 * bpow radix2 (-100)); [apply Rmult_le_compat; lra|]. simpl. lra. }
  assert (HF : ffinite (fold_left (fun a p => fadd a (fmul p lr)) ps start) = true).
  { apply (sum_finite _ _ (score_is_sum lr ps start)).
    - intros x [<-|Hx]; [apply Hf; left; reflexivity|apply Hq; exact Hx].
    - fold (prods lr ps). cbn [length]. rewrite prods_length. rewrite <- (Nat.add_1_r (length ps)).
      change (exact (start :: prods lr ps)) with (B2R start :: exact (prods lr ps)). unfold asum. cbn [map rsum]. change (rsum (map Rabs (exact (prods lr ps)))) with (asum (exact (prods lr ps))).
      pose proof Mx_num. assert (Rabs (B2R start) + asum (exact (prods lr ps)) <= 602) by nra.
      assert (0 <= Rabs (B2R start) + asum (exact (prods lr ps))) by (pose proof (asum_nn (exact (prods lr ps))); lra).
      apply Rle_lt_trans with (2 * 602); [apply Rmult_le_compat; lra|lra]. }
  split; [exact HF|]. pose proof (score_error lr ps start HF Hn) as HS. set (s := B2R (fold_left _ ps start)) in *.
  set (AX := asum (terms lr ps)) in *. set (X := rsum (terms lr ps)) in *. pose proof (rsum_le_asum (terms lr ps)) as HR. fold X AX in HR.
  assert (HE : scoreError (length ps) (Rabs (B2R start) + AX) <= 9).
  { unfold scoreError. rewrite two_uu, two_ee. assert (Hl : INR (length ps) <= 1099511627776). { rewrite INR_IZR_INZ. apply IZR_le. lia. }
    assert (K : (INR (length ps) + 1) * (2 * uu) <= / 1000). { rewrite uu_val. lra. }
    pose proof (pos_INR (length ps)). assert (0 <= (INR (length ps) + 1) * (2 * uu)) by (apply Rmult_le_pos; lra).
    assert ((INR (length ps) + 1) * (2 * uu) * (Rabs (B2R start) + AX) <= / 1000 * 600) by (apply Rmult_le_compat; lra). lra. }
  replace s with ((s - (B2R start + X)) + (B2R start + X)) by ring. eapply Rle_trans; [apply Rabs_triang|]. pose proof (Rabs_triang (B2R start) X). lra.
Qed.

(** the scores of a model *)
Lemma class_error M row out j s S A : rawScores M row = Ok out -> nth_error out j = Some s -> classScore M row j S A -> ffinite s = true ->
  fits (length (positionTrees (mc_b M) j) + 1) -> Rabs (B2R s - S) <= scoreError (length (positionTrees (mc_b M) j)) A.
Proof.
  intros HR Hs (ps & HP & _ & -> & ->) Hf Hn. destruct (rawScores_spec _ _ _ HR) as (b0 & rest & _ & HL & _ & HJ).
  destruct (HJ j) as (y & Hy & ps' & HP' & Ey). { rewrite <- HL. apply nth_error_Some. rewrite Hs. discriminate. }
  assert (y = s) by congruence. subst y. assert (Eps : ps' = ps).
  { clear - HP HP'. revert ps' HP'. induction HP as [|t p ts ps H HP IH]; intros ps' H'; inversion H'; subst; [reflexivity|]. f_equal; [congruence|]. apply IH. auto. }
  subst ps'. rewrite (forall2_len _ _ _ HP) in *. rewrite terms_abs. subst s. apply score_error; auto.
Qed.
Lemma class_finite M row out j s S A : rawScores M row = Ok out -> nth_error out j = Some s -> classScore M row j S A ->
  (Z.of_nat (length (positionTrees (mc_b M) j)) < 2 ^ 40)%Z -> A <= 600 -> ffinite s = true /\ Rabs (B2R s) <= 610.
Proof.
  intros HR Hs (ps & HP & Hfin & -> & ->) Hn HA. destruct (rawScores_spec _ _ _ HR) as (b0 & rest & _ & HL & _ & HJ).
  destruct (HJ j) as (y & Hy & ps' & HP' & Ey). { rewrite <- HL. apply nth_error_Some. rewrite Hs. discriminate. }
  assert (y = s) by congruence. subst y. assert (Eps : ps' = ps).
  { clear - HP HP'. revert ps' HP'. induction HP as [|t p ts ps H HP IH]; intros ps' H'; inversion H'; subst; [reflexivity|]. f_equal; [congruence|]. apply IH. auto. }
  subst ps'. rewrite (forall2_len _ _ _ HP) in *. rewrite terms_abs in HA. subst s. apply score_finite; auto.
Qed.

Lemma margin_lemma E M row bufs out k : EnvOk E -> expAccurate E -> mc_pt M = softmaxOf E -> rawScores M row = Ok out -> (k < length out)%nat ->
  (Z.of_nat (length out) <= 2 ^ 40)%Z -> (forall j, (j < length out)%nat -> (Z.of_nat (length (positionTrees (mc_b M) j)) < 2 ^ 40)%Z) ->
  (forall j, (j < length out)%nat -> exists Sj Aj Sk Ak, classScore M row j Sj Aj /\ classScore M row k Sk Ak /\ Aj <= 600 /\
    (j <> k -> Sj + scoreError (length (positionTrees (mc_b M) j)) Aj + scoreError (length (positionTrees (mc_b M) k)) Ak + two (-34) <= Sk)) ->
  PredictSingleClass M row bufs = Ok (Z.of_nat k, bufs).
Proof.
  intros HE HA Hpt HR Hk Hnc Hnt HC.
  destruct (nth_error out k) as [sk|] eqn:Esk. 2:{ apply nth_error_None in Esk. lia. }
  assert (HF : forall s, In s out -> ffinite s = true /\ Rabs (B2R s) <= 610).
  { intros s Hs. apply In_nth_error in Hs as [j Hs]. assert (Hj : (j < length out)%nat) by (apply nth_error_Some; rewrite Hs; discriminate).
    destruct (HC j Hj) as (Sj & Aj & Sk & Ak & H1 & _ & H3 & _). apply (class_finite M row out j s Sj Aj); auto. }
  assert (HG : forall j s, nth_error out j = Some s -> j <> k -> bpow radix2 (-34) <= B2R sk - B2R s).
  { intros j s Hs Hjk. assert (Hj : (j < length out)%nat) by (apply nth_error_Some; rewrite Hs; discriminate).
    destruct (HC j Hj) as (Sj & Aj & Sk & Ak & H1 & H2 & H3 & H4). specialize (H4 Hjk). unfold two in H4.
    pose proof (class_error M row out j s Sj Aj HR Hs H1 ltac:(apply HF; eapply nth_error_In; exact Hs) ltac:(unfold fits; specialize (Hnt j Hj); lia)) as D1.
    pose proof (class_error M row out k sk Sk Ak HR Esk H2 ltac:(apply HF; eapply nth_error_In; exact Esk) ltac:(unfold fits; specialize (Hnt k Hk); lia)) as D2.
    apply Rabs_le' in D1, D2. lra. }
  assert (Hnl : (0 < length out)%nat) by lia.
  destruct (softmax_row E (length out) out Hnl eq_refl) as (D' & HD & HDl & HSM).
  rewrite SoftMax_same in HSM by (rewrite repeat_length; reflexivity). apply Ok_inj' in HSM.
  assert (HP : PredictMC M row bufs = Ok (d_data D', bufs)).
  { unfold PredictMC. rewrite HR. cbn [bind]. rewrite Hpt. unfold softmaxOf. cbn beta iota.
    apply bind_Ok in HD as (O & HO & HD). rewrite HO. cbn [bind]. apply bind_Ok in HD as (D & HD0 & HD). rewrite HD0. cbn [bind]. rewrite HD. reflexivity. }
  unfold PredictSingleClass. rewrite HP. cbn [bind]. destruct (argmax_spec (d_data D')) as (p & Hp & Hr & Hmax & _).
  { intros Hn. rewrite Hn in HDl. simpl in HDl. lia. }
  rewrite Hp. cbn [bind]. f_equal. f_equal.
  (* the probabilities *)
  assert (HQ : d_data D' = map (fun s => fdiv (e_exp E s) (e_sum E (map (e_exp E) out))) out).
  { rewrite <- HSM. unfold softmax. rewrite map_map. reflexivity. }
  assert (Hne : out <> []) by (intros ->; simpl in Hnl; lia).
  assert (HN : forall x, In x (d_data D') -> fnanb x = false).
  { intros x Hx. rewrite HQ in Hx. apply in_map_iff in Hx as (s & <- & Hs). apply finite_nnan. apply (share E HE HA out HF Hne Hnc s Hs). }
  specialize (Hmax HN). destruct Hmax as (m & Hm & Hle & _).
  destruct (Z.eq_dec p (Z.of_nat k)) as [|Hne2]; [assumption|exfalso].
  destruct Hm as [Hm0 Hm]. assert (Epj : Z.to_nat p <> k) by lia.
  rewrite HQ, nth_error_map in Hm. destruct (nth_error out (Z.to_nat p)) as [sp|] eqn:Esp; [|discriminate Hm]. cbn [option_map] in Hm. injection Hm as Hm.
  assert (Htop : forall s, In s out -> B2R s <= B2R sk).
  { intros s Hs. apply In_nth_error in Hs as [j Hs]. destruct (Nat.eq_dec j k) as [->|Hjk]; [assert (s = sk) by congruence; subst; lra|].
    specialize (HG j s Hs Hjk). pose proof (bpow_gt_0 radix2 (-34)). lra. }
  pose proof (share_strict E HE HA out HF Hne Hnc k sk Esk sp Htop (nth_error_In _ _ Esp) (HG _ _ Esp Epj)) as HS.
  specialize (Hle (fdiv (e_exp E sk) (e_sum E (map (e_exp E) out)))). rewrite HQ in Hle.
  specialize (Hle ltac:(apply (in_map (fun s => fdiv (e_exp E s) (e_sum E (map (e_exp E) out)))); eapply nth_error_In; exact Esk)).
  apply fleb_true in Hle as (_ & _ & Hle). rewrite <- Hm in Hle.
  rewrite !ext_finite in Hle by (apply (share E HE HA out HF Hne Hnc); eapply nth_error_In; eassumption). lra.
Qed.
