(** Proofs of C146. *)
From Coq Require Import Reals Lra Permutation.
From Flocq Require Import Core BinarySingleNaN.
From Verif Require Import Base F64 F64Lemmas Env EnvLemmas Utils UtilsProofs UtilsThms Tree Spec SpecErr NumErr ErrProofs Options Train SpecTrain SpecLearn LearnNum TrainProofs TrainMore TreeProofs JsonMore SpecScore ScoreProofs Fma.
From Coq Require Import List.
Open Scope Z_scope.

(** ** sums of scores *)
Definition accumulatedF (fuse : bool) (lr : f64) (row : list f64) (start : f64) (ts : list tree) (v : f64) : Prop :=
  exists ps, Forall2 (fun t p => PredictSingle t row = Ok p) ts ps /\ v = fold_left (fun a p => madd fuse a p lr) ps start.
Lemma accumulatedF_app fuse lr row s ts1 ts2 v : accumulatedF fuse lr row s (ts1 ++ ts2) v <->
  exists u, accumulatedF fuse lr row s ts1 u /\ accumulatedF fuse lr row u ts2 v.
Proof.
  split.
  - intros (ps & HF & ->). apply Forall2_app_inv_l in HF as (p1 & p2 & H1 & H2 & ->). rewrite fold_left_app.
    eexists. split; eexists; split; eauto.
  - intros (u & (p1 & H1 & ->) & (p2 & H2 & ->)). exists (p1 ++ p2). split; [apply Forall2_app; auto|]. rewrite fold_left_app. auto.
Qed.
Lemma addTreesF_spec fuse lr row ens : forall c tmp out, 0 <= c -> addTreesF fuse lr row c ens tmp = Ok out ->
  length out = length tmp /\ (Z.to_nat c + length ens <= Nat.max (Z.to_nat c) (length tmp))%nat /\
  forall j x, nth_error tmp j = Some x -> exists y, nth_error out j = Some y /\
    accumulatedF fuse lr row x (if Nat.leb (Z.to_nat c) j then headOr (nth_error ens (j - Z.to_nat c)) else []) y.
Proof.
  induction ens as [|t ens IH]; intros c tmp out Hc H; simpl in H.
  - injection H as <-. split; [auto|]. split; [simpl; lia|]. intros j x Hx. exists x. split; auto.
    destruct (j - Z.to_nat c)%nat; simpl; destruct (Nat.leb _ _); exists []; split; auto.
  - binv H. binv H. binv H. apply upd_Ok in Hb1 as [Hr ->]. apply idx_Ok in Hb0 as [_ Hold].
    destruct (IH (c + 1) _ _ ltac:(lia) H) as (H1 & H2 & H3). rewrite upd_nat_length in *.
    split; [auto|]. split; [simpl; lia|]. intros j x Hx.
    specialize (H3 j). rewrite upd_nat_nth in H3.
    destruct (Nat.ltb_spec (Z.to_nat c) (length tmp)) as [Q|Q]; [|lia].
    destruct (Nat.eqb_spec j (Z.to_nat c)) as [Hj|Hne].
    + subst j. assert (v0 = x) by congruence. subst v0. destruct (H3 _ eq_refl) as (y & Hy & Hacc). exists y. split; auto.
      rewrite Nat.leb_refl, Nat.sub_diag. simpl.
      destruct (Nat.leb_spec (Z.to_nat (c + 1)) (Z.to_nat c)) as [Q'|_]; [lia|].
      destruct Hacc as (ps & HF & ->). inversion HF; subst. simpl. exists [v]. split; auto.
    + destruct (H3 x Hx) as (y & Hy & Hacc). exists y. split; auto.
      destruct (Nat.leb_spec (Z.to_nat (c + 1)) j) as [Q'|Q'], (Nat.leb_spec (Z.to_nat c) j) as [Q2|Q2]; try lia; auto.
      replace (j - Z.to_nat c)%nat with (S (j - Z.to_nat (c + 1)))%nat by lia. exact Hacc.
Qed.

Lemma rawScoresF_fold fuse lr row : forall b tmp out, foldM (fun tmp ens => addTreesF fuse lr row 0 ens tmp) tmp b = Ok out ->
  length out = length tmp /\ (forall ens, In ens b -> (length ens <= length tmp)%nat) /\
  forall j x, nth_error tmp j = Some x -> exists y, nth_error out j = Some y /\ accumulatedF fuse lr row x (positionTrees b j) y.
Proof.
  induction b as [|ens b IH]; intros tmp out H; simpl in H.
  - injection H as <-. split; [auto|]. split; [intros ? []|]. intros j x Hx. exists x. split; auto. exists []. split; [constructor|reflexivity].
  - binv H. apply addTreesF_spec in Hb as (H1 & H2 & H3); [|lia]. apply IH in H as (H4 & H5 & H6).
    split; [congruence|]. split.
    + intros e [<-|He]; [simpl in H2; lia|]. apply H5 in He. lia.
    + intros j x Hx. destruct (H3 j x Hx) as (y & Hy & Ha). destruct (H6 j y Hy) as (z & Hz & Ha').
      exists z. split; auto. simpl. apply accumulatedF_app. exists y. split; auto.
      change (Nat.leb (Z.to_nat 0) j) with true in Ha. cbv iota in Ha. rewrite Nat.sub_0_r in Ha. exact Ha.
Qed.

Lemma rawScoresF_spec fuse M row out : rawScoresF fuse M row = Ok out ->
  exists b0 rest, mc_b M = b0 :: rest /\ length out = length b0 /\
  (forall ens, In ens (mc_b M) -> (length ens <= length b0)%nat) /\
  forall j, (j < length b0)%nat -> exists y, nth_error out j = Some y /\
    accumulatedF fuse (mc_lr M) row (mc_base M) (positionTrees (mc_b M) j) y.
Proof.
  unfold rawScoresF. intros H. binv H. apply idx_Ok in Hb as [_ Hb]. destruct (mc_b M) as [|b0 rest]; [discriminate|].
  simpl in Hb. injection Hb as <-. exists b0, rest. split; [auto|].
  apply rawScoresF_fold in H as (H1 & H2 & H3). rewrite repeat_length in *. split; [auto|]. split; [auto|].
  intros j Hj. apply H3. rewrite (nth_error_nth' _ (mc_base M)) by (rewrite repeat_length; auto).
  rewrite nth_repeat. reflexivity.
Qed.

Open Scope R_scope.

(** ** the fused operation *)
Lemma ffma_arg x y z : ffinite (ffma x y z) = true -> ffinite x = true /\ ffinite y = true /\ ffinite z = true.
Proof.
  unfold ffma. intros H. destruct x as [s|s| |s m e B], y as [s1|s1| |s1 m1 e1 B1], z as [s2|s2| |s2 m2 e2 B2]; try (repeat split; reflexivity); try discriminate H;
    cbn in H; destruct (Bool.eqb _ _); discriminate H.
Qed.
Lemma ffma_real x y z : ffinite (ffma x y z) = true -> B2R (ffma x y z) = rnd (B2R x * B2R y + B2R z).
Proof.
  intros H. destruct (ffma_arg x y z H) as (Hx & Hy & Hz). pose proof (Bfma_correct 53 1024 Hprec Hemax mode_NE x y z Hx Hy Hz) as HC. cbv zeta in HC.
  destruct (Rlt_bool _ _).
  - exact (proj1 HC).
  - exfalso. unfold ffma in H. change (is_finite (Bfma mode_NE x y z) = true) in H. rewrite <- is_finite_SF_B2SF, HC in H. discriminate H.
Qed.
Lemma ffma_small x y z : ffinite x = true -> ffinite y = true -> ffinite z = true -> Rabs (B2R x * B2R y + B2R z) <= 1000 -> ffinite (ffma x y z) = true.
Proof.
  intros Hx Hy Hz HB. pose proof (Bfma_correct 53 1024 Hprec Hemax mode_NE x y z Hx Hy Hz) as HC. cbv zeta in HC.
  rewrite Rlt_bool_true in HC; [exact (proj1 (proj2 HC))|].
  change (Rabs (rnd (B2R x * B2R y + B2R z)) < bpow radix2 1024).
  destruct (rnd_any (B2R x * B2R y + B2R z)) as (e & n & He & Hn & ->). pose proof one_uu as [U1 U2].
  assert (E1 : ee <= 1) by (unfold ee; change 1 with (bpow radix2 0); apply bpow_le; lia).
  apply Rle_lt_trans with 3000; [|apply Rlt_le_trans with (bpow radix2 20); [simpl; lra|apply bpow_le; lia]].
  eapply Rle_trans; [apply Rabs_triang|]. rewrite Rabs_mult. assert (Rabs (1 + e) <= 2) by (eapply Rle_trans; [apply Rabs_triang|]; rewrite Rabs_R1; lra).
  assert (Rabs (B2R x * B2R y + B2R z) * Rabs (1 + e) <= 1000 * 2) by (apply Rmult_le_compat; auto using Rabs_pos). lra.
Qed.
Lemma ffma_error x y z : ffinite (ffma x y z) = true -> Rabs (B2R (ffma x y z) - (B2R z + B2R x * B2R y)) <= uu * (Rabs (B2R z) + Rabs (B2R x * B2R y)) + ee.
Proof.
  intros H. rewrite (ffma_real _ _ _ H). destruct (rnd_any (B2R x * B2R y + B2R z)) as (e & n & He & Hn & ->).
  set (q := B2R x * B2R y). set (a := B2R z). replace ((q + a) * (1 + e) + n - (a + q)) with (e * (q + a) + n) by ring.
  eapply Rle_trans; [apply Rabs_triang|]. rewrite Rabs_mult. apply Rplus_le_compat; [|exact Hn].
  apply Rmult_le_compat; auto using Rabs_pos. rewrite Rplus_comm. apply Rabs_triang.
Qed.

(** ** errors of the scores *)
Lemma fscore_arg lr ps : forall a, ffinite (fold_left (fun a p => ffma p lr a) ps a) = true -> ffinite a = true.
Proof.
  induction ps as [|p ps IH]; intros a H; cbn [fold_left] in H; [exact H|]. apply IH in H. apply (ffma_arg _ _ _ H).
Qed.
Lemma fscore_error lr ps : forall a : f64, ffinite (fold_left (fun a p => ffma p lr a) ps a) = true ->
  Rabs (B2R (fold_left (fun a p => ffma p lr a) ps a) - (B2R a + rsum (terms lr ps))) <=
    ((1 + uu) ^ length ps - 1) * (Rabs (B2R a) + asum (terms lr ps)) + INR (length ps) * ((1 + uu) ^ length ps * ee).
Proof.
  pose proof one_uu as [U1 U2]. pose proof ee_pos as E1.
  induction ps as [|p ps IH]; intros a H; cbn [fold_left] in H |- *.
  - unfold terms, asum. cbn [map rsum length pow INR]. replace (B2R a - (B2R a + 0)) with 0 by ring. rewrite Rabs_R0. pose proof (Rabs_pos (B2R a)). lra.
  - specialize (IH _ H). apply fscore_arg in H. pose proof (ffma_error p lr a H) as HE. revert IH.
    set (s := @B2R 53 1024 (fold_left (fun a p => ffma p lr a) ps (ffma p lr a))). cbn [length]. rewrite S_INR, <- tech_pow_Rmult. set (g := (1 + uu) ^ length ps). set (m := INR (length ps)).
    unfold terms, asum. cbn [map rsum]. fold (terms lr ps). fold (asum (terms lr ps)). set (X := rsum (terms lr ps)). set (AX := asum (terms lr ps)). set (q := B2R p * B2R lr) in *. set (b := B2R (ffma p lr a)) in *. set (c := B2R a) in *.
    intros IH. pose proof (pow_ge1 (length ps)) as Hg. fold g in Hg. pose proof (pos_INR (length ps)) as Hm. fold m in Hm. pose proof (asum_nn (terms lr ps)) as HX. fold AX in HX.
    assert (Hb : Rabs b <= (1 + uu) * (Rabs c + Rabs q) + ee).
    { replace b with ((b - (c + q)) + (c + q)) by ring. eapply Rle_trans; [apply Rabs_triang|]. pose proof (Rabs_triang c q). lra. }
    replace (s - (c + (q + X))) with ((s - (b + X)) + (b - (c + q))) by ring. eapply Rle_trans; [apply Rabs_triang|].
    pose proof (Rabs_pos c) as Hc. pose proof (Rabs_pos q) as Hq. set (A := Rabs c + Rabs q) in *.
    assert (K1 : (g - 1) * (Rabs b + AX) <= (g - 1) * ((1 + uu) * A + ee + AX)) by (apply Rmult_le_compat_l; lra).
    assert (K2 : (g - 1) * AX <= ((1 + uu) * g - 1) * AX) by (apply Rmult_le_compat_r; [lra|nra]).
    assert (K3 : (m + 1) * (g * ee) <= (m + 1) * ((1 + uu) * g * ee)). { apply Rmult_le_compat_l; [lra|]. apply Rmult_le_compat_r; [lra|nra]. }
    replace (((1 + uu) * g - 1) * (Rabs c + (Rabs q + AX))) with (((1 + uu) * g - 1) * A + ((1 + uu) * g - 1) * AX) by (unfold A; ring).
    replace ((g - 1) * ((1 + uu) * A + ee + AX)) with ((((1 + uu) * g - 1) * A - uu * A) + (g - 1) * AX + (g * ee - ee)) in K1 by ring.
    replace ((m + 1) * (g * ee)) with (m * (g * ee) + g * ee) in K3 by ring. lra.
Qed.
Lemma score_errorF fuse lr ps start : ffinite (fold_left (fun a p => madd fuse a p lr) ps start) = true -> fits (length ps + 1) ->
  Rabs (B2R (fold_left (fun a p => madd fuse a p lr) ps start) - (B2R start + rsum (terms lr ps))) <= scoreError (length ps) (Rabs (B2R start) + asum (terms lr ps)).
Proof.
  destruct fuse; cbn [madd]; [|apply score_error]. intros Hf Hn. pose proof (fscore_error lr ps start Hf) as HE. eapply Rle_trans; [exact HE|].
  set (n := length ps) in *. unfold scoreError. rewrite two_uu, two_ee.
  assert (Hb : INR (n + 1) * uu <= / 2). { apply gam_lin in Hn as [_ Hn]. lra. }
  pose proof (pow_lin _ Hb) as HP. rewrite Nat.add_1_r, <- tech_pow_Rmult, S_INR in HP. rewrite Nat.add_1_r, S_INR in Hb.
  set (g := (1 + uu) ^ n) in *. pose proof (pow_ge1 n) as Hg. fold g in Hg. set (m := INR n) in *. pose proof (pos_INR n) as Hm. fold m in Hm.
  pose proof one_uu as [U1 U2]. pose proof ee_pos as Ee. pose proof (asum_nn (terms lr ps)) as HX. pose proof (Rabs_pos (B2R start)) as Ha.
  set (A := Rabs (B2R start) + asum (terms lr ps)) in *. assert (HA : 0 <= A) by (unfold A; lra).
  assert (Hg2 : g <= 2) by nra. assert (Hme : 0 <= m * ee) by (apply Rmult_le_pos; lra).
  assert (K1 : (g - 1) * A <= (m + 1) * (2 * uu) * A) by (apply Rmult_le_compat_r; [lra|nra]).
  assert (K3 : g * (m * ee) <= 2 * (m * ee)) by (apply Rmult_le_compat_r; lra).
  replace (m * (g * ee)) with (g * (m * ee)) by ring. lra.
Qed.
Lemma fscore_finite lr ps : ffinite lr = true -> forall a : f64, ffinite a = true -> allFinite ps ->
  (1 + uu) ^ length ps * (Rabs (B2R a) + asum (terms lr ps)) + INR (length ps) * ((1 + uu) ^ length ps * ee) <= 1000 ->
  ffinite (fold_left (fun a p => ffma p lr a) ps a) = true.
Proof.
  pose proof one_uu as [U1 U2]. pose proof ee_pos as E1. intros Hlr.
  induction ps as [|p ps IH]; intros a Ha HF H; cbn [fold_left]; [exact Ha|]. revert H. cbn [length]. rewrite S_INR, <- tech_pow_Rmult.
  set (g := (1 + uu) ^ length ps). set (m := INR (length ps)). unfold terms, asum. cbn [map rsum]. fold (terms lr ps). fold (asum (terms lr ps)). set (AX := asum (terms lr ps)). set (q := B2R p * B2R lr). 
  intros H. pose proof (pow_ge1 (length ps)) as Hg. fold g in Hg. pose proof (pos_INR (length ps)) as Hm. fold m in Hm. pose proof (asum_nn (terms lr ps)) as HX. fold AX in HX.
  pose proof (Rabs_pos (B2R a)) as Hc. pose proof (Rabs_pos q) as Hq. assert (Hge : 0 <= g * ee) by nra.
  assert (H0 : 0 <= (m + 1) * ((1 + uu) * g * ee)) by (apply Rmult_le_pos; [lra|nra]).
  assert (HA : Rabs (B2R a) + (Rabs q + AX) <= (1 + uu) * g * (Rabs (B2R a) + (Rabs q + AX))).
  { rewrite <- (Rmult_1_l (Rabs (B2R a) + (Rabs q + AX))) at 1. apply Rmult_le_compat_r; [lra|nra]. }
  assert (HM : ffinite (ffma p lr a) = true).
  { apply ffma_small; auto; [apply HF; left; reflexivity|]. fold q. pose proof (Rabs_triang q (B2R a)). lra. }
  pose proof (ffma_error p lr a HM) as HE. fold q in HE. set (b := B2R (ffma p lr a)) in *.
  apply IH; [exact HM|intros x Hx; apply HF; right; exact Hx|]. fold g m AX. change (B2R (ffma p lr a)) with b.
  assert (Hb : Rabs b <= (1 + uu) * (Rabs (B2R a) + Rabs q) + ee).
  { replace b with ((b - (B2R a + q)) + (B2R a + q)) by ring. eapply Rle_trans; [apply Rabs_triang|]. pose proof (Rabs_triang (B2R a) q). lra. }
  assert (K1 : g * (Rabs b + AX) <= g * ((1 + uu) * (Rabs (B2R a) + Rabs q) + ee + AX)) by (apply Rmult_le_compat_l; lra).
  assert (K2 : g * AX <= (1 + uu) * g * AX) by (apply Rmult_le_compat_r; [lra|nra]).
  assert (K3 : (m + 1) * (g * ee) <= (m + 1) * ((1 + uu) * g * ee)). { apply Rmult_le_compat_l; [lra|]. apply Rmult_le_compat_r; [lra|nra]. }
  replace ((1 + uu) * g * (Rabs (B2R a) + (Rabs q + AX))) with (g * ((1 + uu) * (Rabs (B2R a) + Rabs q)) + (1 + uu) * g * AX) in H by ring.
  replace (g * ((1 + uu) * (Rabs (B2R a) + Rabs q) + ee + AX)) with (g * ((1 + uu) * (Rabs (B2R a) + Rabs q)) + g * ee + g * AX) in K1 by ring.
  replace ((m + 1) * (g * ee)) with (m * (g * ee) + g * ee) in K3 by ring. lra.
Qed.
Lemma score_finiteF fuse lr ps start : allFinite (start :: lr :: ps) -> (Z.of_nat (length ps) < 2 ^ 40)%Z -> Rabs (B2R start) + asum (terms lr ps) <= 600 ->
  ffinite (fold_left (fun a p => madd fuse a p lr) ps start) = true /\ Rabs (B2R (fold_left (fun a p => madd fuse a p lr) ps start)) <= 610.
Proof.
  destruct fuse; cbn [madd]; [|apply score_finite]. intros Hf Hn40 HA. assert (Hn : fits (length ps + 1)) by (unfold fits; lia).
  pose proof one_uu as [U1 U2]. pose proof (Rabs_pos (B2R start)) as Ha. pose proof (asum_nn (terms lr ps)) as HX.
  assert (Hl : INR (length ps) <= 1099511627776). { rewrite INR_IZR_INZ. apply IZR_le. lia. }
  pose proof (pos_INR (length ps)) as Hm. pose proof (pow_ge1 (length ps)) as Hg.
  assert (Hb : INR (length ps) * uu <= / 2) by (rewrite uu_val; lra). pose proof (pow_lin _ Hb) as HP.
  assert (Hg2 : (1 + uu) ^ length ps <= 1 + / 1000). { assert (INR (length ps) * uu <= / 4000) by (rewrite uu_val; lra). lra. }
  assert (Hne : INR (length ps) * ee <= / 1000).
  { assert (E2 : ee <= bpow radix2 (-100)) by (unfold ee; apply bpow_le; lia). pose proof ee_pos as E3.
    apply Rle_trans with (1099511627776 * bpow radix2 (-100)); [apply Rmult_le_compat; lra|]. simpl. lra. }
  set (g := (1 + uu) ^ length ps) in *. set (m := INR (length ps)) in *. set (AX := asum (terms lr ps)) in *. pose proof ee_pos as E3.
  assert (H0 : 0 <= m * ee) by (apply Rmult_le_pos; lra).
  assert (K1 : g * (Rabs (B2R start) + AX) <= (1 + / 1000) * 600) by (apply Rmult_le_compat; lra).
  assert (K2 : g * (m * ee) <= (1 + / 1000) * / 1000) by (apply Rmult_le_compat; lra).
  assert (HF : ffinite (fold_left (fun a p => ffma p lr a) ps start) = true).
  { apply fscore_finite; [apply Hf; right; left; reflexivity|apply Hf; left; reflexivity|intros x Hx; apply Hf; right; right; exact Hx|].
    fold g m AX. replace (m * (g * ee)) with (g * (m * ee)) by ring. lra. }
  split; [exact HF|]. pose proof (fscore_error lr ps start HF) as HE. fold g m AX in HE. set (s := @B2R 53 1024 (fold_left (fun a p => ffma p lr a) ps start)) in *.
  pose proof (rsum_le_asum (terms lr ps)) as HR. fold AX in HR. set (X := rsum (terms lr ps)) in *.
  assert (K3 : (g - 1) * (Rabs (B2R start) + AX) <= / 1000 * 600) by (apply Rmult_le_compat; lra).
  replace (m * (g * ee)) with (g * (m * ee)) in HE by ring.
  replace s with ((s - (B2R start + X)) + (B2R start + X)) by ring. eapply Rle_trans; [apply Rabs_triang|]. pose proof (Rabs_triang (B2R start) X). lra.
Qed.
Lemma class_errorF fuse M row out j s S A : rawScoresF fuse M row = Ok out -> nth_error out j = Some s -> classScore M row j S A -> ffinite s = true ->
  fits (length (positionTrees (mc_b M) j) + 1) -> Rabs (B2R s - S) <= scoreError (length (positionTrees (mc_b M) j)) A.
Proof.
  intros HR Hs (ps & HP & _ & -> & ->) Hf Hn. destruct (rawScoresF_spec _ _ _ _ HR) as (b0 & rest & _ & HL & _ & HJ).
  destruct (HJ j) as (y & Hy & ps' & HP' & Ey). { rewrite <- HL. apply nth_error_Some. rewrite Hs. discriminate. }
  assert (y = s) by congruence. subst y. assert (Eps : ps' = ps).
  { clear - HP HP'. revert ps' HP'. induction HP as [|t p ts ps H HP IH]; intros ps' H'; inversion H'; subst; [reflexivity|]. f_equal; [congruence|]. apply IH. auto. }
  subst ps'. rewrite (forall2_len _ _ _ HP) in *. rewrite terms_abs. subst s. apply score_errorF; auto.
Qed.
Lemma class_finiteF fuse M row out j s S A : rawScoresF fuse M row = Ok out -> nth_error out j = Some s -> classScore M row j S A ->
  (Z.of_nat (length (positionTrees (mc_b M) j)) < 2 ^ 40)%Z -> A <= 600 -> ffinite s = true /\ Rabs (B2R s) <= 610.
Proof.
  intros HR Hs (ps & HP & Hfin & -> & ->) Hn HA. destruct (rawScoresF_spec _ _ _ _ HR) as (b0 & rest & _ & HL & _ & HJ).
  destruct (HJ j) as (y & Hy & ps' & HP' & Ey). { rewrite <- HL. apply nth_error_Some. rewrite Hs. discriminate. }
  assert (y = s) by congruence. subst y. assert (Eps : ps' = ps).
  { clear - HP HP'. revert ps' HP'. induction HP as [|t p ts ps H HP IH]; intros ps' H'; inversion H'; subst; [reflexivity|]. f_equal; [congruence|]. apply IH. auto. }
  subst ps'. rewrite (forall2_len _ _ _ HP) in *. rewrite terms_abs in HA. subst s. apply score_finiteF; auto.
Qed.

Lemma margin_lemmaF fuse E M row out k : EnvOk E -> expAccurate E -> mc_pt M = softmaxOf E -> rawScoresF fuse M row = Ok out -> (k < length out)%nat ->
  (Z.of_nat (length out) <= 2 ^ 40)%Z -> (forall j, (j < length out)%nat -> (Z.of_nat (length (positionTrees (mc_b M) j)) < 2 ^ 40)%Z) ->
  (forall j, (j < length out)%nat -> exists Sj Aj Sk Ak, classScore M row j Sj Aj /\ classScore M row k Sk Ak /\ Aj <= 600 /\
    (j <> k -> Sj + scoreError (length (positionTrees (mc_b M) j)) Aj + scoreError (length (positionTrees (mc_b M) k)) Ak + two (-34) <= Sk)) ->
  PredictSingleClassF fuse M row = Ok (Z.of_nat k).
Proof.
  intros HE HA Hpt HR Hk Hnc Hnt HC.
  destruct (nth_error out k) as [sk|] eqn:Esk. 2:{ apply nth_error_None in Esk. lia. }
  assert (HF : forall s, In s out -> ffinite s = true /\ Rabs (B2R s) <= 610).
  { intros s Hs. apply In_nth_error in Hs as [j Hs]. assert (Hj : (j < length out)%nat) by (apply nth_error_Some; rewrite Hs; discriminate).
    destruct (HC j Hj) as (Sj & Aj & Sk & Ak & H1 & _ & H3 & _). apply (class_finiteF fuse M row out j s Sj Aj); auto. }
  assert (HG : forall j s, nth_error out j = Some s -> j <> k -> bpow radix2 (-34) <= B2R sk - B2R s).
  { intros j s Hs Hjk. assert (Hj : (j < length out)%nat) by (apply nth_error_Some; rewrite Hs; discriminate).
    destruct (HC j Hj) as (Sj & Aj & Sk & Ak & H1 & H2 & H3 & H4). specialize (H4 Hjk). unfold two in H4.
    pose proof (class_errorF fuse M row out j s Sj Aj HR Hs H1 ltac:(apply HF; eapply nth_error_In; exact Hs) ltac:(unfold fits; specialize (Hnt j Hj); lia)) as D1.
    pose proof (class_errorF fuse M row out k sk Sk Ak HR Esk H2 ltac:(apply HF; eapply nth_error_In; exact Esk) ltac:(unfold fits; specialize (Hnt k Hk); lia)) as D2.
    apply Rabs_le' in D1, D2. lra. }
  assert (Hnl : (0 < length out)%nat) by lia.
  destruct (softmax_row E (length out) out Hnl eq_refl) as (D' & HD & HDl & HSM).
  rewrite SoftMax_same in HSM by (rewrite repeat_length; reflexivity). apply Ok_inj' in HSM.
  assert (HP : PredictMCF fuse M row = Ok (d_data D')).
  { unfold PredictMCF. rewrite HR. cbn [bind]. rewrite Hpt. unfold softmaxOf. cbn beta iota.
    apply bind_Ok in HD as (O & HO & HD). rewrite HO. cbn [bind]. apply bind_Ok in HD as (D & HD0 & HD). rewrite HD0. cbn [bind]. rewrite HD. reflexivity. }
  unfold PredictSingleClassF. rewrite HP. cbn [bind]. destruct (argmax_spec (d_data D')) as (p & Hp & Hr & Hmax & _).
  { intros Hn. rewrite Hn in HDl. simpl in HDl. lia. }
  rewrite Hp. f_equal.
  (* the probabilities *)
  assert (HQ : d_data D' = map (fun s => fdiv (e_exp E s) (e_sum E (map (e_exp E) out))) out).
  { rewrite <- HSM. unfold softmax. rewrite map_map. reflexivity. }
  assert (Hne : out <> []) by (intros ->; simpl in Hnl; lia).
  assert (HN : forall x, In x (d_data D') -> fnanb x = false).
  { intros x Hx. rewrite HQ in Hx. apply in_map_iff in Hx as (s & <- & Hs). apply finite_nnan. apply (share E HE HA out HF Hne Hnc s Hs). }
  specialize (Hmax HN). destruct Hmax as (m & Hm & Hle & _).
  destruct (Z.eq_dec p (Z.of_nat k)) as [|Hne2]; [assumption|exfalso].
  destruct Hm as [Hm0 Hm]. assert (Epj : Z.to_nat p <> k) by lia.
  rewrite HQ, nth_error_map in Hm. destruct (nth_error out (Z.to_nat p)) as [sp|] eqn:Esp; [|discriminate Hm]. cbn [option_map] in Hm. injection Hm as Hm.
  assert (Htop : forall s, In s out -> B2R s <= B2R sk).
  { intros s Hs. apply In_nth_error in Hs as [j Hs]. destruct (Nat.eq_dec j k) as [->|Hjk]; [assert (s = sk) by congruence; subst; lra|].
    specialize (HG j s Hs Hjk). pose proof (bpow_gt_0 radix2 (-34)). lra. }
  pose proof (share_strict E HE HA out HF Hne Hnc k sk Esk sp Htop (nth_error_In _ _ Esp) (HG _ _ Esp Epj)) as HS.
  specialize (Hle (fdiv (e_exp E sk) (e_sum E (map (e_exp E) out)))). rewrite HQ in Hle.
  specialize (Hle ltac:(apply (in_map (fun s => fdiv (e_exp E s) (e_sum E (map (e_exp E) out)))); eapply nth_error_In; exact Esk)).
  apply fleb_true in Hle as (_ & _ & Hle). rewrite <- Hm in Hle.
  rewrite !ext_finite in Hle by (apply (share E HE HA out HF Hne Hnc); eapply nth_error_In; eassumption). lra.
Qed.

(** without the fused operation this is the model of the other files *)
Lemma addTreesF_plain lr row ens : forall c tmp, addTreesF false lr row c ens tmp = addTrees lr row c ens tmp.
Proof.
  induction ens as [|t ens IH]; intros c tmp; [reflexivity|]. cbn [addTreesF addTrees madd]. destruct (PredictSingle t row) as [p| |]; try reflexivity. cbn [bind].
  destruct (idx tmp c) as [old| |]; try reflexivity. cbn [bind]. destruct (upd _ _ _) as [tmp'| |]; try reflexivity. cbn [bind]. apply IH.
Qed.
Lemma rawScoresF_plain M row : rawScoresF false M row = rawScores M row.
Proof.
  unfold rawScoresF, rawScores. destruct (idx (mc_b M) 0) as [b0| |]; try reflexivity. cbn [bind]. generalize (repeat (mc_base M) (length b0)).
  induction (mc_b M) as [|e b IH]; intros tmp; [reflexivity|]. cbn [foldM]. rewrite addTreesF_plain. destruct (addTrees _ _ _ _ _) as [tmp'| |]; try reflexivity. cbn [bind]. apply IH.
Qed.
Lemma plain_lemma M row bufs : rawScoresF false M row = rawScores M row /\
  (forall ps, PredictMCF false M row = Ok ps <-> PredictMC M row bufs = Ok (ps, bufs)) /\ (forall c, PredictSingleClassF false M row = Ok c <-> PredictSingleClass M row bufs = Ok (c, bufs)).
Proof.
  assert (HP : PredictMC M row bufs = (ps <- PredictMCF false M row ;; Ok (ps, bufs))).
  { unfold PredictMC, PredictMCF. rewrite rawScoresF_plain. destruct (rawScores M row) as [tmp| |]; try reflexivity. cbn [bind].
    destruct (NewDense 1 (length tmp) tmp) as [O| |]; try reflexivity. cbn [bind]. destruct (NewDense 1 (length tmp) (repeat _ _)) as [D| |]; try reflexivity. cbn [bind].
    destruct (mc_pt M) as [f|]; [|reflexivity]. destruct (f O D) as [D'| |]; reflexivity. }
  split; [apply rawScoresF_plain|]. split.
  - intros ps. rewrite HP. destruct (PredictMCF false M row) as [q| |]; cbn [bind]; split; intros H; try discriminate H; [apply Ok_inj' in H; subst; reflexivity|apply Ok_inj' in H; f_equal; exact (f_equal fst H)].
  - intros c. unfold PredictSingleClass, PredictSingleClassF. rewrite HP. destruct (PredictMCF false M row) as [q| |]; cbn [bind]; try (split; intros H; discriminate H).
    destruct (argmax q) as [p| |]; cbn [bind]; try (split; intros H; discriminate H). split; intros H; [apply Ok_inj' in H; subst; reflexivity|apply Ok_inj' in H; f_equal; exact (f_equal fst H)].
Qed.
(** the same panics *)
Lemma addTreesF_any f1 f2 lr row ens : forall c tmp1 tmp2, length tmp1 = length tmp2 ->
  match addTreesF f1 lr row c ens tmp1, addTreesF f2 lr row c ens tmp2 with Ok o1, Ok o2 => length o1 = length o2 | Panic, Panic => True | Diverge, Diverge => True | _, _ => False end.
Proof.
  induction ens as [|t ens IH]; intros c tmp1 tmp2 HL; cbn [addTreesF]; [exact HL|]. destruct (PredictSingle t row) as [p| |]; cbn [bind]; auto.
  destruct (idx tmp1 c) as [o1| |] eqn:E1; destruct (idx tmp2 c) as [o2| |] eqn:E2; cbn [bind]; auto.
  all: try (unfold idx in *; repeat destruct (_ <? _); try discriminate; destruct (nth_error tmp1 (Z.to_nat c)) eqn:N1; destruct (nth_error tmp2 (Z.to_nat c)) eqn:N2; try discriminate;
    first [apply nth_error_None in N1; assert (nth_error tmp2 (Z.to_nat c) <> None) by congruence; apply nth_error_Some in H; lia | apply nth_error_None in N2; assert (nth_error tmp1 (Z.to_nat c) <> None) by congruence; apply nth_error_Some in H; lia]).
  assert (H1 : upd tmp1 c (madd f1 o1 p lr) = Ok (upd_nat tmp1 (Z.to_nat c) (madd f1 o1 p lr))).
  { apply upd_Ok. split; [|reflexivity]. apply idx_Ok in E1 as [? E1]. assert (nth_error tmp1 (Z.to_nat c) <> None) by congruence. apply nth_error_Some in H0. lia. }
  assert (H2 : upd tmp2 c (madd f2 o2 p lr) = Ok (upd_nat tmp2 (Z.to_nat c) (madd f2 o2 p lr))).
  { apply upd_Ok. split; [|reflexivity]. apply idx_Ok in E2 as [? E2]. assert (nth_error tmp2 (Z.to_nat c) <> None) by congruence. apply nth_error_Some in H0. lia. }
  rewrite H1, H2. cbn [bind]. apply IH. rewrite !upd_nat_length. exact HL.
Qed.
Lemma rawScoresF_any f1 f2 M row o1 : rawScoresF f1 M row = Ok o1 -> exists o2, rawScoresF f2 M row = Ok o2 /\ length o2 = length o1.
Proof.
  unfold rawScoresF. destruct (idx (mc_b M) 0) as [b0| |]; try discriminate. cbn [bind].
  assert (HF : forall b tmp1 tmp2 o1, length tmp1 = length tmp2 -> foldM (fun tmp ens => addTreesF f1 (mc_lr M) row 0 ens tmp) tmp1 b = Ok o1 ->
    exists o2, foldM (fun tmp ens => addTreesF f2 (mc_lr M) row 0 ens tmp) tmp2 b = Ok o2 /\ length o2 = length o1).
  { induction b as [|e b IH]; intros tmp1 tmp2 o HL H; cbn [foldM] in H |- *.
    - apply Ok_inj' in H. subst o. eauto.
    - pose proof (addTreesF_any f1 f2 (mc_lr M) row e 0 tmp1 tmp2 HL) as HA. destruct (addTreesF f1 _ _ _ _ _) as [t1| |]; try discriminate H.
      destruct (addTreesF f2 _ _ _ _ _) as [t2| |]; try contradiction. cbn [bind] in H |- *. exact (IH t1 t2 o HA H). }
  intros H. exact (HF _ _ _ _ eq_refl H).
Qed.
Lemma difference_lemma M row o1 o2 j s1 s2 S A : rawScoresF true M row = Ok o1 -> rawScoresF false M row = Ok o2 -> nth_error o1 j = Some s1 -> nth_error o2 j = Some s2 ->
  classScore M row j S A -> ffinite s1 = true -> ffinite s2 = true -> fits (length (positionTrees (mc_b M) j) + 1) ->
  Rabs (B2R s1 - B2R s2) <= 2 * scoreError (length (positionTrees (mc_b M) j)) A.
Proof.
  intros H1 H2 N1 N2 HC F1 F2 HF. pose proof (class_errorF true M row o1 j s1 S A H1 N1 HC F1 HF) as E1. pose proof (class_errorF false M row o2 j s2 S A H2 N2 HC F2 HF) as E2.
  apply Rabs_le' in E1, E2. apply Rabs_le. lra.
Qed.
