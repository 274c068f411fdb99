(** Proofs about labels that occur only among the test rows (C164). *)
From Coq Require Import Reals Lra.
From Flocq Require Import Core BinarySingleNaN.
From Verif Require Import Base F64 F64Lemmas Env EnvLemmas Utils Tree Spec UtilsProofs TreeProofs UtilsThms ActProofs Options Train SpecTrain TrainMore CV SpecCV CVProofs SpecChance ChanceProofs ChanceCV SurpProofs SpecUnseen.
Open Scope Z_scope.

Lemma predicted_known K E rnd (D : DataBunch K) O tr row l : NewMultiClass E rnd D O = Ok tr -> predictsLabel (tr_model tr) row l -> In l (Labels D).
Proof.
  intros H (k & b & b' & _ & HL). apply (proj1 (proj2 (classes_lemma K E rnd D O tr H))). unfold look in HL. destruct HL as [_ HL]. eapply nth_error_In; exact HL.
Qed.
Lemma right_known (seen ps ls : list Z) : (forall p, In p ps -> In p seen) -> (length (filter (fun p => Z.eqb (fst p) (snd p)) (combine ps ls)) <= known seen (firstn (length ps) ls))%nat.
Proof.
  unfold known. revert ls. induction ps as [|p ps IH]; intros [|l ls] H; cbn; try lia. specialize (IH ls (fun q Hq => H q (or_intror Hq))).
  destruct (Z.eqb_spec p l) as [->|].
  - rewrite (proj2 (existsb_exists _ _)); [cbn [length]; lia|]. exists l. split; [apply H; left; auto|apply Z.eqb_refl].
  - destruct (existsb (Z.eqb l) seen); cbn [length]; lia.
Qed.
Lemma known_le seen ls : (known seen ls <= length ls)%nat.
Proof. unfold known. induction ls as [|l ls IH]; cbn; [lia|]. destruct (existsb (Z.eqb l) seen); cbn [length]; lia. Qed.

Lemma percent_val k n : (k <= n)%nat -> (0 < n)%nat -> Z.of_nat n < 2 ^ 63 ->
  ffinite (percent k n) = true /\ B2R (percent k n) = rnd (B2R (fofZ 100) * rnd (B2R (fofZ (Z.of_nat k)) / B2R (fofZ (Z.of_nat n)))) /\ (1 <= B2R (fofZ (Z.of_nat n)))%R.
Proof.
  intros Hk Hn HB. unfold percent. set (r := Z.of_nat k). set (m := Z.of_nat n). assert (Hr : 0 <= r <= m) by (subst r m; lia). assert (Hm : 0 < m < 2 ^ 63) by (subst m; lia). clearbody r m.
  destruct (fofZ_bound r 63) as (Fr & [Br0 Br1] & Er); [lia|lia|lia|].
  destruct (fofZ_bound m 63) as (Fn & [Bn0 Bn1] & En); [lia|lia|lia|].
  destruct (fofZ_bound 100 63) as (F1 & [B10 B11] & E1); [lia|lia|lia|].
  assert (Hle : (B2R (fofZ r) <= B2R (fofZ m))%R) by (rewrite Er, En; apply rnd_mono, IZR_le; lia).
  assert (Hpos : (1 <= B2R (fofZ m))%R) by (rewrite En, <- rnd_1; apply rnd_mono, IZR_le; lia).
  destruct (fdiv_ext (fofZ r) (fofZ m) Fr Fn ltac:(lra)) as [Nq Eq].
  assert (Hq : (0 <= rnd (B2R (fofZ r) / B2R (fofZ m)) <= 1)%R).
  { split.
    - apply rnd_ge_0. apply Rmult_le_pos; [lra|]. apply Rlt_le, Rinv_0_lt_compat. lra.
    - apply Rle_trans with (rnd 1); [|rewrite rnd_1; lra]. apply rnd_mono. apply Rmult_le_reg_r with (B2R (fofZ m)); [lra|]. unfold Rdiv. rewrite Rmult_assoc, Rinv_l; lra. }
  assert (HM : (1 < Mx)%R) by (unfold Mx; change 1%R with (bpow radix2 0); apply bpow_lt; lia).
  rewrite clamp_id in Eq by lra.
  assert (Fq : ffinite (fdiv (fofZ r) (fofZ m)) = true) by (apply finite_ext; auto; rewrite Eq; lra).
  rewrite ext_finite in Eq by auto.
  destruct (fmul_ext (fofZ 100) (fdiv (fofZ r) (fofZ m)) F1 Fq) as [Na Ea]. rewrite Eq in Ea.
  set (q := rnd (B2R (fofZ r) / B2R (fofZ m))) in *.
  assert (HB2 : (0 <= rnd (B2R (fofZ 100) * q) <= B2R (fofZ 100))%R).
  { split; [apply rnd_ge_0; apply Rmult_le_pos; lra|]. rewrite <- (rnd_B2R (fofZ 100)) at 2. apply rnd_mono. rewrite <- (Rmult_1_r (B2R (fofZ 100))) at 2. apply Rmult_le_compat_l; lra. }
  pose proof (B2R_bounds (fofZ 100)) as HM2.
  rewrite clamp_id in Ea by lra.
  assert (Fa : ffinite (fmul (fofZ 100) (fdiv (fofZ r) (fofZ m))) = true) by (apply finite_ext; auto; rewrite Ea; lra).
  rewrite ext_finite in Ea by auto. auto.
Qed.
Lemma percent_mono k k' n : (k <= k')%nat -> (k' <= n)%nat -> (0 < n)%nat -> Z.of_nat n < 2 ^ 63 -> fleb (percent k n) (percent k' n) = true.
Proof.
  intros Hk Hk' Hn HB. destruct (percent_val k n ltac:(lia) Hn HB) as (F1 & E1 & P). destruct (percent_val k' n Hk' Hn HB) as (F2 & E2 & _).
  apply fleb_true. rewrite !ext_finite by auto. split; [apply finite_nnan; auto|]. split; [apply finite_nnan; auto|]. rewrite E1, E2. apply rnd_mono, Rmult_le_compat_l.
  - destruct (fofZ_bound 100 63) as (_ & [B _] & _); [lia|lia|lia|]. lra.
  - apply rnd_mono. unfold Rdiv. apply Rmult_le_compat_r; [apply Rlt_le, Rinv_0_lt_compat; lra|].
    destruct (fofZ_bound (Z.of_nat k) 63) as (_ & _ & ->); [lia|lia|lia|]. destruct (fofZ_bound (Z.of_nat k') 63) as (_ & _ & ->); [lia|lia|lia|]. apply rnd_mono, IZR_le. lia.
Qed.
Lemma accuracy_lemma K K' E rnd (D : DataBunch K) O tr (T : DataBunch K') a : NewMultiClass E rnd D O = Ok tr -> Accuracy (tr_model tr) T = Ok a ->
  exists right, (right <= known (Labels D) (firstn (length (Data T)) (Labels T)))%nat /\ a = percent right (length (Data T)) /\
  (Data T <> [] -> Z.of_nat (length (Data T)) < 2 ^ 63 -> fleb a (percent (known (Labels D) (firstn (length (Data T)) (Labels T))) (length (Data T))) = true).
Proof.
  intros H HA. destruct (c37_lemma _ T a HA) as (ps & HF & HL & HR). cbv zeta in HR. destruct HR as (Ea & _ & _).
  pose proof (F2_length _ _ _ HF) as Hl.
  assert (HK : (length (filter (fun p => Z.eqb (fst p) (snd p)) (combine ps (Labels T))) <= known (Labels D) (firstn (length (Data T)) (Labels T)))%nat).
  { rewrite Hl. apply right_known. clear -HF H. induction HF as [|row p rows ps HP HF IH]; intros q [].
    - subst q. eapply predicted_known; eauto.
    - auto. }
  exists (length (filter (fun p => Z.eqb (fst p) (snd p)) (combine ps (Labels T)))). split; [exact HK|]. split; [exact Ea|]. intros HD HB.
  rewrite Ea. apply percent_mono; auto.
  - etransitivity; [apply known_le|]. rewrite firstn_length. lia.
  - destruct (Data T); [congruence|cbn; lia].
Qed.

(** ** all labels different *)
Lemma zero_div n : (0 < n)%nat -> Z.of_nat n < 2 ^ 63 -> fdiv fzero (fofZ (Z.of_nat n)) = fzero.
Proof.
  intros Hn HB. destruct (fofZ_bound (Z.of_nat n) 63) as (Fn & _ & En); [lia|lia|lia|].
  assert (Hpos : (1 <= B2R (fofZ (Z.of_nat n)))%R) by (rewrite En, <- rnd_1; apply rnd_mono, IZR_le; lia).
  destruct (fofZ (Z.of_nat n)) as [s|s| |s m e He]; try discriminate Fn; [cbn in Hpos; lra|].
  destruct s; [|reflexivity]. exfalso. assert (B2R (B754_finite true m e He) <= 0)%R; [|lra].
  cbn. apply F2R_le_0. cbn. lia.
Qed.
Lemma percent0 n : (0 < n)%nat -> Z.of_nat n < 2 ^ 63 -> percent 0 n = fzero.
Proof. intros Hn HB. unfold percent. change (fofZ (Z.of_nat 0)) with fzero. rewrite zero_div by auto. vm_compute. reflexivity. Qed.
Lemma known_none seen ls : (forall l, In l ls -> ~ In l seen) -> known seen ls = 0%nat.
Proof.
  unfold known. induction ls as [|l ls IH]; intros H; cbn; auto. destruct (existsb (Z.eqb l) seen) eqn:E; [|apply IH; intros x Hx; apply H; right; auto].
  apply existsb_exists in E as (x & Hx & E). apply Z.eqb_eq in E. subst x. elim (H l); [left; auto|auto].
Qed.
Lemma nodup_disjoint {A} (a b : list A) x : NoDup (a ++ b) -> In x a -> In x b -> False.
Proof. induction a as [|y a IH]; cbn; [auto|]. inversion 1; subst. intros [->|Ha] Hb; [|eauto]. apply H2. apply in_or_app. auto. Qed.
Lemma labelsAt_all (ls : list Z) : labelsAt ls (indices (length ls)) = ls.
Proof.
  unfold labelsAt, indices. rewrite map_map. erewrite map_ext; [|intros i; rewrite Nat2Z.id; reflexivity].
  apply nth_ext with 0 0; rewrite map_length, seq_length; auto. intros n Hn. rewrite nth_indep with (d' := nth 0 ls 0) by (rewrite map_length, seq_length; auto).
  rewrite (map_nth (fun i => nth i ls 0)), seq_nth by auto. auto.
Qed.
Lemma distinct_lemma K E fuel ints rndf id (D : DataBunch K) nfold O conc r : validInts (Z.of_nat (length (Data D))) ints -> length (Labels D) = length (Data D) ->
  Z.of_nat (length (Data D)) < 2 ^ 63 -> NoDup (Labels D) -> MultiClassCrossValidation E fuel ints rndf id D nfold O conc = Ok r -> cv_acc r = fzero.
Proof.
  intros HV HLen HB HND H. pose proof (c54_lemma E fuel ints rndf id D nfold O conc r HV HLen H) as HC. cbv zeta in HC. destruct (cv_err r); [apply HC|].
  destruct HC as (Hn & folds & pairs & outs & (G1 & G2 & G3 & G4) & LP & LO & HF & -> & _). set (n := Nat.min (requested nfold) (length (Data D) / 2)) in *.
  assert (Htot : (2 * n <= length (Data D))%nat).
  { assert (n <= length (Data D) / 2)%nat by (subst n; apply Nat.le_min_r). pose proof (Nat.div_mod (length (Data D)) 2 ltac:(lia)). lia. }
  assert (HS : forall a, In a (somes outs) -> a = fzero).
  { intros a Ha. unfold somes in Ha. apply in_flat_map in Ha as (o & Ho & Ha). destruct o as [b|]; [destruct Ha as [->|[]]|destruct Ha].
    apply In_nth_error in Ho as (i & Hi). assert (Hin : (i < n)%nat) by (rewrite <- LO; apply nth_error_Some; congruence).
    destruct (nth_error pairs i) as [p|] eqn:Hp; [|apply nth_error_None in Hp; lia].
    destruct (HF i p (Some a) Hp Hi) as ((testix & trainix & T1 & T2 & T3 & T4) & tr & rr & R1 & _ & _ & R4).
    assert (HN : length testix <> 0%nat).
    { assert (HD0 : (1 <= length (Data D) / n)%nat) by (apply Nat.div_le_lower_bound; lia). destruct (Nat.lt_ge_cases i (n - 1)).
      - rewrite (G3 _ _ T1) by lia. lia.
      - replace i with (n - 1)%nat in T1 by lia. rewrite (G4 _ T1). lia. }
    assert (HD1 : length (Data (snd p)) = length testix) by (rewrite T4; cbn; unfold rowsAt; rewrite map_length; auto).
    assert (HLT : (length testix <= length (Data D))%nat).
    { apply Permutation_length in T2. rewrite app_length in T2. unfold indices in T2. rewrite map_length, seq_length in T2. lia. }
    destruct (accuracy_lemma _ _ E (rndf i) (fst p) _ tr (snd p) a R1 R4) as (right & HR & -> & _).
    rewrite known_none in HR.
    - replace right with 0%nat by lia. apply percent0; rewrite HD1; lia.
    - intros l Hl Hl'. assert (Hl2 : In l (Labels (snd p))) by (rewrite <- (firstn_skipn (length (Data (snd p))) (Labels (snd p))); apply in_or_app; auto).
      rewrite T4 in Hl2. rewrite T3 in Hl'. cbn in Hl2, Hl'. apply (nodup_disjoint (labelsAt (Labels D) trainix) (labelsAt (Labels D) testix) l); auto.
      unfold labelsAt. rewrite <- map_app. apply (Permutation_NoDup (l := Labels D)); auto. rewrite <- (labelsAt_all (Labels D)) at 1. unfold labelsAt. apply Permutation_map. rewrite HLen. symmetry. exact T2. }
  assert (HSum : forall l, (forall a, In a l -> a = fzero) -> fold_left fadd l fzero = fzero).
  { induction l as [|a l IH]; intros HH; cbn [fold_left]; auto. rewrite (HH a) by (left; auto). replace (fadd fzero fzero) with fzero by (vm_compute; auto). apply IH. intros b Hb. apply HH. right; auto. }
  rewrite HSum by exact HS. apply zero_div; lia.
Qed.
