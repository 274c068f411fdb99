(** Rounding errors of sums, products and quotients (proof support; no model content). *)
From Coq Require Import ZArith Reals Lra Psatz.
From Flocq Require Import Relative Plus_error.
From Verif Require Import Base F64 F64Lemmas Env Utils Tree Spec RealProofs.
Open Scope R_scope.

Definition uu : R := bpow radix2 (-53).
Definition ee : R := bpow radix2 (-1075).
Lemma uu_pos : 0 < uu. Proof. apply bpow_gt_0. Qed.
Lemma ee_pos : 0 < ee. Proof. apply bpow_gt_0. Qed.
Lemma uu_val : uu = / 9007199254740992.
Proof. unfold uu. simpl. reflexivity. Qed.
Lemma u_ro_bound e : Rabs e <= u_ro radix2 53 / (1 + u_ro radix2 53) -> Rabs e <= uu.
Proof.
  assert (Hu : u_ro radix2 53 = uu) by (unfold u_ro, uu; simpl; lra). rewrite Hu. intros H. pose proof uu_pos.
  apply Rle_trans with (1 := H). apply Rmult_le_reg_r with (1 + uu); [lra|]. unfold Rdiv. rewrite Rmult_assoc, Rinv_l by lra. nra.
Qed.
Lemma rnd_plus (a b : f64) : exists e, Rabs e <= uu /\ rnd (B2R a + B2R b) = (B2R a + B2R b) * (1 + e).
Proof.
  destruct (FLT_plus_error_N_ex radix2 (-1074) 53 (fun z => negb (Z.even z)) (B2R a) (B2R b)) as (e & H1 & H2).
  - apply (generic_format_B2R 53 1024 a).
  - apply (generic_format_B2R 53 1024 b).
  - exists e. split; [apply u_ro_bound; exact H1|exact H2].
Qed.
Lemma rnd_any x : exists e n, Rabs e <= uu /\ Rabs n <= ee /\ rnd x = x * (1 + e) + n.
Proof.
  destruct (relative_error_N_FLT'_ex radix2 (-1074) 53 Hprec (fun z => negb (Z.even z)) x) as (e & n & H1 & H2 & _ & H3).
  exists e, n. split; [apply u_ro_bound; exact H1|]. split; [|exact H3].
  apply Rle_trans with (1 := H2). unfold ee. change (-1075)%Z with (-1 + -1074)%Z. rewrite bpow_plus. simpl (bpow radix2 (-1)). lra.
Qed.

(** ** Operations with a finite result *)
Lemma clamp_inner x : - Mx < clamp x < Mx -> clamp x = x.
Proof. unfold clamp, Rmax, Rmin. repeat destruct (Rle_dec _ _); lra. Qed.
Lemma finite_lt (x : f64) : ffinite x = true -> - Mx < ext x < Mx.
Proof. intros H. rewrite ext_finite by auto. apply B2R_bounds. Qed.
Lemma fadd_arg a b : ffinite (fadd a b) = true -> ffinite a = true /\ ffinite b = true.
Proof. destruct a as [s|s| |s m e H], b as [s1|s1| |s1 m1 e1 H1]; try (intros; split; reflexivity); try discriminate; destruct s, s1; discriminate. Qed.
Lemma fmul_arg a b : ffinite (fmul a b) = true -> ffinite a = true /\ ffinite b = true.
Proof. destruct a as [s|s| |s m e H], b as [s1|s1| |s1 m1 e1 H1]; try (intros; split; reflexivity); discriminate. Qed.
Lemma fadd_real a b : ffinite (fadd a b) = true -> ffinite a = true /\ ffinite b = true /\ B2R (fadd a b) = rnd (B2R a + B2R b).
Proof.
  intros H. destruct (fadd_arg a b H) as [Ha Hb]. split; [auto|]. split; [auto|]. destruct (fadd_ext a b Ha Hb) as [_ He].
  pose proof (finite_lt _ H) as Hl. rewrite He in Hl. rewrite <- (ext_finite _ H), He. apply clamp_inner; auto.
Qed.
Lemma fsub_real a b : ffinite (fsub a b) = true -> ffinite a = true /\ ffinite b = true /\ B2R (fsub a b) = rnd (B2R a - B2R b).
Proof.
  rewrite fsub_fadd. intros H. destruct (fadd_real _ _ H) as (H1 & H2 & H3). rewrite ffinite_opp in H2. split; [auto|]. split; [auto|].
  rewrite H3. unfold fopp. rewrite B2R_Bopp. reflexivity.
Qed.
Lemma fmul_real a b : ffinite (fmul a b) = true -> ffinite a = true /\ ffinite b = true /\ B2R (fmul a b) = rnd (B2R a * B2R b).
Proof.
  intros H. destruct (fmul_arg a b H) as [Ha Hb]. split; [auto|]. split; [auto|]. destruct (fmul_ext a b Ha Hb) as [_ He].
  pose proof (finite_lt _ H) as Hl. rewrite He in Hl. rewrite <- (ext_finite _ H), He. apply clamp_inner; auto.
Qed.
Lemma fdiv_arg a b : ffinite (fdiv a b) = true -> ffinite a = true.
Proof. destruct a as [s|s| |s m e H], b as [s1|s1| |s1 m1 e1 H1]; try reflexivity; discriminate. Qed.
Lemma fdiv_nz a b : ffinite (fdiv a b) = true -> ffinite b = true -> B2R b <> 0.
Proof.
  intros H Hb. destruct b as [s1|s1| |s1 m1 e1 H1]; try discriminate Hb.
  - exfalso. destruct a as [s|s| |s m e H2]; discriminate H.
  - intros He. simpl in He. apply eq_0_F2R in He. destruct s1; discriminate He.
Qed.
Lemma fdiv_real a b : ffinite (fdiv a b) = true -> ffinite b = true -> ffinite a = true /\ B2R b <> 0 /\ B2R (fdiv a b) = rnd (B2R a / B2R b).
Proof.
  intros H Hb. pose proof (fdiv_arg _ _ H) as Ha. pose proof (fdiv_nz _ _ H Hb) as Hn. split; [auto|]. split; [auto|].
  destruct (fdiv_ext a b Ha Hb Hn) as [_ He].
  pose proof (finite_lt _ H) as Hl. rewrite He in Hl. rewrite <- (ext_finite _ H), He. apply clamp_inner; auto.
Qed.

(** ** Powers of 1 + u *)
Lemma pow_ge1 n : 1 <= (1 + uu) ^ n.
Proof. apply pow_R1_Rle. pose proof uu_pos. lra. Qed.
Lemma pow_le_pow n m : (n <= m)%nat -> (1 + uu) ^ n <= (1 + uu) ^ m.
Proof. intros H. apply Rle_pow; [pose proof uu_pos; lra|auto]. Qed.
Lemma pow_lin n : INR n * uu <= / 2 -> (1 + uu) ^ n <= 1 + 2 * INR n * uu.
Proof.
  pose proof uu_pos as Hu. induction n as [|n IH]; intros H; [simpl; lra|]. rewrite S_INR in *.
  assert (IH' : (1 + uu) ^ n <= 1 + 2 * INR n * uu) by (apply IH; nra). rewrite <- tech_pow_Rmult.
  pose proof (pos_INR n). apply Rle_trans with ((1 + uu) * (1 + 2 * INR n * uu)); [apply Rmult_le_compat_l; lra|]. nra.
Qed.
Lemma pow_lo n : 1 - INR n * uu <= (1 - uu) ^ n.
Proof.
  pose proof uu_pos as Hu. assert (Hs : uu < 1) by (rewrite uu_val; lra). induction n as [|n IH]; [simpl; lra|]. rewrite S_INR. rewrite <- tech_pow_Rmult.
  pose proof (pos_INR n). apply Rle_trans with ((1 - uu) * (1 - INR n * uu)); [nra|apply Rmult_le_compat_l; lra].
Qed.

(** ** Sums *)
Definition asum (l : list R) : R := rsum (map Rabs l).
Lemma asum_app l l' : asum (l ++ l') = asum l + asum l'.
Proof. unfold asum. rewrite map_app. apply rsum_app. Qed.
Lemma asum_nn l : 0 <= asum l.
Proof. apply rsum_nn. intros x H. apply in_map_iff in H as (y & <- & _). apply Rabs_pos. Qed.
Lemma rsum_le_asum l : Rabs (rsum l) <= asum l.
Proof.
  induction l as [|x l IH]; unfold asum in *; simpl; [rewrite Rabs_R0; lra|]. eapply Rle_trans; [apply Rabs_triang|lra].
Qed.
Lemma rsum_perm l l' : Permutation l l' -> rsum l = rsum l'.
Proof. induction 1; simpl; lra. Qed.
Lemma asum_perm l l' : Permutation l l' -> asum l = asum l'.
Proof. intros H. apply rsum_perm. apply Permutation_map. exact H. Qed.
Lemma asum_nonneg l : (forall x, In x l -> 0 <= x) -> asum l = rsum l.
Proof.
  induction l as [|x l IH]; intros H; unfold asum in *; simpl; [reflexivity|].
  rewrite Rabs_pos_eq by (apply H; left; auto). rewrite IH; [reflexivity|]. intros; apply H; right; auto.
Qed.

Definition gam (n : nat) : R := (1 + uu) ^ (Nat.pred n) - 1.
Lemma gam_nn n : 0 <= gam n.
Proof. unfold gam. pose proof (pow_ge1 (Nat.pred n)). lra. Qed.
(** a sum in any order with a finite result *)
Lemma sum_error l s : is_sum l s -> ffinite s = true ->
  (forall x, In x l -> ffinite x = true) /\ (l = [] -> B2R s = 0) /\
  Rabs (B2R s - rsum (map B2R l)) <= gam (length l) * asum (map B2R l).
Proof.
  intros H. induction H as [|x|l1 l2 a b H1 IH1 H2 IH2|l1 l2 a Hp H IH]; intros Hf.
  - split; [intros x []|]. split; [reflexivity|]. simpl. rewrite Rminus_0_r, Rabs_R0. unfold gam. simpl. lra.
  - split; [intros y [<-|[]]; auto|]. split; [discriminate|]. simpl. replace (B2R x - (B2R x + 0)) with 0 by ring. rewrite Rabs_R0.
    unfold gam. simpl. lra.
  - destruct (fadd_real _ _ Hf) as (Fa & Fb & He). destruct (IH1 Fa) as (A1 & A2 & A3). destruct (IH2 Fb) as (B1 & B2 & B3).
    split. { intros x Hx. apply in_app_iff in Hx as [Hx|Hx]; auto. }
    split. { intros Hn. apply app_eq_nil in Hn as [-> ->]. rewrite He, A2, B2 by reflexivity. rewrite Rplus_0_r. apply rnd_0. }
    rewrite map_app, rsum_app, asum_app, app_length.
    destruct l1 as [|x1 l1].
    { rewrite He, (A2 eq_refl). rewrite Rplus_0_l, rnd_B2R. change (rsum (map B2R [])) with 0. change (asum (map B2R [])) with 0. rewrite !Rplus_0_l. exact B3. }
    destruct l2 as [|x2 l2].
    { rewrite He, (B2 eq_refl). rewrite Rplus_0_r, rnd_B2R. change (rsum (map B2R [])) with 0. change (asum (map B2R [])) with 0. rewrite !Rplus_0_r.
      rewrite Nat.add_0_r. exact A3. }
    destruct (rnd_plus a b) as (e & He1 & He2). rewrite He, He2.
    set (L1 := map B2R (x1 :: l1)) in *. set (L2 := map B2R (x2 :: l2)) in *.
    set (n1 := length (x1 :: l1)) in *. set (n2 := length (x2 :: l2)) in *.
    assert (N1 : (1 <= n1)%nat) by (unfold n1; simpl; lia). assert (N2 : (1 <= n2)%nat) by (unfold n2; simpl; lia).
    pose proof (rsum_le_asum L1) as R1. pose proof (rsum_le_asum L2) as R2. pose proof (asum_nn L1) as P1. pose proof (asum_nn L2) as P2.
    pose proof uu_pos as Hu.
    assert (Ba : Rabs (B2R a) <= (1 + gam n1) * asum L1).
    { replace (B2R a) with ((B2R a - rsum L1) + rsum L1) by ring. eapply Rle_trans; [apply Rabs_triang|]. lra. }
    assert (Bb : Rabs (B2R b) <= (1 + gam n2) * asum L2).
    { replace (B2R b) with ((B2R b - rsum L2) + rsum L2) by ring. eapply Rle_trans; [apply Rabs_triang|]. lra. }
    assert (M1 : Rabs (e * B2R a) <= uu * ((1 + gam n1) * asum L1)).
    { rewrite Rabs_mult. apply Rmult_le_compat; auto using Rabs_pos. }
    assert (M2 : Rabs (e * B2R b) <= uu * ((1 + gam n2) * asum L2)).
    { rewrite Rabs_mult. apply Rmult_le_compat; auto using Rabs_pos. }
    assert (G1 : gam n1 + uu * (1 + gam n1) <= gam (n1 + n2)).
    { unfold gam. replace ((1 + uu) ^ Nat.pred n1 - 1 + uu * (1 + ((1 + uu) ^ Nat.pred n1 - 1))) with ((1 + uu) * (1 + uu) ^ Nat.pred n1 - 1) by ring.
      rewrite tech_pow_Rmult. assert (Hle : (S (Nat.pred n1) <= Nat.pred (n1 + n2))%nat) by (clear -N1 N2; clearbody n1 n2; lia). apply pow_le_pow in Hle. lra. }
    assert (G2 : gam n2 + uu * (1 + gam n2) <= gam (n1 + n2)).
    { unfold gam. replace ((1 + uu) ^ Nat.pred n2 - 1 + uu * (1 + ((1 + uu) ^ Nat.pred n2 - 1))) with ((1 + uu) * (1 + uu) ^ Nat.pred n2 - 1) by ring.
      rewrite tech_pow_Rmult. assert (Hle : (S (Nat.pred n2) <= Nat.pred (n1 + n2))%nat) by (clear -N1 N2; clearbody n1 n2; lia). apply pow_le_pow in Hle. lra. }
    assert (HT : forall p q r t, Rabs (p + q + r + t) <= Rabs p + Rabs q + Rabs r + Rabs t).
    { intros p q r t. pose proof (Rabs_triang (p + q + r) t). pose proof (Rabs_triang (p + q) r). pose proof (Rabs_triang p q). lra. }
    pose proof (HT (B2R a - rsum L1) (B2R b - rsum L2) (e * B2R a) (e * B2R b)) as HT1.
    replace (B2R a - rsum L1 + (B2R b - rsum L2) + e * B2R a + e * B2R b) with ((B2R a + B2R b) * (1 + e) - (rsum L1 + rsum L2)) in HT1 by ring.
    apply Rle_trans with (1 := HT1).
    apply Rle_trans with ((gam n1 + uu * (1 + gam n1)) * asum L1 + (gam n2 + uu * (1 + gam n2)) * asum L2); [lra|].
    apply Rle_trans with (gam (n1 + n2) * asum L1 + gam (n1 + n2) * asum L2).
    + apply Rplus_le_compat; apply Rmult_le_compat_r; auto.
    + right. symmetry. apply Rmult_plus_distr_l.
  - destruct (IH Hf) as (A1 & A2 & A3). split. { intros x Hx. apply A1. apply Permutation_in with (2 := Hx). apply Permutation_sym; auto. }
    split. { intros ->. apply A2. apply Permutation_nil. apply Permutation_sym. auto. }
    rewrite <- (Permutation_length Hp), <- (rsum_perm _ _ (Permutation_map B2R Hp)), <- (asum_perm _ _ (Permutation_map B2R Hp)). exact A3.
Qed.
(** the sequential loop starting from 0 is one of these sums *)
Lemma fold_is_sum l : is_sum l (fold_left fadd l fzero).
Proof.
  assert (H : forall l l0 a, is_sum l0 a -> is_sum (l0 ++ l) (fold_left fadd l a)).
  { clear l. induction l as [|x l IH]; intros l0 a H; simpl; [rewrite app_nil_r; auto|].
    replace (l0 ++ x :: l) with ((l0 ++ [x]) ++ l) by (rewrite <- app_assoc; reflexivity). apply IH. apply is_sum_app; [auto|constructor]. }
  apply (H l [] fzero). constructor.
Qed.
Lemma gam_lin n : (Z.of_nat n <= 2 ^ 50)%Z -> gam n <= 2 * INR n * uu /\ INR n * uu <= / 8.
Proof.
  intros H. assert (Hn : INR n <= 1125899906842624). { rewrite INR_IZR_INZ. apply IZR_le in H. simpl in H. exact H. }
  assert (Hb : INR n * uu <= / 8). { rewrite uu_val. lra. } split; [|auto]. unfold gam.
  assert (Hp : INR (Nat.pred n) <= INR n) by (apply le_INR; lia). pose proof uu_pos.
  pose proof (pow_lin (Nat.pred n) ltac:(nra)). pose proof (pos_INR (Nat.pred n)). nra.
Qed.
Lemma fofZ_exact50 n : (0 <= n < 2 ^ 53)%Z -> ffinite (fofZ n) = true /\ B2R (fofZ n) = IZR n.
Proof.
  intros H. pose proof (binary_normalize_correct 53 1024 Hprec Hemax mode_NE n 0 false) as Hb. fold (fofZ n) in Hb.
  assert (Hg : generic_format radix2 (SpecFloat.fexp 53 1024) (IZR n)).
  { apply (generic_format_FLT radix2 (-1074) 53). exists (Float radix2 n 0); [|simpl; lia|simpl; lia]. unfold F2R; simpl. ring. }
  assert (Hr : round radix2 (SpecFloat.fexp 53 1024) (round_mode mode_NE) (F2R (Float radix2 n 0)) = IZR n).
  { unfold F2R; simpl (bpow _ _). rewrite Rmult_1_r. apply round_generic; auto with typeclass_instances. }
  cbv zeta in Hb. rewrite Hr in Hb. rewrite Rlt_bool_true in Hb. { destruct Hb as (H1 & H2 & _). auto. }
  rewrite Rabs_pos_eq by (apply IZR_le; lia). apply Rle_lt_trans with (bpow radix2 53).
  - replace (bpow radix2 53) with (IZR (2 ^ 53)) by (simpl; reflexivity). apply IZR_le. lia.
  - apply bpow_lt. lia.
Qed.
