(** The gain with the fused operation (proof support for C146). *)
From Coq Require Import Reals Lra.
From Flocq Require Import Core BinarySingleNaN Mult_error.
From Verif Require Import Base F64 F64Lemmas NumErr Env Utils Tree SpecErr Fma.
Open Scope R_scope.

Lemma half_R : B2R fhalf = / 2.
Proof. unfold fhalf. vm_compute. lra. Qed.
Lemma half_exact (x : f64) : ffinite x = true -> B2R x = 0 \/ two (-1021) <= Rabs (B2R x) ->
  ffinite (fmul fhalf x) = true /\ B2R (fmul fhalf x) = / 2 * B2R x /\ Bsign (fmul fhalf x) = Bsign x.
Proof.
  intros Fx H. pose proof (Bmult_correct 53 1024 Hprec Hemax mode_NE fhalf x) as HC. rewrite half_R in HC.
  assert (HR : round radix2 (SpecFloat.fexp 53 1024) (round_mode mode_NE) (/ 2 * B2R x) = / 2 * B2R x).
  { apply round_generic; [apply valid_rnd_round_mode|]. destruct H as [-> |H]; [rewrite Rmult_0_r; apply generic_format_0|].
    replace (/ 2 * B2R x) with (B2R x * bpow radix2 (-1)) by (simpl; lra).
    change (SpecFloat.fexp 53 1024) with (FLT_exp (-1074) 53). apply mult_bpow_exact_FLT; [exact (generic_format_B2R 53 1024 x)|].
    assert (Hx : B2R x <> 0). { intros E. rewrite E, Rabs_R0 in H. unfold two in H. pose proof (bpow_gt_0 radix2 (-1021)). lra. }
    pose proof (mag_ge_bpow radix2 (B2R x) (-1020) H). lia. }
  rewrite HR in HC. rewrite Rlt_bool_true in HC.
  - destruct HC as (H1 & H2 & H3). assert (Hf : ffinite (fmul fhalf x) = true). { unfold ffinite, fmul. rewrite H2. exact Fx. }
    split; [exact Hf|]. split; [exact H1|]. unfold fmul. rewrite H3; [change (Bsign fhalf) with false; destruct (Bsign x); reflexivity|]. destruct (Bmult mode_NE fhalf x) eqn:Em; try reflexivity. unfold fmul in Hf. rewrite Em in Hf. discriminate Hf.
  - apply Rle_lt_trans with (Rabs (B2R x)); [|apply (abs_B2R_lt_emax 53 1024 x)]. rewrite Rabs_mult, (Rabs_right (/ 2)) by lra. pose proof (Rabs_pos (B2R x)). lra.
Qed.
Lemma sign_R (x : f64) : ffinite x = true -> (Bsign x = true -> B2R x <= 0) /\ (Bsign x = false -> 0 <= B2R x).
Proof.
  intros Fx. destruct x as [s|s| |s m e B]; try discriminate Fx; cbn [Bsign].
  - split; intros _; cbn; lra.
  - split; intros ->; cbn [B2R cond_Zopp]; [apply Rlt_le, F2R_lt_0; reflexivity|apply Rlt_le, F2R_gt_0; reflexivity].
Qed.
Lemma half_fused (x c : f64) : (ffinite x = true -> B2R x = 0 \/ two (-1021) <= Rabs (B2R x)) -> ffma fhalf x (fopp c) = fsub (fmul fhalf x) c.
Proof.
  intros H. destruct (ffinite x) eqn:Fx.
  2: { destruct x as [s|s| |s m e B]; try discriminate Fx; destruct c as [s1|s1| |s1 m1 e1 B1]; try (destruct s; try destruct s1; reflexivity); reflexivity. }
  destruct (half_exact x Fx (H eq_refl)) as (Fh & Bh & Sh).
  destruct (ffinite c) eqn:Fc.
  2: { destruct c as [s1|s1| |s1 m1 e1 B1]; try discriminate Fc.
    - destruct (fmul fhalf x) as [s|s| |s m e B]; try discriminate Fh; destruct x as [sx|sx| |sx mx ex Bx]; try discriminate Fx; reflexivity.
    - destruct (fmul fhalf x) as [s|s| |s m e B]; try discriminate Fh; destruct x as [sx|sx| |sx mx ex Bx]; try discriminate Fx; reflexivity. }
  assert (Fo : ffinite (fopp c) = true) by (unfold ffinite, fopp; rewrite is_finite_Bopp; exact Fc).
  pose proof (Bfma_correct 53 1024 Hprec Hemax mode_NE fhalf x (fopp c) eq_refl Fx Fo) as HA. cbv zeta in HA.
  pose proof (Bminus_correct 53 1024 Hprec Hemax mode_NE (fmul fhalf x) c Fh Fc) as HB.
  assert (ER : B2R fhalf * B2R x + B2R (fopp c) = B2R (fmul fhalf x) - B2R c) by (rewrite Bh, half_R; unfold fopp; rewrite B2R_Bopp; ring).
  rewrite ER in HA. unfold ffma, fsub. destruct (Rlt_bool _ _) eqn:EL.
  - destruct HA as (A1 & A2 & A3). destruct HB as (B1 & B2 & B3). apply B2R_Bsign_inj; [exact A2|exact B2|congruence|].
    rewrite A3, B3. destruct (Rcompare _ 0); try reflexivity. unfold Bfma_szero, fopp. rewrite Bsign_Bopp by (destruct c; try reflexivity; discriminate Fc).
    rewrite Sh. change (Bsign fhalf) with false. destruct (Bsign x), (Bsign c); reflexivity.
  - destruct HB as [B1 B2]. apply B2SF_inj. rewrite HA, B1. f_equal. rewrite B2. set (r := B2R (fmul fhalf x) - B2R c) in *.
    assert (Hr : r <> 0). { intros E. rewrite E in EL. rewrite round_0 in EL by apply valid_rnd_round_mode. rewrite Rabs_R0, Rlt_bool_true in EL by apply bpow_gt_0. discriminate EL. }
    pose proof (sign_R c Fc) as [C1 C2]. pose proof (sign_R _ Fh) as [D1 D2]. rewrite B2 in D1, D2. destruct (Bsign c); cbn [negb] in *.
    + specialize (C1 eq_refl). specialize (D2 eq_refl). apply Rlt_bool_false. unfold r. lra.
    + specialize (C2 eq_refl). specialize (D1 eq_refl). apply Rlt_bool_true. unfold r in *. lra.
Qed.
Lemma gain_fused gl hl gr hr g h lambda gamma :
  let x := fsub (fadd (fdiv (fmul gl gl) (fadd hl lambda)) (fdiv (fmul gr gr) (fadd hr lambda))) (fdiv (fmul g g) (fadd h lambda)) in
  (ffinite x = true -> B2R x = 0 \/ two (-1021) <= Rabs (B2R x)) ->
  xgbGainF true gl hl gr hr g h lambda gamma = xgbGain F fhalf gl hl gr hr g h lambda gamma.
Proof. intros x H. exact (half_fused x (fdiv gamma (fofZ 2)) H). Qed.
