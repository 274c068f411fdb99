(** Midpoints of numbers with at most 52 significant bits (proof support for C99). *)
From Coq Require Import Reals Lra.
From Flocq Require Import Core.
From Verif Require Import Base F64 F64Lemmas Env EnvLemmas Utils Tree Spec TreeMid Options Train SpecTot Examples TreeThms TrainMore.
Open Scope R_scope.

Notation fx52 := (FLT_exp (-1073) 52).
Lemma short_format m e : (Z.abs m < 2 ^ 52)%Z -> (-1073 <= e)%Z -> generic_format radix2 fx52 (IZR m * bpow radix2 e).
Proof.
  intros Hm He. apply generic_format_FLT. exists (Float radix2 m e); simpl; auto.
Qed.
(** in the narrower format, the middle of a number and its upper neighbour is a float64 *)
Lemma half_ulp_format p : generic_format radix2 fx52 p -> rnd (p + ulp radix2 fx52 p / 2) = p + ulp radix2 fx52 p / 2 /\
  rnd (p - ulp radix2 fx52 p / 2) = p - ulp radix2 fx52 p / 2.
Proof.
  intros Hp. assert (HU : exists m e, (Z.abs m < 2 ^ 52)%Z /\ (-1073 <= e)%Z /\ p = IZR m * bpow radix2 e /\ ulp radix2 fx52 p = bpow radix2 e).
  { destruct (Req_dec p 0) as [->|Hne].
    - exists 0%Z, (-1073)%Z. split; [reflexivity|]. split; [lia|]. split; [lra|]. rewrite ulp_FLT_0; [reflexivity|]. unfold Prec_gt_0. lia.
    - exists (Ztrunc (scaled_mantissa radix2 fx52 p)), (cexp radix2 fx52 p). 
      assert (He : (-1073 <= cexp radix2 fx52 p)%Z) by (unfold cexp, FLT_exp; lia).
      assert (Hp' : p = IZR (Ztrunc (scaled_mantissa radix2 fx52 p)) * bpow radix2 (cexp radix2 fx52 p)) by exact Hp.
      split; [|split; [auto|split; [exact Hp'|rewrite ulp_neq_0; auto]]].
      apply lt_IZR. rewrite abs_IZR. 
      apply (Rmult_lt_reg_r (bpow radix2 (cexp radix2 fx52 p))); [apply bpow_gt_0|].
      rewrite <- (Rabs_pos_eq (bpow radix2 (cexp radix2 fx52 p))) at 1 by apply bpow_ge_0. rewrite <- Rabs_mult, <- Hp'.
      change (IZR (2 ^ 52)) with (bpow radix2 52). rewrite <- bpow_plus.
      apply Rlt_le_trans with (bpow radix2 (mag radix2 p)); [apply bpow_mag_gt|]. apply bpow_le. unfold cexp, FLT_exp. lia. }
  destruct HU as (m & e & Hm & He & Ep & Eu). rewrite Eu.
  assert (HB : bpow radix2 e = 2 * bpow radix2 (e - 1)).
  { replace e with (1 + (e - 1))%Z at 1 by lia. rewrite bpow_plus. reflexivity. }
  assert (HG : forall k, (Z.abs k < 2 ^ 53)%Z -> rnd (IZR k * bpow radix2 (e - 1)) = IZR k * bpow radix2 (e - 1)).
  { intros k Hk. apply round_generic; [apply valid_rnd_N|].
    apply (generic_format_FLT radix2 (-1074) 53). exists (Float radix2 k (e - 1)); simpl; auto. lia. }
  split.
  - replace (p + bpow radix2 e / 2) with (IZR (2 * m + 1) * bpow radix2 (e - 1)); [apply HG; lia|].
    rewrite Ep, HB, plus_IZR, mult_IZR. field.
  - replace (p - bpow radix2 e / 2) with (IZR (2 * m - 1) * bpow radix2 (e - 1)); [apply HG; lia|].
    rewrite Ep, HB, minus_IZR, mult_IZR. field.
Qed.

Lemma between_short a b : generic_format radix2 fx52 a -> generic_format radix2 fx52 b -> a < b ->
  exists c, rnd c = c /\ a + b <= 2 * c /\ c < b.
Proof.
  intros Ha Hb L. assert (VE : Valid_exp fx52) by (apply FLT_exp_valid; unfold Prec_gt_0; lia).
  pose proof (pred_ge_gt radix2 fx52 a b Ha Hb L) as HP.
  destruct (Rle_or_lt b 0) as [Hn|Hp].
  - exists (b - ulp radix2 fx52 b / 2). 
    assert (Ep : pred radix2 fx52 b = b - ulp radix2 fx52 b).
    { unfold pred. rewrite succ_eq_pos by lra. rewrite ulp_opp. lra. }
    assert (HU : 0 < ulp radix2 fx52 b).
    { destruct (Req_dec b 0) as [->|Hne]; [rewrite ulp_FLT_0; [apply bpow_gt_0|unfold Prec_gt_0; lia]|rewrite ulp_neq_0 by auto; apply bpow_gt_0]. }
    split; [apply half_ulp_format; auto|]. lra.
  - assert (Gp : generic_format radix2 fx52 (pred radix2 fx52 b)) by (apply generic_format_pred; auto).
    pose proof (pred_plus_ulp radix2 fx52 b Hp Hb) as Ep. set (p := pred radix2 fx52 b) in *.
    assert (HU : 0 < ulp radix2 fx52 p).
    { destruct (Req_dec p 0) as [->|Hne]; [rewrite ulp_FLT_0; [apply bpow_gt_0|unfold Prec_gt_0; lia]|rewrite ulp_neq_0 by auto; apply bpow_gt_0]. }
    exists (p + ulp radix2 fx52 p / 2). split; [apply half_ulp_format; auto|]. lra.
Qed.

Lemma rnd_2 c : rnd c = c -> rnd (2 * c) = 2 * c.
Proof.
  intros H. assert (G : generic_format radix2 (FLT_exp (-1074) 53) c).
  { rewrite <- H. unfold rnd. apply (generic_format_round radix2 (FLT_exp (-1074) 53)); apply valid_rnd_N. }
  apply round_generic; [apply valid_rnd_N|]. apply FLT_format_generic in G; [|unfold Prec_gt_0; lia]. destruct G as [f H1 H2 H3].
  apply (generic_format_FLT radix2 (-1074) 53). exists (Float radix2 (Fnum f) (Fexp f + 1)); simpl; [|auto|lia].
  rewrite H1. unfold F2R; simpl. rewrite bpow_plus. simpl. lra.
Qed.

Lemma midpoint_short a b : shortNum a -> shortNum b -> fltb a b = true ->
  fleb a (midpoint a b) = true /\ fltb (midpoint a b) b = true.
Proof.
  intros (Fa & Ba & ma & ea & Hma & Hea & Ea) (Fb & Bb & mb & eb & Hmb & Heb & Eb) L.
  assert (Fs : ffinite (fadd a b) = true).
  { destruct (fadd_ext a b Fa Fb) as [N Es]. apply finite_ext; auto. rewrite Es.
    assert (HS : Rabs (B2R a + B2R b) <= bpow radix2 1023).
    { apply Rle_trans with (1 := Rabs_triang _ _). replace (bpow radix2 1023) with (bpow radix2 1022 + bpow radix2 1022); [lra|].
      change 1023%Z with (1 + 1022)%Z. rewrite bpow_plus. simpl (bpow radix2 1). lra. }
    assert (HR : Rabs (rnd (B2R a + B2R b)) <= bpow radix2 1023).
    { assert (R1 : rnd (bpow radix2 1023) = bpow radix2 1023).
      { apply round_generic; [apply valid_rnd_N|]. apply generic_format_bpow. reflexivity || (vm_compute; discriminate). }
      apply Rabs_le. apply Rabs_def2b in HS || apply Rabs_le_inv in HS. destruct HS as [S1 S2]. split.
      - rewrite <- R1, <- rnd_opp. apply rnd_mono. lra.
      - rewrite <- R1. apply rnd_mono. lra. }
    assert (bpow radix2 1023 < Mx) by (unfold Mx; apply bpow_lt; lia).
    apply Rabs_le_inv in HR. rewrite clamp_id by lra. lra. }
  destruct (midpoint_between a b Fa Fb L Fs) as (H1 & _ & _). split; auto.
  destruct (midpoint_real a b Fa Fb Fs) as [Fm Em].
  apply fltb_true in L as (Na & Nb & L). rewrite !ext_finite in L by auto.
  destruct (between_short (B2R a) (B2R b)) as (c & Rc & H2 & H3); auto.
  { rewrite Ea. apply short_format; auto. } { rewrite Eb. apply short_format; auto. }
  assert (A3 : rnd (B2R a + B2R b) <= 2 * c) by (rewrite <- (rnd_2 c Rc); apply rnd_mono; lra).
  assert (B3 : B2R (midpoint a b) <= c) by (rewrite Em, <- Rc; apply rnd_mono; lra).
  apply fltb_true. rewrite !ext_finite by auto. split; [apply finite_nnan; auto|]. split; auto. lra.
Qed.

Open Scope Z_scope.
Lemma goodTable_short X : X <> [] -> (forall r1 r2, In r1 X -> In r2 X -> length r1 = length r2) ->
  (forall row v, In row X -> In v row -> shortNum v) -> goodTable X.
Proof.
  intros Hne Hr HS.
  assert (HC : forall i f v, cell X i f v -> shortNum v).
  { intros i f v (row & H1 & H2). apply (HS row); eapply look_In; eauto. }
  split; auto.
  - intros i f v Hv. apply finite_nnan. apply (HC i f v Hv).
  - intros f i j a b Ha Hb L. apply midpoint_short; eauto.
Qed.
Lemma short_int z : Z.abs z < 2 ^ 52 -> shortNum (fofZ z).
Proof.
  intros Hz.
  assert (Rz : rnd (IZR z) = IZR z).
  { apply round_generic; [apply valid_rnd_N|]. apply (generic_format_FLT radix2 (-1074) 53). exists (Float radix2 z 0); simpl; [|lia|lia]. unfold F2R; simpl. ring. }
  assert (Hb : (Rabs (IZR z) <= bpow radix2 52)%R).
  { rewrite <- abs_IZR. change (bpow radix2 52) with (IZR (2 ^ 52)). apply IZR_le. lia. }
  assert (H52 : (bpow radix2 52 <= bpow radix2 1022)%R) by (apply bpow_le; lia).
  assert (HM : (bpow radix2 1022 < Mx)%R) by (unfold Mx; apply bpow_lt; lia).
  destruct (fofZ_ext z) as [N Ez]. rewrite Rz in Ez.
  assert (HB := Rabs_le_inv _ _ Hb). rewrite clamp_id in Ez by lra.
  assert (Ff : ffinite (fofZ z) = true) by (apply finite_ext; auto; rewrite Ez; lra).
  rewrite ext_finite in Ez by auto. split; auto. rewrite Ez. split; [lra|]. exists z, 0. split; [auto|]. split; [lia|]. simpl. lra.
Qed.
Lemma short_float32 v m e : ffinite v = true -> Z.abs m < 2 ^ 24 -> -149 <= e <= 104 -> B2R v = (IZR m * bpow radix2 e)%R -> shortNum v.
Proof.
  intros Hf Hm He Hv. split; [auto|]. split.
  - rewrite Hv, Rabs_mult, (Rabs_pos_eq (bpow radix2 e)) by apply bpow_ge_0. rewrite <- abs_IZR.
    apply Rle_trans with (IZR (2 ^ 24) * bpow radix2 104)%R.
    + apply Rmult_le_compat; [apply IZR_le; lia|apply bpow_ge_0|apply IZR_le; lia|apply bpow_le; lia].
    + change (IZR (2 ^ 24)) with (bpow radix2 24). rewrite <- bpow_plus. apply bpow_le. lia.
  - exists m, e. split; [lia|]. split; [lia|auto].
Qed.
