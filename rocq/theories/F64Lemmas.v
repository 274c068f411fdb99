(** Order and rounding facts about float64 (proof support; no model content). *)
From Coq Require Import ZArith Reals Lra Psatz.
From Verif Require Import Base F64.
Open Scope R_scope.

Definition Mx : R := bpow radix2 1024.
Lemma Mx_pos : 0 < Mx. Proof. apply bpow_gt_0. Qed.

Definition rnd (x : R) : R := round radix2 (SpecFloat.fexp 53 1024) ZnearestE x.

#[global] Instance valid_fexp64 : Valid_exp (SpecFloat.fexp 53 1024).
Proof. apply (fexp_correct 53 1024). exact Hprec. Qed.

(** order embedding of the non-NaN floats into the reals *)
Definition ext (x : f64) : R :=
  match x with
  | B754_infinity false => Mx
  | B754_infinity true => - Mx
  | _ => B2R x
  end.

Lemma abs_B2R_lt x : Rabs (@B2R 53 1024 x) < Mx.
Proof. apply abs_B2R_lt_emax. Qed.

Lemma B2R_bounds (x : f64) : - Mx < B2R x < Mx.
Proof. pose proof (abs_B2R_lt x) as H. apply Rabs_def2 in H. lra. Qed.

Lemma ext_bounds x : - Mx <= ext x <= Mx.
Proof. pose proof Mx_pos. pose proof (B2R_bounds x). destruct x as [s|[|]| |s m e H1]; simpl in *; lra. Qed.

Lemma ext_finite x : ffinite x = true -> ext x = B2R x.
Proof. destruct x as [s|[|]| |s m e H]; simpl; congruence. Qed.

Lemma finite_ext x : fnanb x = false -> (- Mx < ext x < Mx <-> ffinite x = true).
Proof.
  pose proof Mx_pos. pose proof (B2R_bounds x). destruct x as [s|[|]| |s m e H1]; simpl in *; try congruence; split; intros; try congruence; lra.
Qed.

Lemma finite_nnan x : ffinite x = true -> fnanb x = false.
Proof. destruct x; simpl; congruence. Qed.

Lemma fltb_ext a b : fnanb a = false -> fnanb b = false -> fltb a b = Rlt_bool (ext a) (ext b).
Proof.
  intros Ha Hb. pose proof Mx_pos as HM. pose proof (B2R_bounds a) as Ba. pose proof (B2R_bounds b) as Bb.
  destruct (ffinite a) eqn:Fa, (ffinite b) eqn:Fb.
  - rewrite !ext_finite by assumption. apply Bltb_correct; assumption.
  - rewrite (ext_finite a) by assumption.
    destruct b as [s|[|]| |s m e H1]; simpl in *; try congruence;
    destruct a as [s1|s1| |s1 m1 e1 H2]; simpl in *; try congruence; unfold fltb, Bltb, SpecFloat.SFltb; simpl.
    + rewrite Rlt_bool_false by lra. reflexivity.
    + destruct s1; (rewrite Rlt_bool_false by lra); reflexivity.
    + rewrite Rlt_bool_true by lra. reflexivity.
    + destruct s1; (rewrite Rlt_bool_true by lra); reflexivity.
  - rewrite (ext_finite b) by assumption.
    destruct a as [s|[|]| |s m e H1]; simpl in *; try congruence;
    destruct b as [s1|s1| |s1 m1 e1 H2]; simpl in *; try congruence; unfold fltb, Bltb, SpecFloat.SFltb; simpl.
    + rewrite Rlt_bool_true by lra. reflexivity.
    + destruct s1; (rewrite Rlt_bool_true by lra); reflexivity.
    + rewrite Rlt_bool_false by lra. reflexivity.
    + destruct s1; (rewrite Rlt_bool_false by lra); reflexivity.
  - destruct a as [s|[|]| |s m e H1]; simpl in *; try congruence;
    destruct b as [s1|[|]| |s1 m1 e1 H2]; simpl in *; try congruence; unfold fltb, Bltb, SpecFloat.SFltb; simpl;
    first [rewrite Rlt_bool_true by lra; reflexivity | rewrite Rlt_bool_false by lra; reflexivity].
Qed.

Lemma feqb_ext a b : fnanb a = false -> fnanb b = false -> feqb a b = Req_bool (ext a) (ext b).
Proof.
  intros Ha Hb. pose proof Mx_pos as HM. pose proof (B2R_bounds a) as Ba. pose proof (B2R_bounds b) as Bb.
  destruct (ffinite a) eqn:Fa, (ffinite b) eqn:Fb.
  - rewrite !ext_finite by assumption. apply Beqb_correct; assumption.
  - rewrite (ext_finite a) by assumption.
    destruct b as [s|[|]| |s m e H1]; simpl in *; try congruence;
    destruct a as [s1|s1| |s1 m1 e1 H2]; simpl in *; try congruence; unfold feqb, Beqb, SpecFloat.SFeqb; simpl;
    try destruct s1; (rewrite Req_bool_false by lra); reflexivity.
  - rewrite (ext_finite b) by assumption.
    destruct a as [s|[|]| |s m e H1]; simpl in *; try congruence;
    destruct b as [s1|s1| |s1 m1 e1 H2]; simpl in *; try congruence; unfold feqb, Beqb, SpecFloat.SFeqb; simpl;
    try destruct s1; (rewrite Req_bool_false by lra); reflexivity.
  - destruct a as [s|[|]| |s m e H1]; simpl in *; try congruence;
    destruct b as [s1|[|]| |s1 m1 e1 H2]; simpl in *; try congruence; unfold feqb, Beqb, SpecFloat.SFeqb; simpl;
    first [rewrite Req_bool_true by lra; reflexivity | rewrite Req_bool_false by lra; reflexivity].
Qed.

Lemma fleb_split a b : fleb a b = (fltb a b || feqb a b)%bool.
Proof.
  unfold fleb, fltb, feqb, Bleb, Bltb, Beqb, SpecFloat.SFleb, SpecFloat.SFltb, SpecFloat.SFeqb.
  destruct (SpecFloat.SFcompare _ _) as [[| |]|]; reflexivity.
Qed.

Lemma fleb_ext a b : fnanb a = false -> fnanb b = false -> fleb a b = Rle_bool (ext a) (ext b).
Proof.
  intros Ha Hb. rewrite fleb_split, fltb_ext, feqb_ext by assumption.
  destruct (Rle_bool_spec (ext a) (ext b)) as [H|H].
  - destruct (Rlt_bool_spec (ext a) (ext b)) as [H1|H1]; [reflexivity|].
    rewrite Req_bool_true by lra. reflexivity.
  - rewrite Rlt_bool_false by lra. rewrite Req_bool_false by lra. reflexivity.
Qed.

Lemma fcmp_nan_l x : fltb fnan x = false /\ fleb fnan x = false /\ feqb fnan x = false.
Proof. destruct x; repeat split. Qed.
Lemma fcmp_nan_r x : fltb x fnan = false /\ fleb x fnan = false /\ feqb x fnan = false.
Proof. destruct x as [s|s| |s m e H]; repeat split; destruct s; reflexivity. Qed.

Lemma fltb_nnan a b : fltb a b = true -> fnanb a = false /\ fnanb b = false.
Proof.
  intros H. split.
  - destruct a; try reflexivity. pose proof (proj1 (fcmp_nan_l b)) as E; unfold fnan in E; congruence.
  - destruct b; try reflexivity. pose proof (proj1 (fcmp_nan_r a)) as E; unfold fnan in E; congruence.
Qed.
Lemma feqb_nnan a b : feqb a b = true -> fnanb a = false /\ fnanb b = false.
Proof.
  intros H. split.
  - destruct a; try reflexivity. pose proof (proj2 (proj2 (fcmp_nan_l b))) as E; unfold fnan in E; congruence.
  - destruct b; try reflexivity. pose proof (proj2 (proj2 (fcmp_nan_r a))) as E; unfold fnan in E; congruence.
Qed.
Lemma fleb_nnan a b : fleb a b = true -> fnanb a = false /\ fnanb b = false.
Proof.
  rewrite fleb_split. intros H. apply Bool.orb_true_iff in H as [H|H]; [apply fltb_nnan|apply feqb_nnan]; auto.
Qed.

Lemma fltb_true a b : fltb a b = true <-> fnanb a = false /\ fnanb b = false /\ ext a < ext b.
Proof.
  split.
  - intros H. destruct (fltb_nnan _ _ H) as [Ha Hb]. rewrite fltb_ext in H by assumption.
    destruct (Rlt_bool_spec (ext a) (ext b)); [auto|discriminate].
  - intros (Ha & Hb & H). rewrite fltb_ext by assumption. apply Rlt_bool_true; auto.
Qed.
Lemma fleb_true a b : fleb a b = true <-> fnanb a = false /\ fnanb b = false /\ ext a <= ext b.
Proof.
  split.
  - intros H. destruct (fleb_nnan _ _ H) as [Ha Hb]. rewrite fleb_ext in H by assumption.
    destruct (Rle_bool_spec (ext a) (ext b)); [auto|discriminate].
  - intros (Ha & Hb & H). rewrite fleb_ext by assumption. apply Rle_bool_true; auto.
Qed.
Lemma feqb_true a b : feqb a b = true <-> fnanb a = false /\ fnanb b = false /\ ext a = ext b.
Proof.
  split.
  - intros H. destruct (feqb_nnan _ _ H) as [Ha Hb]. rewrite feqb_ext in H by assumption.
    destruct (Req_bool_spec (ext a) (ext b)); [auto|discriminate].
  - intros (Ha & Hb & H). rewrite feqb_ext by assumption. apply Req_bool_true; auto.
Qed.
Lemma fltb_false a b : fnanb a = false -> fnanb b = false -> fltb a b = false <-> ext b <= ext a.
Proof.
  intros Ha Hb. rewrite fltb_ext by assumption.
  destruct (Rlt_bool_spec (ext a) (ext b)); split; intros; try discriminate; auto; lra.
Qed.
Lemma fleb_false a b : fnanb a = false -> fnanb b = false -> fleb a b = false <-> ext b < ext a.
Proof.
  intros Ha Hb. rewrite fleb_ext by assumption.
  destruct (Rle_bool_spec (ext a) (ext b)); split; intros; try discriminate; auto; lra.
Qed.

Lemma fltb_irrefl a : fltb a a = false.
Proof. destruct (fltb a a) eqn:E; auto. apply fltb_true in E as (_ & _ & E). lra. Qed.
Lemma fltb_trans a b c : fltb a b = true -> fltb b c = true -> fltb a c = true.
Proof. rewrite !fltb_true. intros (H1 & H2 & H3) (H4 & H5 & H6). repeat split; auto; lra. Qed.
Lemma fltb_asym a b : fltb a b = true -> fltb b a = false.
Proof. intros H. destruct (fltb b a) eqn:E; auto. rewrite <- (fltb_irrefl a). symmetry. eapply fltb_trans; eauto. Qed.
Lemma fleb_refl a : fnanb a = false -> fleb a a = true.
Proof. intros H. apply fleb_true. repeat split; auto; lra. Qed.
Lemma fleb_trans a b c : fleb a b = true -> fleb b c = true -> fleb a c = true.
Proof. rewrite !fleb_true. intros (H1 & H2 & H3) (H4 & H5 & H6). repeat split; auto; lra. Qed.
Lemma fltb_leb a b : fltb a b = true -> fleb a b = true.
Proof. rewrite fltb_true, fleb_true. intros (H1 & H2 & H3). repeat split; auto; lra. Qed.
Lemma fleb_ltb_trans a b c : fleb a b = true -> fltb b c = true -> fltb a c = true.
Proof. rewrite !fltb_true, !fleb_true. intros (H1 & H2 & H3) (H4 & H5 & H6). repeat split; auto; lra. Qed.
Lemma fltb_leb_trans a b c : fltb a b = true -> fleb b c = true -> fltb a c = true.
Proof. rewrite !fltb_true, !fleb_true. intros (H1 & H2 & H3) (H4 & H5 & H6). repeat split; auto; lra. Qed.

(** ** Rounding *)
Lemma rnd_mono x y : x <= y -> rnd x <= rnd y.
Proof. intros H. apply round_le; auto with typeclass_instances. Qed.
Lemma rnd_0 : rnd 0 = 0.
Proof. apply round_0; auto with typeclass_instances. Qed.
Lemma rnd_B2R (x : f64) : rnd (B2R x) = B2R x.
Proof. apply round_generic; auto with typeclass_instances. apply generic_format_B2R. Qed.
Lemma rnd_opp x : rnd (- x) = - rnd x.
Proof. apply round_NE_opp. Qed.
Lemma rnd_ge_0 x : 0 <= x -> 0 <= rnd x.
Proof. intros H. rewrite <- rnd_0. apply rnd_mono; auto. Qed.
Lemma rnd_le_0 x : x <= 0 -> rnd x <= 0.
Proof. intros H. rewrite <- rnd_0. apply rnd_mono; auto. Qed.

(** clamp to the order-embedded infinities *)
Definition clamp (x : R) : R := Rmax (- Mx) (Rmin Mx x).
Lemma clamp_mono x y : x <= y -> clamp x <= clamp y.
Proof. intros H. unfold clamp, Rmax, Rmin. repeat destruct (Rle_dec _ _); lra. Qed.
Lemma clamp_id x : - Mx <= x <= Mx -> clamp x = x.
Proof. intros H. unfold clamp, Rmax, Rmin. repeat destruct (Rle_dec _ _); lra. Qed.
Lemma clamp_hi x : Mx <= x -> clamp x = Mx.
Proof. pose proof Mx_pos. intros H0. unfold clamp, Rmax, Rmin. repeat destruct (Rle_dec _ _); lra. Qed.
Lemma clamp_lo x : x <= - Mx -> clamp x = - Mx.
Proof. pose proof Mx_pos. intros H0. unfold clamp, Rmax, Rmin. repeat destruct (Rle_dec _ _); lra. Qed.
Lemma clamp_ge0 x : 0 <= x -> 0 <= clamp x.
Proof. pose proof Mx_pos. intros H0. unfold clamp, Rmax, Rmin. repeat destruct (Rle_dec _ _); lra. Qed.

Lemma Bsign_le0 (x : f64) : ffinite x = true -> Bsign x = true -> B2R x <= 0.
Proof.
  destruct x as [s|s| |s m e H]; simpl; try discriminate; intros _ Hs.
  - lra.
  - subst s. apply Rlt_le. apply F2R_lt_0. reflexivity.
Qed.
Lemma Bsign_ge0 (x : f64) : ffinite x = true -> Bsign x = false -> 0 <= B2R x.
Proof.
  destruct x as [s|s| |s m e H]; simpl; try discriminate; intros _ Hs.
  - lra.
  - subst s. apply Rlt_le. apply F2R_gt_0. reflexivity.
Qed.
Lemma Bsign_pos (x : f64) : 0 < B2R x -> Bsign x = false.
Proof.
  destruct x as [s|s| |s m e H]; simpl; try lra. intros Hx. destruct s; auto.
  assert (F2R (Float radix2 (Z.neg m) e) < 0) by (apply F2R_lt_0; reflexivity). simpl in *; lra.
Qed.
Lemma Bsign_neg (x : f64) : B2R x < 0 -> Bsign x = true.
Proof.
  destruct x as [s|s| |s m e H]; simpl; try lra. intros Hx. destruct s; auto.
  assert (0 < F2R (Float radix2 (Z.pos m) e)) by (apply F2R_gt_0; reflexivity). simpl in *; lra.
Qed.

Lemma B2SF_inf (x : f64) s : B2SF x = SpecFloat.S754_infinity s -> x = B754_infinity s.
Proof. destruct x; simpl; congruence. Qed.

Lemma fadd_ext a b : ffinite a = true -> ffinite b = true ->
  fnanb (fadd a b) = false /\ ext (fadd a b) = clamp (rnd (B2R a + B2R b)).
Proof.
  intros Fa Fb. pose proof (Bplus_correct 53 1024 _ _ mode_NE a b Fa Fb) as H.
  fold (fadd a b) in H. cbn [round_mode] in H. fold (rnd (B2R a + B2R b)) in H. fold Mx in H.
  destruct (Rlt_bool_spec (Rabs (rnd (B2R a + B2R b))) Mx) as [Hlt|Hge].
  - destruct H as (H1 & H2 & _). split; [apply finite_nnan; auto|].
    rewrite ext_finite by auto. rewrite H1. apply Rabs_def2 in Hlt. rewrite clamp_id; lra.
  - destruct H as (H1 & H2). unfold binary_overflow in H1. simpl in H1. apply B2SF_inf in H1. rewrite H1.
    split; [reflexivity|]. destruct (Bsign a) eqn:Sa; simpl.
    + pose proof (Bsign_le0 a Fa Sa). symmetry in H2. pose proof (Bsign_le0 b Fb H2).
      rewrite clamp_lo; [reflexivity|]. assert (rnd (B2R a + B2R b) <= 0) by (apply rnd_le_0; lra).
      rewrite Rabs_left1 in Hge by auto. lra.
    + pose proof (Bsign_ge0 a Fa Sa). symmetry in H2. pose proof (Bsign_ge0 b Fb H2).
      rewrite clamp_hi; [reflexivity|]. assert (0 <= rnd (B2R a + B2R b)) by (apply rnd_ge_0; lra).
      rewrite Rabs_pos_eq in Hge by auto. lra.
Qed.

Lemma fsub_fadd a b : fsub a b = fadd a (fopp b).
Proof.
  destruct a as [s|s| |s m e H], b as [s1|s1| |s1 m1 e1 H1]; reflexivity.
Qed.

Lemma ffinite_opp a : ffinite (fopp a) = ffinite a.
Proof. apply is_finite_Bopp. Qed.

Lemma fsub_ext a b : ffinite a = true -> ffinite b = true ->
  fnanb (fsub a b) = false /\ ext (fsub a b) = clamp (rnd (B2R a - B2R b)).
Proof.
  intros Fa Fb. rewrite fsub_fadd. destruct (fadd_ext a (fopp b)) as [H1 H2]; auto.
  - rewrite ffinite_opp; auto.
  - split; auto. rewrite H2. unfold fopp. rewrite B2R_Bopp. reflexivity.
Qed.

Lemma fmul_ext a b : ffinite a = true -> ffinite b = true ->
  fnanb (fmul a b) = false /\ ext (fmul a b) = clamp (rnd (B2R a * B2R b)).
Proof.
  intros Fa Fb. pose proof (Bmult_correct 53 1024 _ _ mode_NE a b) as H.
  fold (fmul a b) in H. cbn [round_mode] in H. fold (rnd (B2R a * B2R b)) in H. fold Mx in H.
  destruct (Rlt_bool_spec (Rabs (rnd (B2R a * B2R b))) Mx) as [Hlt|Hge].
  - destruct H as (H1 & H2 & _). fold (ffinite a) (ffinite b) in H2. rewrite Fa, Fb in H2. simpl in H2.
    split; [apply finite_nnan; auto|].
    rewrite ext_finite by auto. rewrite H1. apply Rabs_def2 in Hlt. rewrite clamp_id; lra.
  - unfold binary_overflow in H. simpl in H. apply B2SF_inf in H. rewrite H.
    split; [reflexivity|]. destruct (Bsign a) eqn:Sa, (Bsign b) eqn:Sb; simpl.
    1: pose proof (Bsign_le0 a Fa Sa); pose proof (Bsign_le0 b Fb Sb).
    2: pose proof (Bsign_le0 a Fa Sa); pose proof (Bsign_ge0 b Fb Sb).
    3: pose proof (Bsign_ge0 a Fa Sa); pose proof (Bsign_le0 b Fb Sb).
    4: pose proof (Bsign_ge0 a Fa Sa); pose proof (Bsign_ge0 b Fb Sb).
    1,4: rewrite clamp_hi; [reflexivity|]; assert (0 <= rnd (B2R a * B2R b)) by (apply rnd_ge_0; nra);
      rewrite Rabs_pos_eq in Hge by auto; lra.
    all: rewrite clamp_lo; [reflexivity|]; assert (rnd (B2R a * B2R b) <= 0) by (apply rnd_le_0; nra);
      rewrite Rabs_left1 in Hge by auto; lra.
Qed.

Lemma fdiv_ext a b : ffinite a = true -> ffinite b = true -> B2R b <> 0 ->
  fnanb (fdiv a b) = false /\ ext (fdiv a b) = clamp (rnd (B2R a / B2R b)).
Proof.
  intros Fa Fb Hb. pose proof (Bdiv_correct 53 1024 _ _ mode_NE a b Hb) as H.
  fold (fdiv a b) in H. cbn [round_mode] in H. fold (rnd (B2R a / B2R b)) in H. fold Mx in H.
  destruct (Rlt_bool_spec (Rabs (rnd (B2R a / B2R b))) Mx) as [Hlt|Hge].
  - destruct H as (H1 & H2 & _). fold (ffinite a) in H2. rewrite Fa in H2.
    split; [apply finite_nnan; auto|].
    rewrite ext_finite by auto. rewrite H1. apply Rabs_def2 in Hlt. rewrite clamp_id; lra.
  - unfold binary_overflow in H. simpl in H. apply B2SF_inf in H. rewrite H.
    split; [reflexivity|].
    assert (Hd : forall x y, y <> 0 -> x / y = x * / y) by reflexivity.
    assert (Hi : forall y, 0 <= y -> y <> 0 -> 0 < / y) by (intros; apply Rinv_0_lt_compat; lra).
    assert (Hi' : forall y, y <= 0 -> y <> 0 -> / y < 0) by (intros; apply Rinv_lt_0_compat; lra).
    unfold Rdiv in *.
    destruct (Bsign a) eqn:Sa, (Bsign b) eqn:Sb; simpl.
    1: pose proof (Bsign_le0 a Fa Sa); pose proof (Hi' _ (Bsign_le0 b Fb Sb) Hb).
    2: pose proof (Bsign_le0 a Fa Sa); pose proof (Hi _ (Bsign_ge0 b Fb Sb) Hb).
    3: pose proof (Bsign_ge0 a Fa Sa); pose proof (Hi' _ (Bsign_le0 b Fb Sb) Hb).
    4: pose proof (Bsign_ge0 a Fa Sa); pose proof (Hi _ (Bsign_ge0 b Fb Sb) Hb).
    1,4: rewrite clamp_hi; [reflexivity|]; assert (0 <= rnd (B2R a * / B2R b)) by (apply rnd_ge_0; nra);
      rewrite Rabs_pos_eq in Hge by auto; lra.
    all: rewrite clamp_lo; [reflexivity|]; assert (rnd (B2R a * / B2R b) <= 0) by (apply rnd_le_0; nra);
      rewrite Rabs_left1 in Hge by auto; lra.
Qed.

(** commutativity *)
Lemma fadd_comm a b : fadd a b = fadd b a.
Proof.
  destruct a as [s|s| |s m e H], b as [s1|s1| |s1 m1 e1 H1]; try reflexivity.
  - destruct s, s1; reflexivity.
  - destruct s, s1; reflexivity.
  - unfold fadd, Bplus. rewrite Z.min_comm. f_equal. unfold Fplus_naive. apply Z.add_comm.
Qed.

Lemma B2R_Bsign_inj64 (x y : f64) :
  ffinite x = true -> ffinite y = true -> B2R x = B2R y -> Bsign x = Bsign y -> x = y.
Proof. intros; apply B2R_Bsign_inj; auto. Qed.

Lemma fmul_comm a b : fmul a b = fmul b a.
Proof.
  destruct (ffinite a && ffinite b)%bool eqn:E.
  - apply Bool.andb_true_iff in E as [Fa Fb].
    pose proof (Bmult_correct 53 1024 _ _ mode_NE a b) as H1.
    pose proof (Bmult_correct 53 1024 _ _ mode_NE b a) as H2.
    fold (fmul a b) in H1. fold (fmul b a) in H2. rewrite (Rmult_comm (B2R b)) in H2.
    destruct (Rlt_bool _ _).
    + destruct H1 as (A1 & A2 & A3). destruct H2 as (B1 & B2 & B3).
      fold (ffinite a) (ffinite b) in *. rewrite Fa, Fb in *. simpl in *.
      apply B2R_Bsign_inj64; auto; [congruence|].
      rewrite A3, B3 by (apply finite_nnan; auto). apply Bool.xorb_comm.
    + unfold binary_overflow in *. simpl in *. rewrite (Bool.xorb_comm (Bsign b)) in H2.
      apply B2SF_inf in H1, H2. congruence.
  - destruct a as [s|s| |s m e H], b as [s1|s1| |s1 m1 e1 H1]; try reflexivity; try discriminate;
    unfold fmul, Bmult; f_equal; apply Bool.xorb_comm.
Qed.

Lemma B2R_fone : B2R fone = 1.
Proof. apply Bone_correct. Qed.

Lemma fmul_1_r a : fmul a fone = a.
Proof.
  destruct (ffinite a) eqn:Fa.
  - pose proof (Bmult_correct 53 1024 _ _ mode_NE a fone) as H.
    fold (fmul a fone) in H. rewrite B2R_fone, Rmult_1_r in H. cbn [round_mode] in H.
    fold (rnd (B2R a)) in H. rewrite rnd_B2R in H. rewrite Rlt_bool_true in H by apply abs_B2R_lt.
    destruct H as (A1 & A2 & A3). fold (ffinite a) (ffinite fone) in A2. rewrite Fa in A2.
    assert (F1 : ffinite fone = true) by reflexivity. rewrite F1 in A2. simpl in A2.
    apply B2R_Bsign_inj64; auto. rewrite A3 by (apply finite_nnan; auto).
    assert (S1 : Bsign fone = false) by reflexivity. rewrite S1. apply Bool.xorb_false_r.
  - destruct a as [s|s| |s m e H]; try discriminate; try reflexivity.
    destruct s; reflexivity.
Qed.
Lemma fmul_1_l a : fmul fone a = a.
Proof. rewrite fmul_comm. apply fmul_1_r. Qed.

Lemma fofZ_1 : fofZ 1 = fone.
Proof. apply B2SF_inj. vm_compute. reflexivity. Qed.
