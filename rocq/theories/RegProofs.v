(** Options that restrict the growth of a tree: proofs for C135. *)
From Coq Require Import Reals Lra.
From Flocq Require Import Core BinarySingleNaN.
From Verif Require Import Base F64 F64Lemmas Env EnvLemmas Utils UtilsProofs Tree TreeProofs TreeSplit TreeThms Spec RealProofs NumErr ErrProofs SpecReg.
From Coq Require Import List.
Open Scope Z_scope.

(** ** Float comparisons *)
Lemma fsub_mono b a c c' : fleb c c' = true -> fltb b (fsub a c') = true -> fltb b (fsub a c) = true.
Proof.
  intros Hc Hb. destruct (ffinite a) eqn:Fa.
  - destruct (ffinite c) eqn:Fc, (ffinite c') eqn:Fc'.
    + destruct (fsub_ext a c Fa Fc) as [N1 E1]. destruct (fsub_ext a c' Fa Fc') as [N2 E2].
      apply fltb_true in Hb as (B1 & B2 & B3). apply fltb_true. split; [exact B1|]. split; [exact N1|].
      apply fleb_true in Hc as (_ & _ & Hc). rewrite !ext_finite in Hc by auto. rewrite E1. rewrite E2 in B3.
      eapply Rlt_le_trans; [exact B3|]. apply clamp_mono, rnd_mono. lra.
    + exfalso. destruct c' as [s|[|]| |s m e H]; try discriminate Fc'.
      * apply fleb_true in Hc as (_ & _ & Hc). rewrite (ext_finite c) in Hc by auto. simpl in Hc. pose proof (B2R_bounds c). lra.
      * destruct a as [s|s| |s m e H]; try discriminate Fa; apply fltb_true in Hb as (_ & _ & Hb); pose proof (ext_bounds b); simpl in Hb; lra.
      * apply fleb_nnan in Hc as [_ Hc]. discriminate.
    + destruct c as [s|[|]| |s m e H]; try discriminate Fc.
      * apply fltb_true in Hb as (B1 & B2 & B3). pose proof (ext_bounds (fsub a c')). assert (Ha : fsub a fninf = finf) by (destruct a as [s|s| |s m e H1]; try discriminate Fa; reflexivity).
        change (B754_infinity true) with fninf. rewrite Ha. apply fltb_true. split; [exact B1|]. split; [reflexivity|]. simpl. lra.
      * exfalso. apply fleb_true in Hc as (_ & _ & Hc). rewrite (ext_finite c') in Hc by auto. simpl in Hc. pose proof (B2R_bounds c'). lra.
      * apply fleb_nnan in Hc as [Hc _]. discriminate.
    + destruct c as [s|[|]| |s m e H]; try discriminate Fc; destruct c' as [s'|[|]| |s' m' e' H']; try discriminate Fc'; try exact Hb; try discriminate Hc.
      exfalso. destruct a as [s|s| |s m e H]; try discriminate Fa; apply fltb_true in Hb as (_ & _ & Hb); pose proof (ext_bounds b); simpl in Hb; lra.
  - destruct a as [s|[|]| |s m e H]; try discriminate Fa.
    + exfalso. destruct c' as [s'|[|]| |s' m' e' H']; try (apply fltb_nnan in Hb as [_ Hb]; discriminate);
        apply fltb_true in Hb as (_ & _ & Hb); pose proof (ext_bounds b); simpl in Hb; lra.
    + destruct c' as [s'|[|]| |s' m' e' H']; try (apply fltb_nnan in Hb as [_ Hb]; discriminate Hb);
        destruct c as [s|[|]| |s m e H]; try exact Hb; exfalso; try (apply fleb_nnan in Hc as [Hc _]; discriminate Hc);
        apply fleb_true in Hc as (_ & _ & Hc); simpl in Hc; pose proof Mx_pos.
      * lra.
      * lra.
      * pose proof (B2R_bounds (B754_finite s' m' e' H')). simpl in *. lra.
    + apply fltb_nnan in Hb as [_ Hb]. destruct c'; discriminate.
Qed.

Lemma half_mono g g' : fleb g g' = true -> fleb (fdiv g (fofZ 2)) (fdiv g' (fofZ 2)) = true.
Proof.
  intros H. assert (F2 : ffinite (fofZ 2) = true) by reflexivity.
  assert (E2 : B2R (fofZ 2) = 2%R) by (destruct (fofZ_exact50 2 ltac:(lia)) as [_ E]; exact E).
  assert (D : forall x, ffinite x = true -> fnanb (fdiv x (fofZ 2)) = false /\ ext (fdiv x (fofZ 2)) = clamp (rnd (B2R x / 2))).
  { intros x Fx. rewrite <- E2. apply fdiv_ext; auto. rewrite E2. lra. }
  destruct (ffinite g) eqn:Fg, (ffinite g') eqn:Fg'.
  - destruct (D g Fg) as [N1 E1]. destruct (D g' Fg') as [N3 E3]. apply fleb_true in H as (_ & _ & H). rewrite !ext_finite in H by auto.
    apply fleb_true. split; [exact N1|]. split; [exact N3|]. rewrite E1, E3. apply clamp_mono, rnd_mono. lra.
  - destruct (D g Fg) as [N1 E1]. pose proof (ext_bounds (fdiv g (fofZ 2))).
    destruct g' as [s|[|]| |s m e Hs]; try discriminate Fg'.
    + exfalso. apply fleb_true in H as (_ & _ & H). rewrite (ext_finite g) in H by auto. simpl in H. pose proof (B2R_bounds g). lra.
    + change (fdiv (B754_infinity false) (fofZ 2)) with finf. apply fleb_true. split; [exact N1|]. split; [reflexivity|]. change (ext finf) with Mx. lra.
    + apply fleb_nnan in H as [_ H]. discriminate.
  - destruct (D g' Fg') as [N1 E1]. pose proof (ext_bounds (fdiv g' (fofZ 2))).
    destruct g as [s|[|]| |s m e Hs]; try discriminate Fg.
    + change (fdiv (B754_infinity true) (fofZ 2)) with fninf. apply fleb_true. split; [reflexivity|]. split; [exact N1|]. change (ext fninf) with (- Mx)%R. lra.
    + exfalso. apply fleb_true in H as (_ & _ & H). rewrite (ext_finite g') in H by auto. simpl in H. pose proof (B2R_bounds g'). lra.
    + apply fleb_nnan in H as [H _]. discriminate.
  - destruct g as [s|[|]| |s m e Hs]; try discriminate Fg; destruct g' as [s'|[|]| |s' m' e' H']; try discriminate Fg'; try discriminate H; reflexivity.
Qed.

(** ** Candidates under harsher options *)
Lemma harsher_candidate E X o o' ix f i sc' thr : harsher o o' -> candidate E X o' ix f i sc' thr ->
  exists sc, candidate E X o ix f i sc thr /\ forall b, betterScore (to_xgb o) sc' b = true -> betterScore (to_xgb o) sc b = true.
Proof.
  intros (H1 & H2 & H3 & H4 & H5 & H6 & H7) (col & a & b & C1 & C2 & C3 & C4 & C5 & C6 & C7 & C8 & C9).
  rewrite H1 in C9. cbv zeta in C1, C2, C3, C4, C6, C7, C9. destruct (to_xgb o) eqn:Ex.
  - rewrite H2, H3, H5 in C9. destruct C9 as (g & h & sg & sh & G1 & G2 & G3 & G4 & G5). subst sc'. eexists. split.
    + exists col, a, b. rewrite Ex. split; [exact C1|]. split; [exact C2|]. split; [exact C3|]. split; [exact C4|]. split; [exact C5|].
      split; [lia|]. split; [lia|]. split; [exact C8|]. exists g, h, sg, sh. split; [exact G1|]. split; [exact G2|]. split; [exact G3|]. split; [exact G4|]. reflexivity.
    + intros s Hs. cbn [betterScore] in *. eapply fsub_mono; [|exact Hs]. apply half_mono, H7. reflexivity.
  - rewrite H4 in C9. destruct C9 as (y & sy & G1 & G2 & G5). subst sc'. eexists. split.
    + exists col, a, b. rewrite Ex. split; [exact C1|]. split; [exact C2|]. split; [exact C3|]. split; [exact C4|]. split; [exact C5|].
      split; [lia|]. split; [lia|]. split; [exact C8|]. exists y, sy. split; [exact G1|]. split; [exact G2|]. reflexivity.
    + auto.
Qed.

Lemma c135_leaf_lemma E X o o' t t' d l r d' l' r' k k' : EnvOk E -> NewTree E X o = Ok t -> NewTree E X o' = Ok t' -> harsher o o' ->
  subAt (Node d l r) k t -> subAt (Node d' l' r') k' t' -> samplesOf d' = samplesOf d -> Z.of_nat k < to_maxdepth o ->
  (forall nf f, scannedAt o' nf k' f -> scannedAt o nf k f) ->
  (t_leaf d = true -> t_leaf d' = true) /\ (t_leaf d' = false -> betterScore (to_xgb o) (t_best d') (t_best d) = false).
Proof.
  intros HE Ht Ht' Hh Hd Hd' HS Hk HC.
  destruct (c07_lemma _ _ _ _ _ _ _ _ HE Ht Hd) as (row0 & R & A & B). destruct (c07_lemma _ _ _ _ _ _ _ _ HE Ht' Hd') as (row0' & R' & A' & _).
  assert (row0' = row0) by (eapply look_fun; eauto). subst row0'. rewrite HS in A'. pose proof Hh as (Ex & _). rewrite Ex in A'.
  split.
  - intros Hl. destruct (t_leaf d') eqn:L'; auto. exfalso. destruct (A' eq_refl) as (i & S1 & S2 & S3 & _).
    destruct (harsher_candidate _ _ _ _ _ _ _ _ _ Hh S2) as (sc & Q1 & Q2). apply HC in S1. specialize (B Hl Hk _ _ _ _ S1 Q1). rewrite (Q2 _ S3) in B. discriminate.
  - intros L'. destruct (A' L') as (i & S1 & S2 & S3 & _).
    destruct (harsher_candidate _ _ _ _ _ _ _ _ _ Hh S2) as (sc & Q1 & Q2). apply HC in S1.
    destruct (t_leaf d) eqn:L.
    + specialize (B eq_refl Hk _ _ _ _ S1 Q1). rewrite (Q2 _ S3) in B. discriminate.
    + destruct (A eq_refl) as (j & _ & _ & _ & T & _). specialize (T _ _ _ _ S1 Q1). destruct (betterScore (to_xgb o) (t_best d') (t_best d)) eqn:Eb; auto.
      rewrite (Q2 _ Eb) in T. discriminate.
Qed.

(** ** Lambda *)
Lemma ext_fopp v : ext (fopp v) = (- ext v)%R.
Proof.
  destruct v as [s|[|]| |s m e H]; try (simpl; lra). exact (B2R_Bopp 53 1024 (B754_finite s m e H)).
Qed.
Lemma magnitude_ext v : fnanb v = false -> fnanb (magnitude v) = false /\ ext (magnitude v) = Rabs (ext v).
Proof.
  intros N. assert (Z0 : ext fzero = 0%R) by reflexivity. unfold magnitude. destruct (fltb v fzero) eqn:L.
  - apply fltb_true in L as (_ & _ & L). rewrite Z0 in L. split; [destruct v; auto|]. rewrite ext_fopp, Rabs_left; auto.
  - apply fltb_false in L; auto. rewrite Z0 in L. split; [auto|]. rewrite Rabs_pos_eq; auto.
Qed.
Lemma clamp_abs x y : (Rabs x <= Rabs y)%R -> (Rabs (clamp x) <= Rabs (clamp y))%R.
Proof. pose proof Mx_pos. unfold clamp, Rmax, Rmin, Rabs. repeat destruct (Rle_dec _ _); repeat destruct (Rcase_abs _); lra. Qed.
Lemma rnd_abs_mono x y : (Rabs x <= Rabs y)%R -> (Rabs (rnd x) <= Rabs (rnd y))%R.
Proof.
  intros H. assert (A : forall z, Rabs (rnd z) = rnd (Rabs z)).
  { intros z. unfold Rabs at 2. destruct (Rcase_abs z).
    - rewrite rnd_opp, Rabs_left1; auto. apply rnd_le_0. lra.
    - apply Rabs_pos_eq, rnd_ge_0. lra. }
  rewrite !A. apply rnd_mono. exact H.
Qed.
Lemma quotient_shrinks n D D' : ffinite n = true -> fltb fzero D = true -> fleb D D' = true -> fleb (magnitude (fdiv n D')) (magnitude (fdiv n D)) = true.
Proof.
  intros Fn HD HL. assert (Z0 : ext fzero = 0%R) by reflexivity.
  apply fltb_true in HD as (_ & ND & PD). apply fleb_true in HL as (_ & ND' & LD). rewrite Z0 in PD.
  assert (Hinf : forall q, q = fdiv n finf -> fnanb q = false /\ ext q = 0%R).
  { intros q ->. destruct n as [s|s| |s m e H]; try discriminate Fn; destruct s; split; reflexivity. }
  assert (Hfin : forall q, fnanb q = false -> (0 < ext q)%R -> ffinite q = true \/ q = finf).
  { intros q Nq Pq. destruct q as [s|[|]| |s m e H]; try discriminate; auto. simpl in Pq. pose proof Mx_pos. lra. }
  assert (N : forall q, fnanb q = false -> (0 < ext q)%R -> fnanb (fdiv n q) = false).
  { intros q Nq Pq. destruct (Hfin q Nq Pq) as [Fq|Eq].
    - apply fdiv_ext; auto. rewrite ext_finite in Pq by auto. lra.
    - rewrite Eq. apply (Hinf _ eq_refl). }
  destruct (magnitude_ext _ (N D ND PD)) as [M1 M2]. destruct (magnitude_ext _ (N D' ND' ltac:(lra))) as [M3 M4].
  apply fleb_true. split; [exact M3|]. split; [exact M1|]. rewrite M2, M4.
  destruct (Hfin D' ND' ltac:(lra)) as [F'|E'].
  - destruct (Hfin D ND PD) as [F0|E0].
    + rewrite !ext_finite in LD by auto. rewrite ext_finite in PD by auto.
      destruct (fdiv_ext n D Fn F0 ltac:(lra)) as [_ Q]. destruct (fdiv_ext n D' Fn F' ltac:(lra)) as [_ Q']. rewrite Q, Q'.
      apply clamp_abs, rnd_abs_mono. unfold Rdiv. rewrite !Rabs_mult. apply Rmult_le_compat_l; [apply Rabs_pos|].
      rewrite !Rabs_pos_eq; [apply Rinv_le; lra|left; apply Rinv_0_lt_compat; lra|left; apply Rinv_0_lt_compat; lra].
    + exfalso. rewrite E0 in LD. rewrite (ext_finite D') in LD by auto. simpl in LD. pose proof (B2R_bounds D'). lra.
  - rewrite E'. destruct (Hinf _ eq_refl) as [_ ->]. rewrite Rabs_R0. apply Rabs_pos.
Qed.
Lemma fadd_mono_r h a b : ffinite h = true -> ffinite a = true -> ffinite b = true -> fleb a b = true -> fleb (fadd h a) (fadd h b) = true.
Proof.
  intros Fh Fa Fb H. destruct (fadd_ext h a Fh Fa) as [N1 E1]. destruct (fadd_ext h b Fh Fb) as [N2 E2].
  apply fleb_true in H as (_ & _ & H). rewrite !ext_finite in H by auto. apply fleb_true. split; [exact N1|]. split; [exact N2|].
  rewrite E1, E2. apply clamp_mono, rnd_mono. lra.
Qed.

Lemma c135_lambda_lemma E X o o' t t' d l r d' l' r' g h : NewTree E X o = Ok t -> NewTree E X o' = Ok t' -> sub (Node d l r) t -> sub (Node d' l' r') t' ->
  to_xgb o = true -> to_xgb o' = true -> to_grads o' = to_grads o -> to_hess o' = to_hess o -> samplesOf d' = samplesOf d ->
  Forall2 (look (orNil (to_grads o))) (samplesOf d) g -> Forall2 (look (orNil (to_hess o))) (samplesOf d) h ->
  ffinite (e_sum E g) = true -> ffinite (e_sum E h) = true -> ffinite (to_lambda o) = true -> ffinite (to_lambda o') = true ->
  fltb fzero (fadd (e_sum E h) (to_lambda o)) = true -> fleb (to_lambda o) (to_lambda o') = true ->
  fleb (magnitude (t_value d')) (magnitude (t_value d)) = true.
Proof.
  intros Ht Ht' Hd Hd' X1 X2 G1 G2 HS Hg Hh Fg Fh Fl Fl' HP HL.
  destruct (node_value E X o t d l r Ht Hd) as (ix & I1 & _ & _ & V). destruct (node_value E X o' t' d' l' r' Ht' Hd') as (ix' & I1' & _ & _ & V').
  rewrite X1 in V. rewrite X2, G1, G2 in V'. destruct V as (g1 & h1 & Q1 & Q2 & ->). destruct V' as (g2 & h2 & Q1' & Q2' & ->).
  unfold samplesOf in HS, Hg, Hh. rewrite I1 in *. rewrite I1' in HS. subst ix'.
  assert (g1 = g) by (eapply looks_fun; eauto). assert (g2 = g) by (eapply looks_fun; eauto). assert (h1 = h) by (eapply looks_fun; eauto). assert (h2 = h) by (eapply looks_fun; eauto). subst.
  apply quotient_shrinks; auto.
  - destruct (fofZ_exact50 1 ltac:(lia)) as [_ _]. assert (F1 : ffinite (fofZ (-1)) = true) by reflexivity.
    assert (E1 : B2R (fofZ (-1)) = (-1)%R).
    { assert (fofZ (-1) = fopp (fofZ 1)) as -> by (apply B2SF_inj; vm_compute; reflexivity). unfold fopp. rewrite B2R_Bopp.
      destruct (fofZ_exact50 1 ltac:(lia)) as [_ ->]. simpl. lra. }
    destruct (fmul_ext _ _ F1 Fg) as [N M]. rewrite E1 in M. replace (-1 * B2R (e_sum E g))%R with (- B2R (e_sum E g))%R in M by ring.
    rewrite rnd_opp, rnd_B2R in M. pose proof (B2R_bounds (e_sum E g)). rewrite clamp_id in M by lra.
    apply finite_ext; auto. rewrite M. lra.
  - apply fadd_mono_r; auto.
Qed.

(** ** Lambda in exact arithmetic *)
Open Scope R_scope.
Lemma c135_exact_lemma gl hl gr hr lam lam' gam : 0 <= hl -> 0 <= hr -> 0 < hl + lam -> 0 < hr + lam -> 0 <= gam -> lam <= lam' ->
  let gain l := xgbGain RN (1 / 2) gl hl gr hr (gl + gr) (hl + hr) l gam in
  0 < gain lam' -> gain lam' <= gain lam.
Proof.
  intros Hl Hr Pl Pr Hg HL gain. unfold gain, xgbGain, sq. cbn [RN nmul nsub nadd ndiv nofZ].
  set (a := hl + lam) in *. set (b := hr + lam) in *. set (c := hl + hr + lam) in *.
  assert (Hca : a <= c) by (unfold a, c; lra). assert (Hcb : b <= c) by (unfold b, c; lra).
  set (d := lam' - lam). assert (Hd : 0 <= d) by (unfold d; lra).
  replace (hl + lam') with (a + d) by (unfold a, d; ring). replace (hr + lam') with (b + d) by (unfold b, d; ring). replace (hl + hr + lam') with (c + d) by (unfold c, d; ring).
  intros H.
  set (A := gl * gl / (a + d)) in *. set (B := gr * gr / (b + d)) in *. set (C := (gl + gr) * (gl + gr) / (c + d)) in *.
  assert (HAB : C < A + B) by lra.
  assert (HA0 : 0 <= A) by (apply Rmult_le_pos; [nra|left; apply Rinv_0_lt_compat; lra]).
  assert (HB0 : 0 <= B) by (apply Rmult_le_pos; [nra|left; apply Rinv_0_lt_compat; lra]).
  assert (EA : gl * gl / a = A + A * (d / a)) by (unfold A; field; lra).
  assert (EB : gr * gr / b = B + B * (d / b)) by (unfold B; field; lra).
  assert (EC : (gl + gr) * (gl + gr) / c = C + C * (d / c)) by (unfold C; field; lra).
  rewrite EA, EB, EC.
  assert (Hac : d / c <= d / a) by (apply Rmult_le_compat_l; [auto|apply Rinv_le; lra]).
  assert (Hbc : d / c <= d / b) by (apply Rmult_le_compat_l; [auto|apply Rinv_le; lra]).
  assert (Hc0 : 0 <= d / c) by (apply Rmult_le_pos; [auto|left; apply Rinv_0_lt_compat; lra]).
  assert (A * (d / c) <= A * (d / a)) by (apply Rmult_le_compat_l; auto).
  assert (B * (d / c) <= B * (d / b)) by (apply Rmult_le_compat_l; auto).
  assert (C * (d / c) <= (A + B) * (d / c)) by (apply Rmult_le_compat_r; lra).
  lra.
Qed.
