(** Floating point facts about the gradient steps. *)
From Coq Require Import Reals Lra Psatz.
From Flocq Require Import Relative.
From Verif Require Import Base F64 F64Lemmas Env EnvLemmas Utils Tree Options Train Spec CV SpecCV CVProofs Grid SpecGrid GridProofs Grad GradConc SpecGrad GradProofs.
Open Scope R_scope.

(** ** fuzz *)
Lemma fuzz_real u neg f q : 0 <= u < 1 -> Rabs (fuzz RN u neg f q - f) <= Rabs (q * f).
Proof.
  intros Hu. assert (HX : exists sg, Rabs sg = 1 /\ fuzz RN u neg f q - f = sg * (u * (q * f))).
  { destruct neg; [exists (-1)|exists 1]; (split; [unfold Rabs; destruct (Rcase_abs _); lra|unfold fuzz; cbn; ring]). }
  destruct HX as (sg & HS & ->). rewrite Rabs_mult, HS, Rmult_1_l, (Rabs_mult u), (Rabs_pos_eq u) by lra. pose proof (Rabs_pos (q * f)). nra.
Qed.
Lemma finite_B2R a r : fnanb a = false -> ext a = r -> Rabs r < Mx -> ffinite a = true /\ B2R a = r.
Proof.
  intros H1 H2 H3. apply Rabs_def2 in H3. assert (ffinite a = true) as Hf by (apply finite_ext; auto; lra). split; auto. rewrite <- ext_finite by auto. exact H2.
Qed.
Lemma clamp_lt x : Rabs x < Mx -> clamp x = x.
Proof. intros H. apply clamp_id. apply Rabs_def2 in H. lra. Qed.
Lemma rnd_abs_le x (y : f64) : Rabs x <= Rabs (B2R y) -> Rabs (rnd x) <= Rabs (B2R y).
Proof.
  intros H. assert (HY : rnd (Rabs (B2R y)) = Rabs (B2R y)).
  { unfold Rabs. destruct (Rcase_abs _); [rewrite rnd_opp|]; rewrite rnd_B2R; reflexivity. }
  rewrite <- HY. apply Rabs_le. split.
  - rewrite <- rnd_opp. apply rnd_mono. apply Rabs_le_inv in H. lra.
  - apply rnd_mono. apply Rabs_le_inv in H. lra.
Qed.
Lemma fmul_small a b (y : f64) : ffinite a = true -> ffinite b = true -> Rabs (B2R a * B2R b) <= Rabs (B2R y) ->
  ffinite (fmul a b) = true /\ B2R (fmul a b) = rnd (B2R a * B2R b).
Proof.
  intros Ha Hb H. destruct (fmul_ext a b Ha Hb) as [H1 H2]. assert (Rabs (rnd (B2R a * B2R b)) < Mx).
  { eapply Rle_lt_trans; [apply rnd_abs_le; exact H|]. apply abs_B2R_lt. }
  apply finite_B2R; auto. rewrite H2. apply clamp_lt; auto.
Qed.
Lemma sign_ok (neg : bool) : ffinite (if neg then fofZ (-1) else fofZ 1) = true /\ B2R (if neg then fofZ (-1) else fofZ 1) = if neg then -1 else 1.
Proof.
  destruct neg; (split; [reflexivity|]); rewrite <- SF2R_B2SF.
  - assert (E : B2SF (fofZ (-1)) = SpecFloat.S754_finite true 4503599627370496 (-52)) by (vm_compute; reflexivity). rewrite E. unfold SF2R, F2R. cbn. lra.
  - assert (E : B2SF (fofZ 1) = SpecFloat.S754_finite false 4503599627370496 (-52)) by (vm_compute; reflexivity). rewrite E. unfold SF2R, F2R. cbn. lra.
Qed.
Lemma fuzz_gen s sg u f q : ffinite s = true -> B2R s = sg -> (sg = 1 \/ sg = -1) ->
  ffinite u = true -> 0 <= B2R u < 1 -> ffinite q = true -> 0 <= B2R q <= 1 -> ffinite f = true -> fuzzed q f (fadd f (fmul (fmul s (fmul u q)) f)).
Proof.
  intros Fs Hs Hsg Fu Hu Fq Hq Ff.
  destruct (fmul_small u q q Fu Fq) as [F1 H1]; [rewrite Rabs_mult, (Rabs_pos_eq (B2R u)) by lra; pose proof (Rabs_pos (B2R q)); nra|].
  assert (B1 : 0 <= B2R (fmul u q) <= B2R q).
  { rewrite H1. split; [apply rnd_ge_0; nra|]. rewrite <- (rnd_B2R q) at 2. apply rnd_mono. nra. }
  assert (AS : Rabs (B2R s) = 1) by (rewrite Hs; unfold Rabs; destruct (Rcase_abs _); lra).
  destruct (fmul_small s (fmul u q) (fmul u q) Fs F1) as [F2 H2]; [rewrite Rabs_mult, AS; lra|].
  assert (B2 : B2R (fmul s (fmul u q)) = B2R s * B2R (fmul u q)).
  { rewrite H2, Hs. destruct Hsg as [-> | ->]; [rewrite Rmult_1_l|replace (-1 * B2R (fmul u q)) with (- B2R (fmul u q)) by ring; rewrite rnd_opp]; rewrite rnd_B2R; ring. }
  assert (A2 : Rabs (B2R (fmul s (fmul u q))) <= B2R q) by (rewrite B2, Rabs_mult, AS, Rabs_pos_eq; lra).
  destruct (fmul_small (fmul s (fmul u q)) f f F2 Ff) as [F3 H3]; [rewrite Rabs_mult; pose proof (Rabs_pos (B2R f)); pose proof (Rabs_pos (B2R (fmul s (fmul u q)))); nra|].
  assert (FA : ffinite (Babs f) = true) by (unfold ffinite; rewrite is_finite_Babs; exact Ff).
  assert (HA : B2R (Babs f) = Rabs (B2R f)) by apply B2R_Babs.
  destruct (fmul_small q (Babs f) f Fq FA) as [F4 H4]; [rewrite HA, Rabs_mult, Rabs_Rabsolu, (Rabs_pos_eq (B2R q)) by lra; pose proof (Rabs_pos (B2R f)); nra|].
  assert (HB : - B2R (fmul q (Babs f)) <= B2R (fmul (fmul s (fmul u q)) f) <= B2R (fmul q (Babs f))).
  { rewrite H3, H4, HA. assert (Rabs (B2R (fmul s (fmul u q)) * B2R f) <= B2R q * Rabs (B2R f)) as HX.
    { rewrite Rabs_mult. pose proof (Rabs_pos (B2R f)). nra. }
    apply Rabs_le_inv in HX. split; [rewrite <- rnd_opp|]; apply rnd_mono; lra. }
  destruct (fadd_ext f _ Ff F3) as [N1 E1]. destruct (fadd_ext f _ Ff F4) as [N2 E2]. destruct (fsub_ext f _ Ff F4) as [N3 E3].
  split; apply fleb_true; (split; [auto|split; [auto|]]); rewrite E1, ?E2, ?E3; apply clamp_mono, rnd_mono; lra.
Qed.
Lemma fuzz_float u neg f q : ffinite u = true -> 0 <= B2R u < 1 -> ffinite q = true -> 0 <= B2R q <= 1 -> ffinite f = true -> fuzzed q f (fuzz F u neg f q).
Proof.
  intros. destruct neg; unfold fuzz.
  - destruct (sign_ok true). apply (fuzz_gen (fofZ (-1)) (-1)); auto.
  - destruct (sign_ok false). apply (fuzz_gen (fofZ 1) 1); auto.
Qed.
Lemma fuzz_options d perc o : let q := match perc with Some x => if fltb fzero x then x else fdec 1 10 | None => fdec 1 10 end in
  ffinite q = true -> B2R q <= 1 -> (forall i, ffinite (fst (d i)) = true /\ 0 <= B2R (fst (d i)) < 1) ->
  ffinite (o_ss o) = true -> ffinite (o_css o) = true -> ffinite (o_lambda o) = true -> ffinite (o_gamma o) = true -> ffinite (o_lr o) = true -> ffinite (o_base o) = true ->
  let o' := fuzzOptions d perc o in
  fuzzed q (o_ss o) (o_ss o') /\ fuzzed q (o_css o) (o_css o') /\ fuzzed q (o_lambda o) (o_lambda o') /\ fuzzed q (o_gamma o) (o_gamma o') /\
  fuzzed q (o_lr o) (o_lr o') /\ fuzzed q (o_base o) (o_base o') /\ (exists x, (ffinite (fofZ (o_rounds o)) = true -> fuzzed q (fofZ (o_rounds o)) x) /\ o_rounds o' = ftoZ x) /\
  (o_xgb o', o_maxdepth o', o_earlystop o', o_mcw o', o_minsample o', o_method o', o_verbose o', o_loss o') =
  (o_xgb o, o_maxdepth o, o_earlystop o, o_mcw o, o_minsample o, o_method o, o_verbose o, o_loss o).
Proof.
  intros q Fq Hq Hd F1 F2 F3 F4 F5 F6. assert (Q0 : 0 <= B2R q).
  { unfold q. assert (0 <= B2R (fdec 1 10)) by (apply Bsign_ge0; vm_compute; reflexivity).
    destruct perc as [x|]; auto. destruct (fltb fzero x) eqn:E; auto. unfold q in Fq. try rewrite E in Fq. apply fltb_true in E as (_ & _ & E).
    rewrite (ext_finite x Fq) in E. cbn in E. lra. }
  assert (HF : forall i f, ffinite f = true -> fuzzed q f (fuzz F (fst (d i)) (snd (d i)) f q)).
  { intros i f Hf. destruct (Hd i). apply fuzz_float; auto. }
  intros o'. assert (E : exists fz : nat -> f64 -> f64, (forall i f, ffinite f = true -> fuzzed q f (fz i f)) /\
    o' = MkOpts (o_xgb o) (ftoZ (fz 0%nat (fofZ (o_rounds o)))) (o_maxdepth o) (o_earlystop o) (fz 5%nat (o_lr o)) (fz 3%nat (o_lambda o)) (o_mcw o)
         (fz 4%nat (o_gamma o)) (fz 1%nat (o_ss o)) (fz 2%nat (o_css o)) (fz 6%nat (o_base o)) (o_minsample o) (o_method o) (o_verbose o) (o_loss o)).
  { exists (fun i f => fuzz F (fst (d i)) (snd (d i)) f q). split; [exact HF|reflexivity]. }
  destruct E as (fz & HZ & E). clearbody o'. subst o'. clear - HZ F1 F2 F3 F4 F5 F6.
  cbn [o_xgb o_rounds o_maxdepth o_earlystop o_lr o_lambda o_mcw o_gamma o_ss o_css o_base o_minsample o_method o_verbose o_loss].
  split; [apply HZ; assumption|]. split; [apply HZ; assumption|]. split; [apply HZ; assumption|]. split; [apply HZ; assumption|]. split; [apply HZ; assumption|].
  split; [apply HZ; assumption|]. split; [|reflexivity]. eexists. split; [|reflexivity]. intros H. apply HZ. exact H.
Qed.

(** ** the central difference *)
Lemma central_real pacc macc h : h <> 0 -> centralDer RN pacc macc h = (pacc - macc) / (2 * h) <-> pacc = macc \/ h = 1 \/ h = -1.
Proof.
  intros Hh. change ((pacc - macc) / 2 * h = (pacc - macc) / (2 * h) <-> pacc = macc \/ h = 1 \/ h = -1). split.
  - intros H. destruct (Req_dec pacc macc) as [E|E]; [auto|right]. assert (HX : (pacc - macc) * (h * h - 1) = 0).
    { apply (f_equal (fun x => x * (2 * h))) in H. replace ((pacc - macc) / (2 * h) * (2 * h)) with (pacc - macc) in H by (field; auto).
      replace ((pacc - macc) / 2 * h * (2 * h)) with ((pacc - macc) * (h * h)) in H by field. lra. }
    apply Rmult_integral in HX as [HX|HX]; [lra|]. assert ((h - 1) * (h + 1) = 0) as HY by lra. apply Rmult_integral in HY as [HY|HY]; [left|right]; lra.
  - intros [->|[-> | ->]]; field; auto; lra.
Qed.

(** ** the trial loop *)
Lemma rnd_rel x : bpow radix2 (-1022) <= Rabs x -> Rabs (rnd x - x) <= bpow radix2 (-53) * Rabs x.
Proof.
  intros H. pose proof (relative_error_N_FLT radix2 (-1074) 53 ltac:(lia) (fun n => negb (Z.even n)) x) as HR.
  unfold rnd. change (SpecFloat.fexp 53 1024) with (FLT_exp (-1074) 53). eapply Rle_trans; [apply HR; exact H|].
  apply Rmult_le_compat_r; [apply Rabs_pos|]. apply Req_le. change (-53 + 1)%Z with (1 + -53)%Z. rewrite bpow_plus. change (bpow radix2 1) with 2. change (- (53))%Z with (-53)%Z. lra.
Qed.
Lemma eps_small : 0 < bpow radix2 (-53) <= / 1000000.
Proof.
  split; [apply bpow_gt_0|]. change (bpow radix2 (-53)) with (/ IZR (2 ^ 53)). apply Rinv_le_contravar; [lra|]. apply IZR_le. vm_compute. discriminate.
Qed.
Lemma B2R_tenth : / 10 - / 1000000 <= B2R (fdec 1 10) <= / 10 + / 1000000.
Proof.
  assert (E : B2SF (fdec 1 10) = SpecFloat.S754_finite false 7205759403792794 (-56)) by (vm_compute; reflexivity).
  rewrite <- SF2R_B2SF, E. unfold SF2R, F2R. cbn [cond_Zopp Fnum Fexp]. change (bpow radix2 (-56)) with (/ IZR (2 ^ 56)). change (2 ^ 56)%Z with 72057594037927936%Z. lra.
Qed.
Lemma B2R_fifth : / 5 - / 1000000 <= B2R (fdec 2 10) <= / 5 + / 1000000.
Proof.
  assert (E : B2SF (fdec 2 10) = SpecFloat.S754_finite false 7205759403792794 (-55)) by (vm_compute; reflexivity).
  rewrite <- SF2R_B2SF, E. unfold SF2R, F2R. cbn [cond_Zopp Fnum Fexp]. change (bpow radix2 (-55)) with (/ IZR (2 ^ 55)). change (2 ^ 55)%Z with 36028797018963968%Z. lra.
Qed.
Lemma bp a b : (a <= b)%Z -> bpow radix2 a <= bpow radix2 b. Proof. apply bpow_le. Qed.
Lemma shrink st : ffinite st = true -> bpow radix2 (-1000) <= B2R st ->
  let st' := fsub st (fmul st (fdec 2 10)) in ffinite st' = true /\ B2R st' <= 0.81 * B2R st.
Proof.
  intros Ff H. pose proof B2R_fifth as HC. set (c := fdec 2 10) in *. assert (Fc : ffinite c = true) by (vm_compute; reflexivity).
  pose proof eps_small as HE. set (e := bpow radix2 (-53)) in *. pose proof (bpow_gt_0 radix2 (-1000)) as HP.
  assert (S1 : bpow radix2 (-1010) * 1024 = bpow radix2 (-1000)) by (change (-1000)%Z with (-1010 + 10)%Z; rewrite bpow_plus; reflexivity).
  pose proof (bpow_gt_0 radix2 (-1010)) as HP2. pose proof (bp (-1022) (-1010) ltac:(lia)) as HP3. set (s := B2R st) in *. set (t := bpow radix2 (-1010)) in *.
  assert (Y0 : t <= s * B2R c) by nra. assert (Y1 : Rabs (s * B2R c) = s * B2R c) by (apply Rabs_pos_eq; nra).
  destruct (fmul_small st c st Ff Fc) as [F1 H1]; [fold s; rewrite Y1, (Rabs_pos_eq s) by lra; nra|]. fold s in H1.
  pose proof (rnd_rel (s * B2R c)) as R1. rewrite Y1 in R1. specialize (R1 ltac:(lra)). rewrite <- H1 in R1. fold e in R1. apply Rabs_le_inv in R1. set (y := B2R (fmul st c)) in *.
  assert (Hy : 0.19 * s <= y <= 0.21 * s) by nra.
  destruct (fsub_ext st (fmul st c) Ff F1) as [N2 E2]. fold s y in E2.
  assert (R2 : Rabs (s - y) = s - y) by (apply Rabs_pos_eq; nra). pose proof (rnd_rel (s - y)) as R3. rewrite R2 in R3. specialize (R3 ltac:(nra)). fold e in R3. apply Rabs_le_inv in R3.
  assert (HM : s < Mx) by apply (B2R_bounds st). assert (HY : 0 <= rnd (s - y) <= s) by nra.
  destruct (finite_B2R _ (rnd (s - y)) N2) as [F3 H3]; [rewrite E2; apply clamp_lt; rewrite Rabs_pos_eq; lra|rewrite Rabs_pos_eq; lra|].
  split; [exact F3|]. rewrite H3. assert (y >= s * B2R c - e * (s * B2R c)) by lra. assert (B2R c * (1 - e) >= 0.1999) by nra.
  assert (y >= 0.1999 * s) by nra. nra.
Qed.
Lemma trial_ends co p der step prev : ffinite step = true -> bpow radix2 (-990) <= B2R step -> forall n st O,
  ffinite st = true -> B2R st * 0.81 ^ n <= 0.0999 * B2R step -> exists O', trialLoop (S n) co p der step st O prev = Ok O'.
Proof.
  intros Fs Hs. pose proof B2R_tenth as HC. set (c := fdec 1 10) in *. assert (Fc : ffinite c = true) by (vm_compute; reflexivity).
  pose proof eps_small as HE. pose proof (bpow_gt_0 radix2 (-1000)) as HP.
  assert (S1 : bpow radix2 (-1000) * 1024 = bpow radix2 (-990)) by (change (-990)%Z with (-1000 + 10)%Z; rewrite bpow_plus; reflexivity).
  pose proof (bp (-1022) (-1000) ltac:(lia)) as HP3. set (x := B2R step) in *.
  assert (T : ffinite (fmul c step) = true /\ 0.0999 * x <= B2R (fmul c step)).
  { assert (Y1 : Rabs (B2R c * x) = B2R c * x) by (apply Rabs_pos_eq; nra). destruct (fmul_small c step step Fc Fs) as [F1 H1]; [fold x; rewrite Y1, (Rabs_pos_eq x) by lra; nra|].
    split; [exact F1|]. rewrite H1. fold x. pose proof (rnd_rel (B2R c * x)) as R1. rewrite Y1 in R1. specialize (R1 ltac:(nra)). apply Rabs_le_inv in R1.
    assert (B2R c * (1 - bpow radix2 (-53)) >= 0.0999) by nra. nra. }
  destruct T as [F1 T]. induction n as [|n IH]; intros st O Fst H; cbn [trialLoop]; change (fdec 1 10) with c; destruct (fltb (fmul c step) st) eqn:E; try (eauto; fail);
    apply fltb_true in E as (_ & _ & E); rewrite (ext_finite _ F1), (ext_finite _ Fst) in E.
  - cbn [pow] in H. lra.
  - destruct (move co der st p O) as [O1|]; [|eauto]. destruct (checkAgainstOptions O1 co); [eauto|].
    destruct (shrink st Fst ltac:(nra)) as [F2 H2]. apply IH; auto. cbn [pow] in H. assert (0 < 0.81 ^ n) by (apply pow_lt; lra). nra.
Qed.
Lemma trial_total co p der step prev O fuel : (12 <= fuel)%nat -> (fltb fzero step = true -> fleb (flit 1 (-990)) step = true) ->
  exists O', trialLoop fuel co p der step step O prev = Ok O'.
Proof.
  intros Hfu H. destruct (fltb (fmul (fdec 1 10) step) step) eqn:E.
  - assert (HX : ffinite step = true /\ bpow radix2 (-990) <= B2R step).
    { assert (HL : ffinite (flit 1 (-990)) = true /\ B2R (flit 1 (-990)) = bpow radix2 (-990)).
      { split; [vm_compute; reflexivity|]. assert (E0 : B2SF (flit 1 (-990)) = SpecFloat.S754_finite false 4503599627370496 (-1042)) by (vm_compute; reflexivity).
        rewrite <- SF2R_B2SF, E0. unfold SF2R, F2R. cbn [cond_Zopp Fnum Fexp]. change (IZR 4503599627370496) with (IZR (Zpower radix2 52)). rewrite IZR_Zpower by lia. rewrite <- bpow_plus. reflexivity. }
      destruct HL as [FL HL].
      destruct step as [s|[|]| |[|] m e B].
      - exfalso. destruct s; vm_compute in E; discriminate E.
      - exfalso. vm_compute in E; discriminate E.
      - exfalso. vm_compute in E; discriminate E.
      - exfalso. vm_compute in E; discriminate E.
      - exfalso. apply fltb_true in E as (_ & _ & E). rewrite (ext_finite (B754_finite true m e B) eq_refl) in E. set (x := B754_finite true m e B) in *.
        assert (Hx : B2R x <= 0) by (apply Bsign_le0; reflexivity). pose proof B2R_tenth as HC. assert (Fc : ffinite (fdec 1 10) = true) by (vm_compute; reflexivity).
        assert (AX : Rabs (B2R (fdec 1 10) * B2R x) <= Rabs (B2R x)) by (rewrite Rabs_mult, (Rabs_pos_eq (B2R (fdec 1 10))) by lra; pose proof (Rabs_pos (B2R x)); nra).
        destruct (fmul_small (fdec 1 10) x x Fc eq_refl AX) as [F1 H1]. rewrite (ext_finite _ F1) in E. pose proof (rnd_abs_le _ x AX) as HA. rewrite <- H1 in HA.
        rewrite (Rabs_left1 (B2R x)) in HA by lra. apply Rabs_le_inv in HA. lra.
      - split; [reflexivity|]. set (x := B754_finite false m e B) in *. specialize (H eq_refl). apply fleb_true in H as (_ & _ & H). rewrite (ext_finite _ FL), (ext_finite x eq_refl), HL in H. exact H. }
    destruct HX as [F1 H1]. pose proof (trial_ends co p der step prev F1 H1 (Nat.pred fuel) step O F1) as HT. replace (S (Nat.pred fuel)) with fuel in HT by lia. apply HT.
    pose proof (bpow_gt_0 radix2 (-990)). assert (0.81 ^ Nat.pred fuel <= 0.0999); [|nra].
    assert (0.81 ^ 11 <= 0.0999) by (cbn [pow]; lra). eapply Rle_trans; [|eassumption].
    replace (Nat.pred fuel) with (11 + (fuel - 12))%nat by lia. rewrite pow_add. assert (0 <= 0.81 ^ 11) by (apply pow_le; lra).
    assert (0.81 ^ (fuel - 12) <= 1); [|nra]. rewrite <- (pow1 (fuel - 12)). apply pow_incr. lra.
  - destruct fuel as [|f]; [lia|]. cbn [trialLoop]. rewrite E. eauto.
Qed.
