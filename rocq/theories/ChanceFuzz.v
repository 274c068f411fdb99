(** The effect of fuzz on average and on the number of rounds (proof support for C163). *)
From Coq Require Import Reals Lra.
From Flocq Require Import Core BinarySingleNaN.
From Verif Require Import Base F64 F64Lemmas Env Utils Tree Options Train ActProofs TrainMore CV CVProofs SpecChance ChanceProofs RealProofs Grid Grad.
Local Open Scope R_scope.

Lemma symmetric_lemma u f q : fuzz RN u false f q + fuzz RN u true f q = 2 * f.
Proof. unfold fuzz. cbn. lra. Qed.
Lemma Ztrunc_pair R x : 0 <= x <= IZR R -> (Ztrunc (IZR R + x) + Ztrunc (IZR R - x) = 2 * R - (if Req_EM_T (IZR (Zfloor x)) x then 0 else 1))%Z.
Proof.
  intros H. rewrite !Ztrunc_floor by lra. pose proof (Zfloor_lb x). pose proof (Zfloor_ub x).
  assert (E1 : Zfloor (IZR R + x) = (R + Zfloor x)%Z). { apply Zfloor_imp. rewrite !plus_IZR. lra. }
  rewrite E1. destruct (Req_EM_T (IZR (Zfloor x)) x) as [e|ne].
  - assert (E2 : Zfloor (IZR R - x) = (R - Zfloor x)%Z). { apply Zfloor_imp. rewrite !plus_IZR, minus_IZR. lra. } lia.
  - assert (E2 : Zfloor (IZR R - x) = (R - Zfloor x - 1)%Z). { apply Zfloor_imp. rewrite !plus_IZR, !minus_IZR. lra. } lia.
Qed.
Lemma bias_lemma u q R : (0 <= R)%Z -> 0 <= u < 1 -> 0 <= q <= 1 ->
  (Ztrunc (fuzz RN u false (IZR R) q) + Ztrunc (fuzz RN u true (IZR R) q) = 2 * R - (if Req_EM_T (IZR (Zfloor (u * q * IZR R))) (u * q * IZR R) then 0 else 1))%Z.
Proof.
  intros HR Hu Hq. assert (0 <= IZR R) by (apply IZR_le; auto). rewrite <- Ztrunc_pair.
  - unfold fuzz. cbn. f_equal; f_equal; lra.
  - assert (0 <= u * q <= 1) by nra. split; nra.
Qed.

(** ** float64 *)
Lemma mul_b a b lo hi : ffinite a = true -> ffinite b = true -> rnd lo = lo -> rnd hi = hi -> - Mx < lo -> hi < Mx -> lo <= B2R a * B2R b <= hi ->
  ffinite (fmul a b) = true /\ lo <= B2R (fmul a b) <= hi.
Proof.
  intros Fa Fb El Eh Hl Hh H. destruct (fmul_ext a b Fa Fb) as [N E]. assert (Hr : lo <= rnd (B2R a * B2R b) <= hi) by (split; [rewrite <- El|rewrite <- Eh]; apply rnd_mono; lra).
  rewrite clamp_id in E by lra. assert (Ff : ffinite (fmul a b) = true) by (apply finite_ext; [auto|lra]). split; [auto|]. rewrite ext_finite in E by auto. lra.
Qed.
Lemma add_b a b lo hi : ffinite a = true -> ffinite b = true -> rnd lo = lo -> rnd hi = hi -> - Mx < lo -> hi < Mx -> lo <= B2R a + B2R b <= hi ->
  ffinite (fadd a b) = true /\ lo <= B2R (fadd a b) <= hi.
Proof.
  intros Fa Fb El Eh Hl Hh H. destruct (fadd_ext a b Fa Fb) as [N E]. assert (Hr : lo <= rnd (B2R a + B2R b) <= hi) by (split; [rewrite <- El|rewrite <- Eh]; apply rnd_mono; lra).
  rewrite clamp_id in E by lra. assert (Ff : ffinite (fadd a b) = true) by (apply finite_ext; [auto|lra]). split; [auto|]. rewrite ext_finite in E by auto. lra.
Qed.
Lemma ftoZ_real y : ffinite y = true -> Rabs (B2R y) < IZR (2 ^ 62) -> ftoZ y = Ztrunc (B2R y).
Proof.
  intros Fy H. assert (HB : Btrunc y = Ztrunc (B2R y)) by (apply eq_IZR; rewrite (Btrunc_correct 53 1024 Hemax), round_FIX_IZR; reflexivity).
  destruct y as [s|s| |s m e Hb]; try discriminate Fy.
  - cbn. symmetry. apply (Ztrunc_IZR 0).
  - unfold ftoZ. rewrite HB. assert (HZ : (Z.abs (Ztrunc (B2R (B754_finite s m e Hb))) < 2 ^ 62)%Z).
    { rewrite <- Ztrunc_abs. apply lt_IZR. rewrite Ztrunc_floor by apply Rabs_pos. eapply Rle_lt_trans; [apply Zfloor_lb|exact H]. }
    destruct (Z.leb_spec (-(2 ^ 63)) (Ztrunc (B2R (B754_finite s m e Hb)))), (Z.ltb_spec (Ztrunc (B2R (B754_finite s m e Hb))) (2 ^ 63)); cbn [andb]; auto; lia.
Qed.
Lemma rnd_dyadic n e : (Z.abs n < 2 ^ 53)%Z -> (-1074 <= - e)%Z -> (0 <= e)%Z -> rnd (IZR n / IZR (2 ^ e)) = IZR n / IZR (2 ^ e).
Proof. intros Hn He He'. unfold Rdiv. rewrite pow_bpow by auto. rewrite <- bpow_opp. apply rnd_scaled; auto. Qed.

Lemma rounds_lemma u neg q R : ffinite u = true -> 0 <= B2R u < 1 -> ffinite q = true -> 1 / 32 <= B2R q <= 1 -> (1 <= R < 2 ^ 20)%Z -> B2R q * IZR R <= 15 / 16 ->
  let R' := ftoZ (fuzz F u neg (fofZ R) q) in
  (R' = R \/ R' = R - 1)%Z /\ (neg = false -> R' = R) /\ (neg = true -> 1 / 1048576 <= B2R u -> R' = (R - 1)%Z).
Proof.
  intros Fu Hu Fq Hq HR HqR. destruct (fofZ_exact R ltac:(lia)) as [FR ER].
  assert (HM : IZR (2 ^ 62) < Mx). { unfold Mx. rewrite pow_bpow by lia. apply bpow_lt. lia. }
  assert (HM0 : 4194304 < IZR (2 ^ 62)) by (apply IZR_lt; lia).
  assert (HR1 : 1 <= IZR R <= 1048576) by (split; apply IZR_le; lia).
  set (lo := if Rle_dec (1 / 1048576) (B2R u) then 1 / 33554432 else 0).
  assert (Elo : rnd lo = lo). { unfold lo. destruct (Rle_dec _ _); [|apply rnd_0]. replace (1 / 33554432) with (IZR 1 / IZR (2 ^ 25)) by (simpl; lra). apply rnd_dyadic; lia. }
  assert (Hlo : 0 <= lo <= 1 / 33554432 /\ lo <= B2R u * B2R q). { unfold lo. destruct (Rle_dec _ _); split; try lra; nra. }
  destruct (mul_b u q lo (B2R q) Fu Fq Elo (rnd_B2R q)) as [F1 B1]; [lra|pose proof (B2R_bounds q); lra|split; [lra|nra]|].
  set (fu := fmul u q) in *.
  set (sg := if neg then fofZ (-1) else fofZ 1). set (sr := if neg then -1 else 1).
  assert (HS : ffinite sg = true /\ B2R sg = sr).
  { unfold sg, sr. destruct neg.
    - split; [vm_compute; reflexivity|]. assert (E : fofZ (-1) = Bopp fone) by (apply B2SF_inj; vm_compute; reflexivity). rewrite E. rewrite B2R_Bopp, B2R_fone. lra.
    - rewrite fofZ_1. split; [reflexivity|apply B2R_fone]. }
  destruct HS as [Fs Es]. destruct (fmul_ext sg fu Fs F1) as [N2 E2].
  assert (Hr2 : rnd (sr * B2R fu) = sr * B2R fu).
  { unfold sr. destruct neg; [replace (-1 * B2R fu) with (- B2R fu) by lra; rewrite rnd_opp, rnd_B2R; lra|rewrite Rmult_1_l; apply rnd_B2R]. }
  assert (Hsr : sr = 1 \/ sr = -1) by (unfold sr; destruct neg; auto).
  rewrite Es, Hr2, clamp_id in E2 by (destruct Hsr as [-> | ->]; lra).
  assert (F2 : ffinite (fmul sg fu) = true) by (apply finite_ext; [auto|destruct Hsr as [-> | ->]; lra]). rewrite ext_finite in E2 by auto.
  set (x := fmul (fmul sg fu) (fofZ R)).
  assert (Hx : ffinite x = true /\ (neg = false -> lo <= B2R x <= 15 / 16) /\ (neg = true -> - (15 / 16) <= B2R x <= - lo)).
  { assert (E15 : rnd (15 / 16) = 15 / 16) by (replace (15 / 16) with (IZR 15 / IZR (2 ^ 4)) by (simpl; lra); apply rnd_dyadic; lia).
    assert (HP : lo <= B2R fu * IZR R <= 15 / 16) by (split; nra).
    destruct neg; unfold sr in E2.
    - destruct (mul_b (fmul sg fu) (fofZ R) (- (15 / 16)) (- lo) F2 FR) as [G1 G2]; [rewrite rnd_opp, E15; auto|rewrite rnd_opp, Elo; auto|lra|lra|rewrite E2, ER; lra|].
      fold x in G1, G2. split; [auto|]. split; [discriminate|auto].
    - destruct (mul_b (fmul sg fu) (fofZ R) lo (15 / 16) F2 FR) as [G1 G2]; [auto|auto|lra|lra|rewrite E2, ER; lra|].
      fold x in G1, G2. split; [auto|]. split; [auto|discriminate]. }
  destruct Hx as (Fx & Hp & Hn).
  assert (EF : fuzz F u neg (fofZ R) q = fadd (fofZ R) x) by reflexivity. rewrite EF.
  assert (ER0 : rnd (IZR R) = IZR R) by (apply rnd_int; lia).
  destruct neg.
  - specialize (Hn eq_refl).
    assert (E1 : rnd (IZR R - 15 / 16) = IZR R - 15 / 16).
    { replace (IZR R - 15 / 16) with (IZR (16 * R - 15) / IZR (2 ^ 4)) by (rewrite minus_IZR, mult_IZR; simpl; lra). apply rnd_dyadic; lia. }
    assert (E3 : rnd (IZR R - lo) = IZR R - lo).
    { unfold lo. destruct (Rle_dec _ _); [|rewrite Rminus_0_r; auto].
      replace (IZR R - 1 / 33554432) with (IZR (33554432 * R - 1) / IZR (2 ^ 25)) by (rewrite minus_IZR, mult_IZR; simpl; lra). apply rnd_dyadic; lia. }
    destruct (add_b (fofZ R) x (IZR R - 15 / 16) (IZR R - lo) FR Fx E1 E3) as [Fy Hy]; [lra|lra|rewrite ER; lra|].
    set (y := fadd (fofZ R) x) in *. rewrite ftoZ_real by (auto; rewrite Rabs_pos_eq by lra; lra).
    rewrite Ztrunc_floor by lra. cbn zeta.
    assert (HC : Zfloor (B2R y) = R \/ Zfloor (B2R y) = (R - 1)%Z).
    { destruct (Rle_dec (IZR R) (B2R y)) as [HL|HL]; [left|right]; apply Zfloor_imp; rewrite ?plus_IZR, ?minus_IZR; lra. }
    split; [auto|]. split; [discriminate|]. intros _ Hu'. unfold lo in *. destruct (Rle_dec (1 / 1048576) (B2R u)); [|lra]. apply Zfloor_imp. rewrite ?plus_IZR, ?minus_IZR. lra.
  - specialize (Hp eq_refl).
    assert (E1 : rnd (IZR R + 15 / 16) = IZR R + 15 / 16).
    { replace (IZR R + 15 / 16) with (IZR (16 * R + 15) / IZR (2 ^ 4)) by (rewrite plus_IZR, mult_IZR; simpl; lra). apply rnd_dyadic; lia. }
    destruct (add_b (fofZ R) x (IZR R) (IZR R + 15 / 16) FR Fx ER0 E1) as [Fy Hy]; [lra|lra|rewrite ER; lra|].
    set (y := fadd (fofZ R) x) in *. rewrite ftoZ_real by (auto; rewrite Rabs_pos_eq by lra; lra).
    rewrite Ztrunc_floor by lra. cbn zeta. assert (HC : Zfloor (B2R y) = R) by (apply Zfloor_imp; rewrite ?plus_IZR; lra).
    split; [auto|]. split; [auto|discriminate].
Qed.

(** ** fuzzOptions as the library calls it: with 0.1, or with 0.2 *)
Definition percOf (perc : option f64) : f64 := match perc with Some x => if fltb fzero x then x else fdec 1 10 | None => fdec 1 10 end.
Lemma dyadic_le a n : fleb a (fdiv (fofZ n) (fofZ (2 ^ 7))) = true -> ffinite a = true -> (0 <= n < 2 ^ 7)%Z -> B2R a <= IZR n / 128.
Proof.
  intros H Fa Hn. apply fleb_true in H as (_ & _ & H). destruct (unit_value 7 n ltac:(lia) Hn) as [_ E]. rewrite E, ext_finite in H by auto. simpl in H. lra.
Qed.
Lemma dyadic_ge a n : fleb (fdiv (fofZ n) (fofZ (2 ^ 7))) a = true -> ffinite a = true -> (0 <= n < 2 ^ 7)%Z -> IZR n / 128 <= B2R a.
Proof.
  intros H Fa Hn. apply fleb_true in H as (_ & _ & H). destruct (unit_value 7 n ltac:(lia) Hn) as [_ E]. rewrite E, ext_finite in H by auto. simpl in H. lra.
Qed.
Lemma library_q perc most : libraryPerc perc most -> ffinite (percOf perc) = true /\ 1 / 32 <= B2R (percOf perc) <= 1 /\ B2R (percOf perc) * IZR most <= 15 / 16 /\ (most <= 9)%Z.
Proof.
  assert (F1 : ffinite (fdec 1 10) = true) by (vm_compute; reflexivity). assert (F2 : ffinite (fdec 2 10) = true) by (vm_compute; reflexivity).
  assert (U1 := dyadic_le (fdec 1 10) 13 ltac:(vm_compute; reflexivity) F1 ltac:(lia)). assert (U2 := dyadic_le (fdec 2 10) 29 ltac:(vm_compute; reflexivity) F2 ltac:(lia)).
  assert (L1 := dyadic_ge (fdec 1 10) 4 ltac:(vm_compute; reflexivity) F1 ltac:(lia)). assert (L2 := dyadic_ge (fdec 2 10) 4 ltac:(vm_compute; reflexivity) F2 ltac:(lia)).
  intros [[-> ->]|[-> ->]]; unfold percOf.
  - repeat split; auto; lra || lia.
  - assert (E : fltb fzero (fdec 2 10) = true) by (vm_compute; reflexivity). rewrite E. repeat split; auto; lra || lia.
Qed.
Lemma small_lemma d perc most o : libraryPerc perc most -> ffinite (fst (d 0%nat)) = true -> 0 <= B2R (fst (d 0%nat)) < 1 -> (1 <= o_rounds o <= most)%Z ->
  let R := o_rounds o in let R' := o_rounds (fuzzOptions d perc o) in
  (R' = R \/ R' = R - 1)%Z /\ (snd (d 0%nat) = false -> R' = R) /\ (snd (d 0%nat) = true -> 1 / 1048576 <= B2R (fst (d 0%nat)) -> R' = (R - 1)%Z).
Proof.
  intros HL Fu Hu HR. destruct (library_q perc most HL) as (Fq & Hq & Hm & H9). cbn zeta.
  change (o_rounds (fuzzOptions d perc o)) with (ftoZ (fuzz F (fst (d 0%nat)) (snd (d 0%nat)) (fofZ (o_rounds o)) (percOf perc))).
  apply rounds_lemma; auto; [lia|]. assert (IZR (o_rounds o) <= IZR most) by (apply IZR_le; lia). nra.
Qed.
Lemma zero_lemma d perc o : ffinite (fst (d 0%nat)) = true -> 0 <= B2R (fst (d 0%nat)) < 1 -> ffinite (percOf perc) = true -> 1 / 32 <= B2R (percOf perc) <= 1 -> o_rounds o = 0%Z -> o_rounds (fuzzOptions d perc o) = 0%Z.
Proof.
  intros Fu Hu Fq Hq E. change (o_rounds (fuzzOptions d perc o)) with (ftoZ (fuzz F (fst (d 0%nat)) (snd (d 0%nat)) (fofZ (o_rounds o)) (percOf perc))). rewrite E.
  assert (HM : 4 < Mx). { unfold Mx. apply Rlt_trans with (bpow radix2 3); [simpl; lra|apply bpow_lt; lia]. }
  destruct (mul_b _ _ 0 1 Fu Fq rnd_0 rnd_1) as [F1 B1]; [lra|lra|nra|].
  set (fu := fmul (fst (d 0%nat)) (percOf perc)) in *.
  assert (H : exists x, ffinite x = true /\ B2R x = 0 /\ fuzz F (fst (d 0%nat)) (snd (d 0%nat)) (fofZ 0) (percOf perc) = fadd (fofZ 0) x).
  { destruct (fofZ_exact 0 ltac:(lia)) as [F0 E0].
    assert (G : ffinite (fmul (if snd (d 0%nat) then fofZ (-1) else fofZ 1) fu) = true).
    { destruct (snd (d 0%nat)).
      - assert (E1 : fofZ (-1) = Bopp fone) by (apply B2SF_inj; vm_compute; reflexivity).
        refine (proj1 (mul_b _ _ (-1) 1 _ F1 _ rnd_1 _ _ _)); [vm_compute; reflexivity|replace (-1) with (- (1)) by lra; rewrite rnd_opp, rnd_1; auto|lra|lra|rewrite E1, B2R_Bopp, B2R_fone; lra].
      - refine (proj1 (mul_b _ _ (-1) 1 _ F1 _ rnd_1 _ _ _)); [vm_compute; reflexivity|replace (-1) with (- (1)) by lra; rewrite rnd_opp, rnd_1; auto|lra|lra|rewrite fofZ_1, B2R_fone; lra]. }
    exists (fmul (fmul (if snd (d 0%nat) then fofZ (-1) else fofZ 1) fu) (fofZ 0)). destruct (mul_b _ (fofZ 0) 0 0 G F0 rnd_0 rnd_0) as [G1 G2]; [lra|lra|rewrite E0; lra|]. split; [auto|]. split; [lra|reflexivity]. }
  destruct H as (x & Fx & Ex & ->). destruct (fofZ_exact 0 ltac:(lia)) as [F0 E0]. destruct (add_b (fofZ 0) x 0 0 F0 Fx rnd_0 rnd_0) as [G1 G2]; [lra|lra|rewrite E0, Ex; lra|].
  rewrite ftoZ_real; [|auto|]. 2: { rewrite Rabs_pos_eq by lra. apply Rle_lt_trans with 0; [lra|]. apply IZR_lt. lia. }
  replace (B2R (fadd (fofZ 0) x)) with (IZR 0) by lra. apply Ztrunc_IZR.
Qed.
Lemma never_back_lemma perc most ds : libraryPerc perc most -> (forall d, In d ds -> ffinite (fst (d 0%nat)) = true /\ 0 <= B2R (fst (d 0%nat)) < 1) ->
  forall o, (0 <= o_rounds o <= most)%Z -> (0 <= o_rounds (fold_left (fun o d => fuzzOptions d perc o) ds o) <= o_rounds o)%Z.
Proof.
  intros HL. destruct (library_q perc most HL) as (Fq & Hq & _ & _). induction ds as [|d ds IH]; intros HD o HO; cbn [fold_left]; [lia|].
  destruct (HD d (or_introl eq_refl)) as [Fu Hu].
  assert (HS : (0 <= o_rounds (fuzzOptions d perc o) <= o_rounds o)%Z).
  { destruct (Z.eq_dec (o_rounds o) 0) as [E|E]; [rewrite zero_lemma by auto; lia|]. destruct (small_lemma d perc most o HL Fu Hu ltac:(lia)) as [HS _]. cbn zeta in HS. lia. }
  specialize (IH ltac:(intros d' Hd'; apply HD; right; auto) (fuzzOptions d perc o) ltac:(lia)). lia.
Qed.
