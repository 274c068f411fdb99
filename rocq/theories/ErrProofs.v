(** Proofs of the error bounds (C113-C116). *)
From Coq Require Import ZArith Reals Lra Psatz.
From Verif Require Import Base F64 F64Lemmas Env EnvLemmas Utils UtilsProofs UtilsThms ActProofs Tree TreeProofs TreeThms Spec Options Train SpecTrain TrainProofs TrainThms TrainMore Examples TrainEx RealProofs NumErr SpecErr.
Open Scope R_scope.

Lemma fits_lin n k : fits n -> (k <= 2 ^ 50)%Z -> (0 <= k)%Z -> INR (n + Z.to_nat k) * uu <= / 2 /\ (1 + uu) ^ (n + Z.to_nat k) - 1 <= 2 * (INR n + IZR k) * uu.
Proof.
  intros H Hk Hk0. unfold fits in H. assert (Hn : INR n <= 1125899906842624). { rewrite INR_IZR_INZ. apply IZR_le in H. exact H. }
  assert (He : INR (n + Z.to_nat k) = INR n + IZR k). { rewrite plus_INR. f_equal. rewrite INR_IZR_INZ, Z2Nat.id by auto. reflexivity. }
  assert (Hk' : IZR k <= 1125899906842624). { apply IZR_le in Hk. exact Hk. }
  assert (Hb : INR (n + Z.to_nat k) * uu <= / 2). { rewrite He, uu_val. lra. }
  split; [auto|]. pose proof (pow_lin _ Hb). rewrite He in *. lra.
Qed.
Lemma one_uu : 0 < uu /\ uu <= / 1000000.
Proof. split; [apply uu_pos|rewrite uu_val; lra]. Qed.
Lemma Rabs_le' x a : Rabs x <= a -> - a <= x <= a.
Proof. intros H. pose proof (Rle_abs x). pose proof (Rle_abs (- x)). rewrite Rabs_Ropp in *. lra. Qed.

Lemma Ok_inj' {A} (a b : A) : Ok a = Ok b -> a = b. Proof. intros H. injection H. auto. Qed.

(** ** The loss *)
Definition sqd (q : f64 * f64) : R := (B2R (fst q) - B2R (snd q)) * (B2R (fst q) - B2R (snd q)).
Lemma sqd_nn q : 0 <= sqd q. Proof. unfold sqd. apply (Rle_0_sqr (B2R (fst q) - B2R (snd q))). Qed.
Lemma square_error a b : ffinite (fmul (fsub a b) (fsub a b)) = true -> ffinite a = true /\ ffinite b = true /\
  Rabs (B2R (fmul (fsub a b) (fsub a b)) - sqd (a, b)) <= ((1 + uu) ^ 3 - 1) * sqd (a, b) + ee.
Proof.
  intros H. destruct (fmul_real _ _ H) as (H1 & _ & H2). destruct (fsub_real _ _ H1) as (Fa & Fb & H3). split; [auto|]. split; [auto|].
  rewrite H2. destruct (rnd_any (B2R (fsub a b) * B2R (fsub a b))) as (e & n & He & Hn & ->). rewrite H3.
  assert (H4 : exists e1, Rabs e1 <= uu /\ rnd (B2R a - B2R b) = (B2R a - B2R b) * (1 + e1)).
  { pose proof (rnd_plus a (fopp b)) as Hp. unfold fopp in Hp. rewrite B2R_Bopp in Hp. exact Hp. }
  destruct H4 as (e1 & He1 & ->). unfold sqd; simpl fst; simpl snd. set (d := B2R a - B2R b) in *. pose proof one_uu as [Hu Hs].
  apply Rabs_le' in He, He1.
  replace (d * (1 + e1) * (d * (1 + e1)) * (1 + e) + n - d * d) with (((1 + e1) * (1 + e1) * (1 + e) - 1) * (d * d) + n) by ring.
  eapply Rle_trans; [apply Rabs_triang|]. apply Rplus_le_compat; [|auto]. rewrite Rabs_mult, (Rabs_pos_eq (d * d)) by nra.
  apply Rmult_le_compat_r; [nra|].
  assert (P : 0 <= (1 + e1) * (1 + e1)) by nra.
  assert (Q : (1 + e1) * (1 + e1) <= (1 + uu) * (1 + uu)) by nra.
  assert (Q' : (1 - uu) * (1 - uu) <= (1 + e1) * (1 + e1)) by nra.
  assert (U : (1 + e1) * (1 + e1) * (1 + e) <= (1 + uu) * (1 + uu) * (1 + uu)) by (apply Rmult_le_compat; lra).
  assert (L : (1 - uu) * (1 - uu) * (1 - uu) <= (1 + e1) * (1 + e1) * (1 + e)) by (apply Rmult_le_compat; nra).
  apply Rabs_le. simpl. nra.
Qed.
Lemma squares_error c : (forall q : f64 * f64, In q c -> ffinite (fmul (fsub (fst q) (snd q)) (fsub (fst q) (snd q))) = true) ->
  let m := map (fun q => B2R (fmul (fsub (fst q) (snd q)) (fsub (fst q) (snd q)))) c in let S := rsum (map sqd c) in
  Rabs (rsum m - S) <= ((1 + uu) ^ 3 - 1) * S + INR (length c) * ee /\ asum m <= (1 + uu) ^ 3 * S + INR (length c) * ee /\
  (forall q, In q c -> ffinite (fst q) = true /\ ffinite (snd q) = true).
Proof.
  induction c as [|[a b] c IH]; intros H; cbn zeta.
  - simpl. unfold asum; simpl. rewrite Rminus_0_r, Rabs_R0. repeat split; try lra; destruct H0.
  - destruct (IH (fun q Hq => H q (or_intror Hq))) as (I1 & I2 & I3). cbn zeta in *.
    destruct (square_error a b (H (a, b) (or_introl eq_refl))) as (Fa & Fb & He).
    set (m0 := B2R (fmul (fsub a b) (fsub a b))) in *. cbn [map rsum fst snd length]. fold m0. unfold asum in *. cbn [map rsum].
    set (m := rsum (map (fun q => B2R (fmul (fsub (fst q) (snd q)) (fsub (fst q) (snd q)))) c)) in *.
    set (A := rsum (map Rabs _)) in *. set (S := rsum (map sqd c)) in *. pose proof (sqd_nn (a, b)) as Hnn. set (s := sqd (a, b)) in *.
    rewrite S_INR. split; [|split].
    + replace (m0 + m - (s + S)) with ((m0 - s) + (m - S)) by ring. eapply Rle_trans; [apply Rabs_triang|]. lra.
    + assert (Hm : Rabs m0 <= (1 + uu) ^ 3 * s + ee). { replace m0 with ((m0 - s) + s) by ring. eapply Rle_trans; [apply Rabs_triang|]. rewrite (Rabs_pos_eq s) by auto. lra. }
      lra.
    + intros q [<-|Hq]; auto.
Qed.
(** the quotient by a count *)
Lemma quotient_error s n : (0 < n)%nat -> fits n -> ffinite (fdiv s (fofZ (Z.of_nat n))) = true ->
  ffinite s = true /\ Rabs (B2R (fdiv s (fofZ (Z.of_nat n))) - B2R s / INR n) <= uu * (Rabs (B2R s) / INR n) + ee.
Proof.
  intros Hn Hf H. unfold fits in Hf. destruct (fofZ_exact50 (Z.of_nat n)) as [Fn En]; [lia|]. destruct (fdiv_real _ _ H Fn) as (Fs & _ & He).
  split; [auto|]. rewrite He, En. rewrite <- INR_IZR_INZ. destruct (rnd_any (B2R s / INR n)) as (e & t & He1 & Ht & ->).
  assert (HI : 0 < INR n) by (apply lt_0_INR; auto).
  replace (B2R s / INR n * (1 + e) + t - B2R s / INR n) with (e * (B2R s / INR n) + t) by ring. eapply Rle_trans; [apply Rabs_triang|].
  apply Rplus_le_compat; [|auto]. rewrite Rabs_mult. unfold Rdiv at 1. rewrite Rabs_mult, (Rabs_pos_eq (/ INR n)) by (apply Rlt_le, Rinv_0_lt_compat; auto).
  apply Rmult_le_compat_r; [|auto]. apply Rmult_le_pos; [apply Rabs_pos|apply Rlt_le, Rinv_0_lt_compat; auto].
Qed.
Lemma map_sqd y p : map sqd (combine y p) = map (fun q => (fst q - snd q) * (fst q - snd q)) (combine (exact y) (exact p)).
Proof. revert p. induction y as [|a y IH]; intros [|b p]; simpl; auto. rewrite IH. reflexivity. Qed.
Lemma sqLoss_eq (y p : list f64) : length y = length p ->
  sqLoss F y p = fdiv (fold_left fadd (map (fun q => fmul (fsub (fst q) (snd q)) (fsub (fst q) (snd q))) (combine y p)) fzero) (fofZ (Z.of_nat (length y))).
Proof.
  intros Hl. change (sqLoss F y p) with (fdiv (fold_left fadd (map (fun v : f64 => fmul v v) (map (fun q : f64 * f64 => fsub (fst q) (snd q)) (combine y p))) fzero)
    (fofZ (Z.of_nat (length (map (fun v : f64 => fmul v v) (map (fun q : f64 * f64 => fsub (fst q) (snd q)) (combine y p))))))).
  rewrite !map_map, map_length, combine_length, <- Hl, Nat.min_id. reflexivity.
Qed.
Lemma loss_error (y p : list f64) : length y = length p -> y <> [] -> fits (length y) -> ffinite (sqLoss F y p) = true ->
  allFinite y /\ allFinite p /\
  Rabs (B2R (sqLoss F y p) - meanSquare (exact y) (exact p)) <= (INR (length y) + 3) * two (-52) * meanSquare (exact y) (exact p) + two (-1073).
Proof.
  intros Hl Hn Hf. rewrite sqLoss_eq by auto. set (c := combine y p). set (m := map (fun q => fmul (fsub (fst q) (snd q)) (fsub (fst q) (snd q))) c). set (n := length y) in *. intros H.
  assert (Hn0 : (0 < n)%nat) by (unfold n; destruct y; [congruence|simpl; lia]).
  destruct (quotient_error _ n Hn0 Hf H) as [Fs Hq]. set (s := fold_left fadd m fzero) in *.
  destruct (sum_error m s (fold_is_sum m) Fs) as (Fm & _ & Hs).
  assert (Hc : length c = n) by (unfold c; rewrite combine_length, <- Hl; apply Nat.min_id).
  assert (Lm : length m = n) by (unfold m; rewrite map_length; auto).
  destruct (squares_error c) as (Q1 & Q2 & Q3). { intros q Hin. apply Fm. unfold m. apply in_map_iff. exists q. split; [reflexivity|auto]. }
  cbn zeta in Q1, Q2. unfold meanSquare. unfold exact at 3 6. rewrite !map_length. fold n. rewrite <- map_sqd. fold c.
  assert (Em : map B2R m = map (fun q => B2R (fmul (fsub (fst q) (snd q)) (fsub (fst q) (snd q)))) c) by (unfold m; rewrite map_map; reflexivity).
  rewrite <- Em in Q1, Q2. rewrite Lm in Hs. rewrite Hc in Q1, Q2.
  assert (F1 : allFinite y /\ allFinite p).
  { split; intros x Hx.
    - apply (In_nth _ _ fzero) in Hx as (i & Hi & <-). destruct (Q3 (nth i y fzero, nth i p fzero)) as [Q _]; [|exact Q].
      unfold c. rewrite <- (combine_nth y p i fzero fzero Hl). apply nth_In. fold c. rewrite Hc. exact Hi.
    - apply (In_nth _ _ fzero) in Hx as (i & Hi & <-). destruct (Q3 (nth i y fzero, nth i p fzero)) as [_ Q]; [|exact Q].
      unfold c. rewrite <- (combine_nth y p i fzero fzero Hl). apply nth_In. fold c. rewrite Hc, Hl. exact Hi. }
  destruct F1 as [F1 F2]. split; [exact F1|]. split; [exact F2|].
  set (S := rsum (map sqd c)) in *. assert (HS : 0 <= S). { apply rsum_nn. intros x Hx. apply in_map_iff in Hx as (q & <- & _). apply sqd_nn. }
  clear -Hq Hs Q1 Q2 HS Hn0 Hf. pose proof one_uu as [Hu Hu1]. assert (HI : 1 <= INR n) by (change 1 with (INR 1); apply le_INR; lia).
  set (v := B2R (fdiv s (fofZ (Z.of_nat n)))) in *. set (b := B2R s) in *. set (R1 := rsum (map B2R m)) in *. set (A1 := asum (map B2R m)) in *.
  assert (Hg : 0 <= gam n) by apply gam_nn. pose proof ee_pos as He.
  (* the sum *)
  assert (T1 : Rabs (b - S) <= ((1 + gam n) * (1 + uu) ^ 3 - 1) * S + (1 + gam n) * (INR n * ee)).
  { replace (b - S) with ((b - R1) + (R1 - S)) by ring. eapply Rle_trans; [apply Rabs_triang|].
    assert (gam n * A1 <= gam n * ((1 + uu) ^ 3 * S + INR n * ee)) by (apply Rmult_le_compat_l; auto). nra. }
  assert (T2 : Rabs b <= (1 + gam n) * (1 + uu) ^ 3 * S + (1 + gam n) * (INR n * ee)).
  { replace b with ((b - S) + S) by ring. eapply Rle_trans; [apply Rabs_triang|]. rewrite (Rabs_pos_eq S) by auto. lra. }
  assert (G : (1 + gam n) * (1 + uu) ^ 3 = (1 + uu) ^ (n + 2)).
  { unfold gam. replace (1 + ((1 + uu) ^ Nat.pred n - 1)) with ((1 + uu) ^ Nat.pred n) by ring. rewrite <- pow_add. f_equal. lia. }
  rewrite G in T1, T2. set (M := S / INR n).
  assert (HM : 0 <= M) by (apply Rmult_le_pos; [auto|apply Rlt_le, Rinv_0_lt_compat; lra]).
  assert (D1 : Rabs (b / INR n - M) <= ((1 + uu) ^ (n + 2) - 1) * M + (1 + gam n) * ee).
  { unfold M. replace (b / INR n - S / INR n) with ((b - S) / INR n) by (field; lra). unfold Rdiv at 1. rewrite Rabs_mult, (Rabs_pos_eq (/ INR n)) by (apply Rlt_le, Rinv_0_lt_compat; lra).
    apply Rmult_le_reg_r with (INR n); [lra|]. rewrite Rmult_assoc, Rinv_l, Rmult_1_r by lra. eapply Rle_trans; [exact T1|]. right. field. lra. }
  assert (D2 : Rabs b / INR n <= (1 + uu) ^ (n + 2) * M + (1 + gam n) * ee).
  { apply Rmult_le_reg_r with (INR n); [lra|]. unfold Rdiv. rewrite Rmult_assoc, Rinv_l, Rmult_1_r by lra. eapply Rle_trans; [exact T2|]. right. unfold M. field. lra. }
  assert (D3 : Rabs (v - M) <= ((1 + uu) ^ (n + 3) - 1) * M + ((1 + gam n) * (1 + uu) + 1) * ee).
  { replace (v - M) with ((v - b / INR n) + (b / INR n - M)) by ring. eapply Rle_trans; [apply Rabs_triang|].
    replace (n + 3)%nat with (Datatypes.S (n + 2)) by lia. rewrite <- tech_pow_Rmult.
    assert (uu * (Rabs b / INR n) <= uu * ((1 + uu) ^ (n + 2) * M + (1 + gam n) * ee)) by (apply Rmult_le_compat_l; lra). nra. }
  destruct (fits_lin n 3 Hf ltac:(lia) ltac:(lia)) as [_ L]. change (Z.to_nat 3) with 3%nat in L.
  destruct (gam_lin n Hf) as [L1 L2]. assert (Hg2 : gam n <= / 4) by nra.
  eapply Rle_trans; [exact D3|]. unfold two. apply Rplus_le_compat.
  - apply Rmult_le_compat_r; [auto|]. eapply Rle_trans; [exact L|]. replace (bpow radix2 (-52)) with (2 * uu) by (unfold uu; simpl; lra). assert (X : forall a b : R, 2 * (a + 3) * b <= (a + 3) * (2 * b)) by (intros; lra). apply X.
  - replace (bpow radix2 (-1073)) with (4 * ee). 2:{ unfold ee. replace (-1073)%Z with (2 + -1075)%Z by lia. rewrite (bpow_plus radix2 2 (-1075)). replace (bpow radix2 2) with 4 by (simpl; lra). reflexivity. }
    apply Rmult_le_compat_r; [lra|]. nra.
Qed.
Lemma loss_exact (y p : list R) : length y = length p -> sqLoss RN y p = meanSquare y p.
Proof.
  intros Hl. change (sqLoss RN y p) with (fold_left Rplus (map (fun v : R => v * v) (map (fun q : R * R => fst q - snd q) (combine y p))) 0 /
    IZR (Z.of_nat (length (map (fun v : R => v * v) (map (fun q : R * R => fst q - snd q) (combine y p)))))).
  rewrite rsum_fold, Rplus_0_l, !map_map, map_length, combine_length, <- Hl, Nat.min_id, <- INR_IZR_INZ. reflexivity.
Qed.

(** ** Means *)
Lemma mean_error l s : is_sum l s -> l <> [] -> fits (length l) -> ffinite (fdiv s (fofZ (Z.of_nat (length l)))) = true ->
  allFinite l /\ Rabs (B2R (fdiv s (fofZ (Z.of_nat (length l)))) - mean (exact l)) <= two (-52) * absSum (exact l) + two (-1074).
Proof.
  intros Hs Hn Hf H. set (n := length l) in *. assert (Hn0 : (0 < n)%nat) by (unfold n; destruct l; [congruence|simpl; lia]).
  destruct (quotient_error s n Hn0 Hf H) as [Fs Hq]. destruct (sum_error l s Hs Fs) as (Fl & _ & He). split; [exact Fl|].
  fold n in He. unfold mean. unfold exact at 2. rewrite map_length. fold n. fold (exact l) in He. change (absSum (exact l)) with (asum (exact l)).
  pose proof (asum_nn (exact l)) as HA. pose proof (rsum_le_asum (exact l)) as HR.
  set (A := asum (exact l)) in *. set (R0 := rsum (exact l)) in *. set (v := B2R (fdiv s _)) in *. set (b := B2R s) in *.
  clear -Hq He HA HR Hf Hn0. pose proof one_uu as [Hu Hu1]. assert (HI : 1 <= INR n) by (change 1 with (INR 1); apply le_INR; lia).
  destruct (fits_lin n 0 Hf ltac:(lia) ltac:(lia)) as [_ L]. change (Z.to_nat 0) with 0%nat in L. rewrite Nat.add_0_r, Rplus_0_r in L.
  assert (Hb : Rabs b <= (1 + gam n) * A). { replace b with ((b - R0) + R0) by ring. eapply Rle_trans; [apply Rabs_triang|]. lra. }
  assert (D1 : Rabs (b / INR n - R0 / INR n) <= gam n * A / INR n).
  { replace (b / INR n - R0 / INR n) with ((b - R0) / INR n) by (field; lra). unfold Rdiv. rewrite Rabs_mult, (Rabs_pos_eq (/ INR n)) by (apply Rlt_le, Rinv_0_lt_compat; lra).
    apply Rmult_le_compat_r; [apply Rlt_le, Rinv_0_lt_compat; lra|exact He]. }
  assert (D2 : uu * (Rabs b / INR n) <= uu * ((1 + gam n) * A / INR n)).
  { apply Rmult_le_compat_l; [lra|]. apply Rmult_le_compat_r; [apply Rlt_le, Rinv_0_lt_compat; lra|exact Hb]. }
  assert (HT := Rabs_triang (v - b / INR n) (b / INR n - R0 / INR n)).
  replace ((v - b / INR n) + (b / INR n - R0 / INR n)) with (v - R0 / INR n) in HT by ring. apply Rle_trans with (1 := HT).
  assert (G : gam n + uu * (1 + gam n) = (1 + uu) ^ n - 1).
  { unfold gam. replace n with (Datatypes.S (Nat.pred n)) at 3 by lia. rewrite <- tech_pow_Rmult. ring. }
  assert (E : gam n * A / INR n + uu * ((1 + gam n) * A / INR n) <= 2 * uu * A).
  { replace (gam n * A / INR n + uu * ((1 + gam n) * A / INR n)) with ((gam n + uu * (1 + gam n)) * A / INR n) by (field; lra). rewrite G.
    apply Rmult_le_reg_r with (INR n); [lra|]. unfold Rdiv. rewrite Rmult_assoc, Rinv_l, Rmult_1_r by lra.
    apply Rle_trans with (2 * INR n * uu * A); [apply Rmult_le_compat_r; auto|]. right. ring. }
  unfold two. replace (bpow radix2 (-52)) with (2 * uu) by (unfold uu; simpl; lra).
  assert (T : ee <= bpow radix2 (-1074)) by (apply bpow_le; lia).
  apply Rle_trans with (uu * (Rabs b / INR n) + ee + gam n * A / INR n); [apply Rplus_le_compat; [exact Hq|exact D1]|]. generalize dependent (bpow radix2 (-1074)). intros t T. lra.
Qed.

(** ** Sums that do not overflow *)
Lemma fadd_finite a b : ffinite a = true -> ffinite b = true -> Rabs (rnd (B2R a + B2R b)) < Mx -> ffinite (fadd a b) = true.
Proof.
  intros Fa Fb H. destruct (fadd_ext a b Fa Fb) as [Hn He]. apply finite_ext; [auto|]. rewrite He. apply Rabs_def2 in H.
  rewrite clamp_id; lra.
Qed.
Lemma exact_app l l' : exact (l ++ l') = exact l ++ exact l'. Proof. apply map_app. Qed.
Lemma sum_error' l s : is_sum l s -> ffinite s = true ->
  allFinite l /\ (l = [] -> B2R s = 0) /\ Rabs (B2R s - rsum (exact l)) <= gam (length l) * asum (exact l).
Proof. exact (sum_error l s). Qed.
Lemma sum_finite l s : is_sum l s -> allFinite l -> (1 + gam (length l)) * asum (exact l) < Mx -> ffinite s = true.
Proof.
  intros H. induction H as [|x|l1 l2 a b H1 IH1 H2 IH2|l1 l2 a Hp H IH]; intros Hf HM.
  - reflexivity.
  - apply Hf. left. auto.
  - rewrite exact_app, asum_app, app_length in HM. pose proof (asum_nn (exact l1)) as P1. pose proof (asum_nn (exact l2)) as P2.
    assert (gm : forall n m, (n <= m)%nat -> gam n <= gam m). { intros n m Hnm. unfold gam. pose proof (pow_le_pow (Nat.pred n) (Nat.pred m) ltac:(lia)). lra. }
    pose proof (gm (length l1) (length l1 + length l2)%nat ltac:(lia)) as g1. pose proof (gm (length l2) (length l1 + length l2)%nat ltac:(lia)) as g2.
    pose proof (gam_nn (length l1)) as n1. pose proof (gam_nn (length l2)) as n2. set (n := (length l1 + length l2)%nat) in *.
    assert (Fa : ffinite a = true). { apply IH1; [intros x Hx; apply Hf; apply in_or_app; auto|]. apply Rle_lt_trans with (2 := HM). apply Rmult_le_compat; lra. }
    assert (Fb : ffinite b = true). { apply IH2; [intros x Hx; apply Hf; apply in_or_app; auto|]. apply Rle_lt_trans with (2 := HM). apply Rmult_le_compat; lra. }
    apply fadd_finite; auto. destruct (sum_error' _ _ H1 Fa) as (_ & Z1 & E1). destruct (sum_error' _ _ H2 Fb) as (_ & Z2 & E2).
    destruct l1 as [|x1 l1]. { rewrite (Z1 eq_refl), Rplus_0_l, rnd_B2R. apply abs_B2R_lt. }
    destruct l2 as [|x2 l2]. { rewrite (Z2 eq_refl), Rplus_0_r, rnd_B2R. apply abs_B2R_lt. }
    destruct (rnd_plus a b) as (e & He & ->). pose proof one_uu as [Hu _].
    set (A1 := asum (exact (x1 :: l1))) in *. set (A2 := asum (exact (x2 :: l2))) in *.
    pose proof (rsum_le_asum (exact (x1 :: l1))) as R1. pose proof (rsum_le_asum (exact (x2 :: l2))) as R2. fold A1 in R1. fold A2 in R2.
    set (S1 := rsum (exact (x1 :: l1))) in *. set (S2 := rsum (exact (x2 :: l2))) in *.
    assert (Ba : Rabs (B2R a) <= (1 + gam (length (x1 :: l1))) * A1).
    { replace (B2R a) with ((B2R a - S1) + S1) by ring. eapply Rle_trans; [apply Rabs_triang|]. lra. }
    assert (Bb : Rabs (B2R b) <= (1 + gam (length (x2 :: l2))) * A2).
    { replace (B2R b) with ((B2R b - S2) + S2) by ring. eapply Rle_trans; [apply Rabs_triang|]. lra. }
    assert (G1 : (1 + uu) * (1 + gam (length (x1 :: l1))) <= 1 + gam n).
    { unfold gam. replace (1 + ((1 + uu) ^ Nat.pred (length (x1 :: l1)) - 1)) with ((1 + uu) ^ Nat.pred (length (x1 :: l1))) by ring.
      rewrite tech_pow_Rmult. assert (Hle : (Datatypes.S (Nat.pred (length (x1 :: l1))) <= Nat.pred n)%nat) by (unfold n; simpl; lia). apply pow_le_pow in Hle. lra. }
    assert (G2 : (1 + uu) * (1 + gam (length (x2 :: l2))) <= 1 + gam n).
    { unfold gam. replace (1 + ((1 + uu) ^ Nat.pred (length (x2 :: l2)) - 1)) with ((1 + uu) ^ Nat.pred (length (x2 :: l2))) by ring.
      rewrite tech_pow_Rmult. assert (Hle : (Datatypes.S (Nat.pred (length (x2 :: l2))) <= Nat.pred n)%nat) by (unfold n; simpl; lia). apply pow_le_pow in Hle. lra. }
    rewrite Rabs_mult. apply Rabs_le' in He.
    apply Rle_lt_trans with (((1 + gam (length (x1 :: l1))) * A1 + (1 + gam (length (x2 :: l2))) * A2) * (1 + uu)).
    + apply Rmult_le_compat; try apply Rabs_pos.
      * eapply Rle_trans; [apply Rabs_triang|]. lra.
      * apply Rabs_le. lra.
    + apply Rle_lt_trans with (2 := HM). set (c1 := gam (length (x1 :: l1))) in *. set (c2 := gam (length (x2 :: l2))) in *.
      assert ((1 + uu) * (1 + c1) * A1 <= (1 + gam n) * A1) by (apply Rmult_le_compat_r; auto).
      assert ((1 + uu) * (1 + c2) * A2 <= (1 + gam n) * A2) by (apply Rmult_le_compat_r; auto). lra.
  - apply IH; [intros x Hx; apply Hf; apply Permutation_in with (1 := Hp); auto|].
    rewrite (Permutation_length Hp), (asum_perm (exact l1) (exact l2) (Permutation_map B2R Hp)). exact HM.
Qed.

(** ** Quotients by a sum of the numerators *)
Lemma kappa n : (0 < n)%nat -> gam n + uu * (1 + gam n) = (1 + uu) ^ n - 1.
Proof. intros H. unfold gam. replace n with (Datatypes.S (Nat.pred n)) at 3 by lia. rewrite <- tech_pow_Rmult. ring. Qed.
Lemma kappa_lin n : (0 < n)%nat -> fits n -> gam n + uu * (1 + gam n) <= 2 * INR n * uu /\ INR n * uu <= / 8 /\ 0 <= gam n <= / 4.
Proof.
  intros H0 H. rewrite kappa by auto. destruct (fits_lin n 0 H ltac:(lia) ltac:(lia)) as [_ L]. change (Z.to_nat 0) with 0%nat in L. rewrite Nat.add_0_r, Rplus_0_r in L.
  destruct (gam_lin n H) as [L1 L2]. split; [auto|]. split; [auto|]. pose proof (gam_nn n). split; [auto|nra].
Qed.
Lemma exact_nn l : (forall x, In x l -> fleb fzero x = true) -> forall x, In x (exact l) -> 0 <= x.
Proof.
  intros H x Hx. apply in_map_iff in Hx as (v & <- & Hv). specialize (H v Hv). apply fleb_true in H as (_ & Hn & H). rewrite ext_fzero in H.
  destruct v as [s|[|]| |s m e Hb]; simpl in *; try lra.
Qed.
Lemma in01_finite x : in01 x -> ffinite x = true /\ 0 <= B2R x <= 1.
Proof.
  intros [H1 H2]. apply fleb_true in H1 as (_ & Hn & H1). apply fleb_true in H2 as (_ & _ & H2). rewrite ext_fzero in H1. rewrite ext_fone in H2.
  pose proof Mx_ge1. assert (Hx : 1 < Mx). { unfold Mx. replace 1 with (bpow radix2 0) by reflexivity. apply bpow_lt. lia. }
  assert (Hf : ffinite x = true) by (apply finite_ext; [auto|lra]). split; [auto|]. rewrite <- (ext_finite x Hf). lra.
Qed.
Lemma fdiv_inf_r a b : ffinite b = false -> fnanb (fdiv a b) = true \/ B2R (fdiv a b) = 0.
Proof. destruct a as [s|s| |s m e H], b as [s1|s1| |s1 m1 e1 H1]; try discriminate; auto. Qed.
Lemma rsum_div l D : rsum (map (fun x => x / D) l) = rsum l / D.
Proof. induction l as [|x l IH]; simpl; [unfold Rdiv; ring|]. rewrite IH. unfold Rdiv. ring. Qed.
Lemma ratios_error l D : ffinite D = true -> (forall x, In x l -> fleb fzero x = true /\ ffinite (fdiv x D) = true) -> 0 < B2R D ->
  Rabs (rsum (exact (map (fun x => fdiv x D) l)) - rsum (exact l) / B2R D) <= uu * (rsum (exact l) / B2R D) + INR (length l) * ee.
Proof.
  intros FD. induction l as [|x l IH]; intros H HD.
  - simpl. unfold Rdiv. rewrite Rmult_0_l, Rminus_0_r, Rabs_R0. lra.
  - specialize (IH (fun y Hy => H y (or_intror Hy)) HD). destruct (H x (or_introl eq_refl)) as [Hx1 Hx2].
    destruct (fdiv_real _ _ Hx2 FD) as (Fx & _ & He). destruct (rnd_any (B2R x / B2R D)) as (e & n & He1 & Hn & Hr). rewrite Hr in He.
    assert (Hx0 : 0 <= B2R x). { apply (exact_nn [x]); [intros y [<-|[]]; auto|left; auto]. }
    cbn [map exact rsum length]. rewrite S_INR. fold (exact l). change (map (@B2R 53 1024) (map (fun x => fdiv x D) l)) with (exact (map (fun x => fdiv x D) l)).
    set (s := rsum (exact (map (fun x => fdiv x D) l))) in *. set (S := rsum (exact l)) in *. rewrite He.
    assert (Hd : 0 <= B2R x / B2R D) by (apply Rmult_le_pos; [auto|apply Rlt_le, Rinv_0_lt_compat; auto]).
    replace ((B2R x + S) / B2R D) with (B2R x / B2R D + S / B2R D) by (field; lra). set (q := B2R x / B2R D) in *.
    assert (HT := Rabs_triang (e * q + n) (s - S / B2R D)). replace (e * q + n + (s - S / B2R D)) with (q * (1 + e) + n + s - (q + S / B2R D)) in HT by ring.
    apply Rle_trans with (1 := HT). assert (HT2 := Rabs_triang (e * q) n). rewrite Rabs_mult, (Rabs_pos_eq q) in HT2 by auto.
    assert (Rabs e * q <= uu * q) by (apply Rmult_le_compat_r; auto). lra.
Qed.
Lemma shares_error l D : is_sum l D -> fits (length l) -> (forall x, In x l -> nanOrNN x) -> (forall x, In x l -> fnanb (fdiv x D) = false) ->
  (exists x, In x l /\ fltb fzero (fdiv x D) = true) ->
  Rabs (rsum (exact (map (fun x => fdiv x D) l)) - 1) <= INR (length l) * two (-51).
Proof.
  intros Hs Hf Hnn Hnan (x0 & Hx0 & Hpos).
  assert (H01 : forall x, In x l -> in01 (fdiv x D)). { intros x Hx. destruct (ratio_in01 l D x Hs Hnn Hx) as [Hn|H]; [rewrite (Hnan x Hx) in Hn; discriminate|exact H]. }
  assert (H0 : forall x, In x l -> fleb fzero x = true).
  { intros x Hx. destruct (Hnn x Hx) as [Hn|H]; [|exact H]. pose proof (Hnan x Hx) as Hc. rewrite (fdiv_nan_l x D Hn) in Hc. discriminate. }
  assert (Hp0 : 0 < B2R (fdiv x0 D)). { destruct (in01_finite _ (H01 x0 Hx0)) as [Ff _]. apply fltb_true in Hpos as (_ & _ & Hp). rewrite ext_fzero, ext_finite in Hp by auto. exact Hp. }
  assert (FD : ffinite D = true).
  { destruct (ffinite D) eqn:EF; [reflexivity|]. exfalso. destruct (fdiv_inf_r x0 D EF) as [Hn|Hz]; [rewrite (Hnan x0 Hx0) in Hn; discriminate|lra]. }
  destruct (sum_error' l D Hs FD) as (Fl & _ & He). rewrite (asum_nonneg (exact l)) in He by (apply exact_nn; auto).
  assert (HS : 0 <= rsum (exact l)) by (apply rsum_nn; apply exact_nn; auto).
  assert (HDn : B2R D <> 0). { apply (fdiv_nz x0 D); [apply in01_finite; auto|auto]. }
  assert (Hn : (0 < length l)%nat) by (destruct l; [destruct Hx0|simpl; lia]).
  destruct (kappa_lin _ Hn Hf) as (K1 & K2 & K3). pose proof one_uu as [Hu Hu1]. set (n := length l) in *. set (S := rsum (exact l)) in *.
  assert (HSD : gam n * S <= / 4 * S) by (apply Rmult_le_compat_r; lra). apply Rabs_le' in He.
  assert (HD : 0 < B2R D). { destruct (Rle_or_lt (B2R D) 0) as [Hc|Hc]; [|auto]. exfalso. apply HDn. lra. }
  pose proof (ratios_error l D FD (fun x Hx => conj (H0 x Hx) (proj1 (in01_finite _ (H01 x Hx)))) HD) as Hr. fold n in Hr. fold S in Hr.
  set (s := rsum (exact (map (fun x => fdiv x D) l))) in *. set (d := B2R D) in *. clearbody d s S. clear -He HS HSD HD Hr K1 K2 K3 Hu Hu1 Hn.
  assert (Q1 : S / d <= 4 / 3). { apply Rmult_le_reg_r with d; [lra|]. unfold Rdiv at 1. rewrite Rmult_assoc, Rinv_l by lra. lra. }
  assert (Q0 : 0 <= S / d) by (apply Rmult_le_pos; [auto|apply Rlt_le, Rinv_0_lt_compat; auto]).
  assert (Q2 : Rabs (S / d - 1) <= gam n * (S / d)).
  { replace (S / d - 1) with ((S - d) * / d) by (field; lra). replace (gam n * (S / d)) with (gam n * S * / d) by (field; lra).
    rewrite Rabs_mult, (Rabs_pos_eq (/ d)) by (apply Rlt_le, Rinv_0_lt_compat; auto). apply Rmult_le_compat_r; [apply Rlt_le, Rinv_0_lt_compat; auto|]. apply Rabs_le. lra. }
  assert (HT := Rabs_triang (s - S / d) (S / d - 1)). replace (s - S / d + (S / d - 1)) with (s - 1) in HT by ring.
  apply Rle_trans with (1 := HT). assert (HI : 1 <= INR n) by (change 1 with (INR 1); apply le_INR; lia).
  assert (Hee : ee <= uu / 3). { assert (ee <= bpow radix2 (-60)) by (apply bpow_le; lia). assert (bpow radix2 (-60) = uu / 128) by (rewrite uu_val; simpl; lra). lra. }
  unfold two. replace (bpow radix2 (-51)) with (4 * uu) by (rewrite uu_val; simpl; lra).
  assert (M1 : INR n * ee <= INR n * (uu / 3)) by (apply Rmult_le_compat_l; lra).
  assert (M2 : (gam n + uu) * (S / d) <= (gam n + uu) * (4 / 3)) by (apply Rmult_le_compat_l; lra).
  assert (M3 : gam n + uu <= 2 * INR n * uu) by nra. nra.
Qed.
Lemma softmax_sum E p q out : EnvOk E -> fits (length p) -> length q = length p -> SoftMax E p q = Ok out ->
  (forall x, In x out -> fnanb x = false) -> (exists x, In x out /\ fltb fzero x = true) ->
  Rabs (rsum (exact out) - 1) <= INR (length p) * two (-51).
Proof.
  intros HE Hf HL H Hn (x & Hx & Hp). rewrite SoftMax_same in H by auto. apply Ok_inj' in H. subst out. unfold softmax in *. cbn [ndiv F] in *.
  apply in_map_iff in Hx as (v & <- & Hv). pose proof (shares_error (map (e_exp E) p) (e_sum E (map (e_exp E) p))) as HS. rewrite map_length in HS.
  apply HS; auto.
  - apply (ok_sum E HE).
  - apply exps_nanOrNN; auto.
  - intros y Hy. apply Hn. apply in_map_iff. exists y. auto.
  - exists v. auto.
Qed.
Lemma normalization_sum p q out : fits (length p) -> length q = length p -> Normalization p q = Ok out -> (forall x, In x p -> fleb fzero x = true) ->
  (forall x, In x out -> fnanb x = false) -> (exists x, In x out /\ fltb fzero x = true) ->
  Rabs (rsum (exact out) - 1) <= INR (length p) * two (-51).
Proof.
  intros Hf HL H H0 Hn (x & Hx & Hp). rewrite Normalization_same in H by auto. apply Ok_inj' in H. subst out. unfold normalization in *. cbn [ndiv nadd nofZ F] in *.
  apply in_map_iff in Hx as (v & <- & Hv). rewrite fofZ_0 in *. apply shares_error; auto.
  - apply sum_left_ok.
  - intros y Hy. right. apply H0; auto.
  - intros y Hy. apply Hn. apply in_map_iff. exists y. auto.
  - exists v. auto.
Qed.

(** ** Leaf values *)
Lemma Mx_big : bpow radix2 1010 * 8 < Mx.
Proof. unfold Mx. replace 8 with (bpow radix2 3) by (simpl; lra). rewrite <- bpow_plus. apply bpow_lt. lia. Qed.
Lemma xgb_value_error g h sg sh lam : is_sum g sg -> is_sum h sh -> length g = length h -> g <> [] -> fits (length g) ->
  (forall x, In x h -> fleb fzero x = true /\ fleb x fone = true) -> ffinite lam = true -> 0 <= B2R lam <= two 1000 ->
  ffinite (fdiv (fmul (fofZ (-1)) sg) (fadd sh lam)) = true ->
  let D := rsum (exact h) + B2R lam in
  0 < D /\ allFinite g /\
  Rabs (B2R (fdiv (fmul (fofZ (-1)) sg) (fadd sh lam)) - - rsum (exact g) / D) <= INR (length g) * two (-50) * (absSum (exact g) / D) + two (-1074).
Proof.
  intros Hg Hh Hl Hn Hf H01 Flam Hlam HF D. set (n := length g) in *.
  assert (Hn0 : (0 < n)%nat) by (unfold n; destruct g; [congruence|simpl; lia]).
  destruct (kappa_lin n Hn0 Hf) as (K1 & K2 & K3). pose proof one_uu as [Hu Hu1].
  assert (Fh : allFinite h) by (intros x Hx; apply in01_finite; apply H01; auto).
  assert (Hnn : forall x, In x (exact h) -> 0 <= x) by (apply exact_nn; intros x Hx; apply H01; auto).
  assert (HH : 0 <= rsum (exact h)) by (apply rsum_nn; auto).
  assert (HHn : rsum (exact h) <= INR n).
  { rewrite Hl. clear -H01. induction h as [|x h IH]; [simpl; lra|]. cbn [exact map rsum length]. rewrite S_INR.
    assert (B2R x <= 1) by (apply in01_finite; apply H01; left; auto). assert (rsum (exact h) <= INR (length h)) by (apply IH; intros; apply H01; right; auto).
    unfold exact in *. lra. }
  assert (HnM : INR n <= bpow radix2 1000).
  { apply Rle_trans with (bpow radix2 50); [|apply bpow_le; lia]. rewrite INR_IZR_INZ. unfold fits in Hf. apply IZR_le in Hf. simpl. exact Hf. }
  pose proof Mx_big as HMx. assert (Hb10 : bpow radix2 1000 <= bpow radix2 1010) by (apply bpow_le; lia).
  assert (Fsh : ffinite sh = true).
  { apply (sum_finite h sh Hh Fh). rewrite <- Hl. fold n. rewrite (asum_nonneg (exact h)) by auto. assert (0 < bpow radix2 1010) by apply bpow_gt_0.
    apply Rle_lt_trans with (2 * bpow radix2 1010); [|lra]. apply Rmult_le_compat; lra. }
  destruct (sum_error' h sh Hh Fsh) as (_ & _ & EH). rewrite <- Hl in EH. fold n in EH. rewrite (asum_nonneg (exact h)) in EH by auto.
  unfold two in Hlam. set (H := rsum (exact h)) in *. set (l := B2R lam) in *.
  destruct (rnd_plus sh lam) as (e & He & Hr). fold l in Hr.
  assert (GH : gam n * H <= / 4 * H) by (apply Rmult_le_compat_r; lra).
  apply Rabs_le' in EH, He.
  assert (FD : ffinite (fadd sh lam) = true).
  { apply fadd_finite; auto. fold l. rewrite Hr. rewrite Rabs_mult. rewrite (Rabs_pos_eq (1 + e)) by lra. rewrite (Rabs_pos_eq (B2R sh + l)) by lra.
    apply Rle_lt_trans with ((3 * bpow radix2 1010) * 2); [|lra]. apply Rmult_le_compat; lra. }
  destruct (fdiv_real _ _ HF FD) as (Fm & HDn & HE). destruct (fadd_real _ _ FD) as (_ & _ & ED). fold l in ED. rewrite Hr in ED.
  rewrite fmul_m1 in *. rewrite ffinite_opp in Fm. destruct (sum_error' g sg Hg Fm) as (Fg & _ & EG). fold n in EG.
  pose proof (rsum_le_asum (exact g)) as RG. change (absSum (exact g)) with (asum (exact g)). pose proof (asum_nn (exact g)) as PA.
  set (A := asum (exact g)) in *. set (G := rsum (exact g)) in *. set (d := B2R (fadd sh lam)) in *.
  (* the denominator *)
  assert (DD : 0 <= D) by (unfold D; lra).
  assert (K : Rabs (d - D) <= (gam n + uu * (1 + gam n)) * D).
  { rewrite ED. unfold D. replace ((B2R sh + l) * (1 + e) - (H + l)) with ((B2R sh - H) * (1 + e) + e * (H + l)) by ring.
    eapply Rle_trans; [apply Rabs_triang|]. rewrite !Rabs_mult. rewrite (Rabs_pos_eq (1 + e)) by lra. rewrite (Rabs_pos_eq (H + l)) by lra.
    assert (T1 : Rabs (B2R sh - H) <= gam n * (H + l)). { apply Rabs_le. assert (0 <= gam n * l) by (apply Rmult_le_pos; lra). lra. }
    assert (T2 : Rabs (B2R sh - H) * (1 + e) <= gam n * (H + l) * (1 + uu)) by (apply Rmult_le_compat; try apply Rabs_pos; lra).
    assert (T3 : Rabs e * (H + l) <= uu * (H + l)) by (apply Rmult_le_compat_r; [lra|apply Rabs_le; lra]). lra. }
  set (k := gam n + uu * (1 + gam n)) in *. assert (Hk0 : 0 <= uu * (1 + gam n)) by (apply Rmult_le_pos; lra). assert (Hk : 0 <= k <= / 4) by (split; [unfold k; lra|lra]).
  assert (Kd : k * D <= / 4 * D) by (apply Rmult_le_compat_r; lra).
  assert (K' := Rabs_le' _ _ K).
  assert (HD : 0 < D). { destruct (Rle_or_lt D 0) as [Hc|Hc]; [|auto]. exfalso. apply HDn. fold d. lra. }
  split; [exact HD|]. split; [exact Fg|].
  rewrite HE. fold d. unfold fopp. rewrite B2R_Bopp. destruct (rnd_any (- B2R sg / d)) as (e2 & t & He2 & Ht & ->). set (b := B2R sg) in *.
  assert (Hkd : k = gam n + uu * (1 + gam n)) by reflexivity. clearbody d b A G k. assert (Hd : 3 / 4 * D <= d) by lra.
  assert (Hid : / d <= 4 / 3 * / D). { apply Rmult_le_reg_r with d; [lra|]. rewrite Rinv_l by lra. apply Rmult_le_reg_l with D; [lra|]. replace (D * (4 / 3 * / D * d)) with (4 / 3 * d) by (field; lra). lra. }
  assert (Hid0 : 0 < / d) by (apply Rinv_0_lt_compat; lra). assert (HiD : 0 < / D) by (apply Rinv_0_lt_compat; lra).
  assert (B1 : Rabs b <= (1 + gam n) * A). { assert (HT := Rabs_triang (b - G) G). replace (b - G + G) with b in HT by ring. lra. }
  (* b/d - G/D *)
  assert (C1 : Rabs (- b / d - - G / D) <= (gam n + k) * A * / d).
  { replace (- b / d - - G / D) with (((G - b) * D + G * (d - D)) * (/ D * / d)) by (field; lra). rewrite Rabs_mult, (Rabs_pos_eq (/ D * / d)) by (apply Rmult_le_pos; lra).
    apply Rle_trans with ((gam n * A * D + A * (k * D)) * (/ D * / d)).
    - apply Rmult_le_compat_r; [apply Rmult_le_pos; lra|]. eapply Rle_trans; [apply Rabs_triang|]. rewrite !Rabs_mult. rewrite (Rabs_pos_eq D) by lra. rewrite Rabs_minus_sym.
      apply Rplus_le_compat; [apply Rmult_le_compat_r; auto|]. apply Rmult_le_compat; auto using Rabs_pos.
    - right. field. lra. }
  assert (C2 : Rabs (e2 * (- b / d)) <= uu * (1 + gam n) * A * / d).
  { unfold Rdiv. rewrite !Rabs_mult, Rabs_Ropp, (Rabs_pos_eq (/ d)) by lra. assert (Hx : Rabs b * / d <= (1 + gam n) * A * / d) by (apply Rmult_le_compat_r; lra).
    apply Rle_trans with (uu * ((1 + gam n) * A * / d)); [|lra]. apply Rmult_le_compat; auto using Rabs_pos. apply Rmult_le_pos; [apply Rabs_pos|lra]. }
  assert (HT := Rabs_triang (e2 * (- b / d) + t) (- b / d - - G / D)). replace (e2 * (- b / d) + t + (- b / d - - G / D)) with (- b / d * (1 + e2) + t - - G / D) in HT by ring.
  apply Rle_trans with (1 := HT). assert (HT2 := Rabs_triang (e2 * (- b / d)) t).
  assert (S1 : (gam n + k) * A * / d + uu * (1 + gam n) * A * / d <= 2 * k * A * (4 / 3 * / D)).
  { replace ((gam n + k) * A * / d + uu * (1 + gam n) * A * / d) with (((gam n + k) * A + uu * (1 + gam n) * A) * / d) by ring.
    assert (Ek : 0 <= 2 * k * A) by (apply Rmult_le_pos; lra).
    apply Rle_trans with (2 * k * A * / d); [|apply Rmult_le_compat_l; lra]. apply Rmult_le_compat_r; [lra|].
    replace ((gam n + k) * A + uu * (1 + gam n) * A) with ((gam n + uu * (1 + gam n) + k) * A) by ring. apply Rmult_le_compat_r; [auto|]. lra. }
  assert (AD : 0 <= A / D) by (apply Rmult_le_pos; lra).
  assert (S2 : 2 * k * A * (4 / 3 * / D) <= INR n * (8 * uu) * (A / D)).
  { replace (2 * k * A * (4 / 3 * / D)) with (8 / 3 * k * (A / D)) by (unfold Rdiv; ring). apply Rmult_le_compat_r; [auto|]. pose proof (pos_INR n). nra. }
  unfold two. replace (bpow radix2 (-50)) with (8 * uu) by (rewrite uu_val; simpl; lra).
  assert (T : ee <= bpow radix2 (-1074)) by (apply bpow_le; lia). generalize dependent (bpow radix2 (-1074)). intros t0 T. lra.
Qed.

(** ** Trees and models *)
Lemma fdiv_zero_zero : ffinite (fdiv fzero (fofZ 0)) = false. Proof. reflexivity. Qed.
Lemma sum_nil_zero s : is_sum [] s -> B2R s = 0 /\ ffinite s = true.
Proof.
  intros H. remember [] as l eqn:El. revert El. induction H as [|x|l1 l2 a b H1 IH1 H2 IH2|l1 l2 a Hp H IH]; intros El.
  - split; reflexivity.
  - discriminate.
  - apply app_eq_nil in El as [-> ->]. destruct (IH1 eq_refl) as [A1 A2]. destruct (IH2 eq_refl) as [B1 B2].
    assert (Hf : ffinite (fadd a b) = true). { apply fadd_finite; auto. rewrite A1, B1, Rplus_0_r, rnd_0, Rabs_R0. apply Mx_pos. }
    split; [|exact Hf]. destruct (fadd_real _ _ Hf) as (_ & _ & ->). rewrite A1, B1, Rplus_0_r. apply rnd_0.
  - subst l2. apply IH. apply Permutation_nil. apply Permutation_sym. exact Hp.
Qed.
Lemma fdiv_0_nz a b : ffinite (fdiv a b) = true -> B2R b <> 0 \/ ffinite b = false.
Proof. intros H. destruct (ffinite b) eqn:E; [left; eapply fdiv_nz; eauto|right; auto]. Qed.
Lemma Forall2_len {A B} (R : A -> B -> Prop) l l' : Forall2 R l l' -> length l = length l'.
Proof. induction 1; simpl; auto. Qed.
Lemma look_all_In {A} (xs : list A) ix h : Forall2 (look xs) ix h -> forall x, In x h -> In x xs.
Proof. induction 1 as [|a b la lb [_ Hab] Hr IH]; intros x []; [subst; apply nth_error_In in Hab; exact Hab|auto]. Qed.
Lemma c114_mean_lemma E X o t d l r : EnvOk E -> NewTree E X o = Ok t -> sub (Node d l r) t -> to_xgb o = false ->
  (t_nsamples d <= 2 ^ 50)%Z -> ffinite (t_value d) = true ->
  exists ix y, t_samples d = Some ix /\ Forall2 (look (to_y o)) ix y /\ y <> [] /\ allFinite y /\
  Rabs (B2R (t_value d) - mean (exact y)) <= two (-52) * absSum (exact y) + two (-1074).
Proof.
  intros HE HT Hs Hx Hn Hf. destruct (node_value E X o t d l r HT Hs) as (ix & H1 & H2 & _ & H3). rewrite Hx in H3. destruct H3 as (y & Hy & Hv).
  exists ix, y. split; [auto|]. split; [auto|]. pose proof (Forall2_len _ _ _ Hy) as HL. rewrite H2, HL in Hn. rewrite HL in Hv. rewrite Hv in Hf |- *.
  assert (Hne : y <> []). { intros ->. destruct (fdiv_0_nz _ _ Hf) as [Hc|Hc]; [apply Hc; reflexivity|discriminate Hc]. }
  split; [auto|]. apply (mean_error y (e_sum E y)); auto. apply (ok_sum E HE).
Qed.
Lemma c114_xgb_lemma E X o t d l r : EnvOk E -> NewTree E X o = Ok t -> sub (Node d l r) t -> to_xgb o = true ->
  (t_nsamples d <= 2 ^ 50)%Z -> ffinite (t_value d) = true ->
  (forall x, In x (orNil (to_hess o)) -> fleb fzero x = true /\ fleb x fone = true) ->
  ffinite (to_lambda o) = true -> 0 <= B2R (to_lambda o) <= two 1000 ->
  exists ix g h, t_samples d = Some ix /\ Forall2 (look (orNil (to_grads o))) ix g /\ Forall2 (look (orNil (to_hess o))) ix h /\ allFinite g /\
  (ix <> [] -> let D := rsum (exact h) + B2R (to_lambda o) in
    0 < D /\ Rabs (B2R (t_value d) - - rsum (exact g) / D) <= INR (length ix) * two (-50) * (absSum (exact g) / D) + two (-1074)).
Proof.
  intros HE HT Hs Hx Hn Hf Hh Fl Hl. destruct (node_value E X o t d l r HT Hs) as (ix & H1 & H2 & _ & H3). rewrite Hx in H3. destruct H3 as (g & h & Hg & Hhh & Hv).
  exists ix, g, h. split; [auto|]. split; [auto|]. split; [auto|]. pose proof (Forall2_len _ _ _ Hg) as HLg. pose proof (Forall2_len _ _ _ Hhh) as HLh.
  rewrite Hv in Hf |- *. destruct ix as [|i0 ix].
  { destruct g; [|discriminate HLg]. split; [intros x []|]. intros Hc. congruence. }
  assert (Hin : forall x, In x h -> fleb fzero x = true /\ fleb x fone = true).
  { intros x Hxx. apply Hh. eapply look_all_In; eauto. }
  assert (Hgn : g <> []) by (destruct g; [discriminate HLg|congruence]).
  rewrite H2, HLg in Hn.
  destruct (xgb_value_error g h (e_sum E g) (e_sum E h) (to_lambda o)) as (D1 & D2 & D3); auto.
  - apply (ok_sum E HE).
  - apply (ok_sum E HE).
  - congruence.
  - split; [exact D2|]. intros _. split; [exact D1|]. rewrite HLg. exact D3.
Qed.
Lemma c115_model_lemma {K} E rnd (D : DataBunch K) O tr row bufs preds bufs' : EnvOk E -> NewMultiClass E rnd D O = Ok tr ->
  PredictMC (tr_model tr) row bufs = Ok (preds, bufs') -> fits (length preds) ->
  (forall x, In x preds -> fnanb x = false) -> (exists x, In x preds /\ fltb fzero x = true) ->
  Rabs (rsum (exact preds) - 1) <= INR (length preds) * two (-51).
Proof.
  intros HE HT HP Hf Hn Hp. destruct (PredictMC_inv E rnd D O tr HT row bufs preds bufs' HP) as (_ & HL & sc & Hsc & HLs & HS).
  assert (HLL : length preds = length sc) by congruence. rewrite HLL in *.
  apply (softmax_sum E sc _ preds HE Hf) with (2 := HS); auto. rewrite repeat_length. congruence.
Qed.
Lemma c113_lemma L id y p : (L = SQErrLoss id \/ L = MSELoss id) -> length y = length p -> y <> [] -> fits (length y) -> ffinite (l_loss L y p) = true ->
  allFinite y /\ allFinite p /\
  Rabs (B2R (l_loss L y p) - meanSquare (exact y) (exact p)) <= (INR (length y) + 3) * two (-52) * meanSquare (exact y) (exact p) + two (-1073).
Proof. intros [->| ->]; apply loss_error. Qed.
Lemma c113_perfect_lemma L id y : (L = SQErrLoss id \/ L = MSELoss id) -> y <> [] -> allFinite y -> fits (length y) ->
  ffinite (l_loss L y y) = true /\ B2R (l_loss L y y) = 0.
Proof.
  intros HL Hn Hf Hfit. assert (HH : l_loss L y y = sqLoss F y y) by (destruct HL as [->| ->]; reflexivity). rewrite HH, sqLoss_eq by auto.
  set (m := map _ _). assert (Hm : forall x, In x m -> ffinite x = true /\ B2R x = 0).
  { intros x Hx. apply in_map_iff in Hx as ([a b] & <- & Hab). assert (a = b /\ In a y) as [<- Ha].
    { clear -Hab. induction y as [|z y IH]; simpl in *; [destruct Hab|]. destruct Hab as [Hab|Hab]; [injection Hab as <- <-; auto|]. destruct (IH Hab); auto. }
    specialize (Hf a Ha). cbn [fst snd]. destruct (fsub_ext a a Hf Hf) as [S1 S2]. rewrite Rminus_eq_0, rnd_0, clamp_id in S2 by (pose proof Mx_pos; lra).
    assert (Fs : ffinite (fsub a a) = true) by (apply finite_ext; [auto|rewrite S2; pose proof Mx_pos; lra]). rewrite ext_finite in S2 by auto.
    destruct (fmul_ext _ _ Fs Fs) as [M1 M2]. rewrite S2, Rmult_0_r, rnd_0, clamp_id in M2 by (pose proof Mx_pos; lra).
    assert (Fm : ffinite (fmul (fsub a a) (fsub a a)) = true) by (apply finite_ext; [auto|rewrite M2; pose proof Mx_pos; lra]). rewrite ext_finite in M2 by auto. auto. }
  assert (Hs : forall l s, (forall x, In x l -> ffinite x = true /\ B2R x = 0) -> ffinite s = true /\ B2R s = 0 -> ffinite (fold_left fadd l s) = true /\ B2R (fold_left fadd l s) = 0).
  { induction l as [|x l IH]; intros s Hl [Fs Es]; [auto|]. simpl. apply IH; [intros; apply Hl; right; auto|]. destruct (Hl x (or_introl eq_refl)) as [Fx Ex].
    assert (Hfa : ffinite (fadd s x) = true). { apply fadd_finite; auto. rewrite Es, Ex, Rplus_0_r, rnd_0, Rabs_R0. apply Mx_pos. }
    split; [exact Hfa|]. destruct (fadd_real _ _ Hfa) as (_ & _ & ->). rewrite Es, Ex, Rplus_0_r. apply rnd_0. }
  destruct (Hs m fzero Hm (conj eq_refl eq_refl)) as [Fs Es]. set (s := fold_left fadd m fzero) in *. unfold fits in Hfit.
  destruct (fofZ_exact50 (Z.of_nat (length y))) as [Fn En]; [lia|]. assert (Hn0 : B2R (fofZ (Z.of_nat (length y))) <> 0).
  { rewrite En. apply not_0_IZR. destruct y; [congruence|simpl; lia]. }
  destruct (fdiv_ext _ _ Fs Fn Hn0) as [D1 D2]. rewrite Es in D2. unfold Rdiv in D2. rewrite Rmult_0_l, rnd_0, clamp_id in D2 by (pose proof Mx_pos; lra).
  assert (Fd : ffinite (fdiv s (fofZ (Z.of_nat (length y)))) = true) by (apply finite_ext; [auto|rewrite D2; pose proof Mx_pos; lra]). split; [exact Fd|].
  rewrite <- (ext_finite _ Fd). exact D2.
Qed.
