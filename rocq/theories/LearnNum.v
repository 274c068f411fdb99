(** Arithmetic of boosting steps and of SoftMax with an accurate exponential (proof support for C121). *)
From Coq Require Import Reals Lra Permutation.
From Flocq Require Import Core.
From Verif Require Import Base F64 F64Lemmas Env EnvLemmas Utils Tree Spec SpecErr NumErr ErrProofs SpecLearn.
Open Scope R_scope.

Notation eta := (bpow radix2 (-40)).
Lemma eta_val : eta = / 1099511627776. Proof. reflexivity. Qed.
Lemma ee_small : 0 < ee <= / 1000000000000000000000000000000.
Proof.
  split; [apply ee_pos|]. unfold ee. apply Rle_trans with (bpow radix2 (-100)); [apply bpow_le; lia|]. simpl. lra.
Qed.
Lemma Mx_large : bpow radix2 1000 <= Mx. Proof. unfold Mx. apply bpow_le. lia. Qed.
Lemma Mx_num : 1000000000000 < Mx.
Proof. apply Rlt_le_trans with (bpow radix2 40); [simpl; lra|]. unfold Mx. apply bpow_le. lia. Qed.

(** results of operations that stay small *)
Lemma rnd_abs_any x : Rabs (rnd x - x) <= uu * Rabs x + ee.
Proof.
  destruct (rnd_any x) as (e & n & He & Hn & ->). replace (x * (1 + e) + n - x) with (x * e + n) by ring.
  eapply Rle_trans; [apply Rabs_triang|]. rewrite Rabs_mult. pose proof (Rabs_pos x). pose proof (Rabs_pos e). nra.
Qed.
Lemma rnd_abs_pos x : 0 <= x -> x - (uu * x + ee) <= rnd x <= x + (uu * x + ee).
Proof. intros H. pose proof (rnd_abs_any x) as HR. rewrite (Rabs_pos_eq x) in HR by auto. apply Rabs_le' in HR. lra. Qed.
Lemma rnd_small x B : Rabs x <= B -> B <= 100000 -> Rabs (rnd x) <= B + 1.
Proof.
  intros H HB. pose proof (rnd_abs_any x) as H1. pose proof (Rabs_pos x). pose proof one_uu. pose proof ee_small.
  replace (rnd x) with ((rnd x - x) + x) by ring. eapply Rle_trans; [apply Rabs_triang|]. nra.
Qed.
Lemma fadd_small a b : ffinite a = true -> ffinite b = true -> Rabs (B2R a + B2R b) <= 100000 ->
  ffinite (fadd a b) = true /\ B2R (fadd a b) = rnd (B2R a + B2R b).
Proof.
  intros Fa Fb H. assert (F : ffinite (fadd a b) = true).
  { apply fadd_finite; auto. pose proof (rnd_small _ _ H ltac:(lra)). pose proof Mx_num. lra. }
  split; [exact F|]. apply fadd_real. exact F.
Qed.
Lemma fsub_small a b : ffinite a = true -> ffinite b = true -> Rabs (B2R a - B2R b) <= 100000 ->
  ffinite (fsub a b) = true /\ B2R (fsub a b) = rnd (B2R a - B2R b).
Proof.
  intros Fa Fb H. destruct (fsub_ext a b Fa Fb) as [Hn He]. pose proof (rnd_small _ _ H ltac:(lra)) as HR. pose proof Mx_num.
  apply Rabs_le' in HR. assert (F : ffinite (fsub a b) = true). { apply finite_ext; [auto|]. rewrite He, clamp_id; lra. }
  split; [exact F|]. apply fsub_real. exact F.
Qed.
Lemma fmul_small a b : ffinite a = true -> ffinite b = true -> Rabs (B2R a * B2R b) <= 100000 ->
  ffinite (fmul a b) = true /\ B2R (fmul a b) = rnd (B2R a * B2R b).
Proof.
  intros Fa Fb H. destruct (fmul_ext a b Fa Fb) as [Hn He]. pose proof (rnd_small _ _ H ltac:(lra)) as HR. pose proof Mx_num.
  apply Rabs_le' in HR. assert (F : ffinite (fmul a b) = true). { apply finite_ext; [auto|]. rewrite He, clamp_id; lra. }
  split; [exact F|]. apply fmul_real. exact F.
Qed.
Lemma fdiv_small a b B : ffinite a = true -> ffinite b = true -> B2R b <> 0 -> Rabs (B2R a / B2R b) <= B -> B <= bpow radix2 100 ->
  ffinite (fdiv a b) = true /\ B2R (fdiv a b) = rnd (B2R a / B2R b).
Proof.
  intros Fa Fb Hb H HB. destruct (fdiv_ext a b Fa Fb Hb) as [Hn He]. pose proof (rnd_abs_any (B2R a / B2R b)) as HR. pose proof one_uu. pose proof ee_small.
  pose proof (Rabs_pos (B2R a / B2R b)). assert (HM : 3 * bpow radix2 100 < Mx).
  { apply Rlt_le_trans with (bpow radix2 2 * bpow radix2 100); [apply Rmult_lt_compat_r; [apply bpow_gt_0|simpl; lra]|]. rewrite <- bpow_plus. unfold Mx. apply bpow_le. lia. }
  assert (H100 : 1 <= bpow radix2 100) by (change 1 with (bpow radix2 0); apply bpow_le; lia).
  assert (HR2 : Rabs (rnd (B2R a / B2R b)) <= 3 * bpow radix2 100).
  { replace (rnd (B2R a / B2R b)) with ((rnd (B2R a / B2R b) - B2R a / B2R b) + B2R a / B2R b) by ring.
    eapply Rle_trans; [apply Rabs_triang|]. nra. }
  apply Rabs_le' in HR2. assert (F : ffinite (fdiv a b) = true). { apply finite_ext; [auto|]. rewrite He, clamp_id; lra. }
  split; [exact F|]. apply fdiv_real; auto.
Qed.

(** ** One boosting step of a score *)
Lemma rnd_le_fmt x y : x <= y -> generic_format radix2 (SpecFloat.fexp 53 1024) y -> rnd x <= y.
Proof. intros H Hy. rewrite <- (round_generic radix2 (SpecFloat.fexp 53 1024) ZnearestE y Hy) at 1. apply rnd_mono. exact H. Qed.
Lemma rnd_ge_fmt x y : y <= x -> generic_format radix2 (SpecFloat.fexp 53 1024) y -> y <= rnd x.
Proof. intros H Hy. rewrite <- (round_generic radix2 (SpecFloat.fexp 53 1024) ZnearestE y Hy) at 1. apply rnd_mono. exact H. Qed.
Lemma fmt_dyadic m e : (Z.abs m < 2 ^ 53)%Z -> (-1074 <= e)%Z -> generic_format radix2 (SpecFloat.fexp 53 1024) (IZR m * bpow radix2 e).
Proof.
  intros Hm He. apply (generic_format_FLT radix2 (-1074) 53). apply (FLT_spec _ _ _ _ (Float radix2 m e)); cbn [Fnum Fexp]; auto.
Qed.
Lemma step_facts (s v lr : f64) V : ffinite s = true -> ffinite v = true -> ffinite lr = true ->
  Rabs (B2R s) <= 1000 -> Rabs (B2R v) <= V -> 1 <= V -> bpow radix2 (-30) <= B2R lr <= 1 -> V * B2R lr <= 1000 ->
  let s' := fadd s (fmul v lr) in
  ffinite s' = true /\ Rabs (B2R s' - B2R s) <= V * B2R lr * (1 + bpow radix2 (-10)) /\
  (0 <= B2R v -> B2R s <= B2R s') /\ (B2R v <= 0 -> B2R s' <= B2R s) /\ (/ 8 <= B2R v -> B2R s + B2R lr / 16 <= B2R s').
Proof.
  intros Fs Fv Fl Hs Hv HV Hlr HVl s'. pose proof one_uu as [Hu Hu']. pose proof ee_small as [He He'].
  assert (E30 : bpow radix2 (-30) = / 1073741824) by reflexivity. rewrite E30 in Hlr.
  assert (E12 : bpow radix2 (-10) = / 1024) by reflexivity. rewrite E12.
  set (L := B2R lr) in *. set (x := B2R v) in *. set (a := B2R s) in *.
  assert (Hxl : Rabs (x * L) <= V * L). { rewrite Rabs_mult, (Rabs_pos_eq L) by lra. apply Rmult_le_compat_r; lra. }
  destruct (fmul_small v lr Fv Fl) as [Fm Em]; [fold x L; lra|]. fold x L in Em. set (d := B2R (fmul v lr)) in *.
  pose proof (rnd_abs_any (x * L)) as Hd. rewrite <- Em in Hd.
  assert (Hd1 : Rabs (d - x * L) <= uu * (V * L) + ee) by nra.
  assert (Hd2 : Rabs d <= V * L + uu * (V * L) + ee). { replace d with ((d - x * L) + x * L) by ring. eapply Rle_trans; [apply Rabs_triang|]. lra. }
  assert (Hd3 : Rabs d <= 1001) by nra.
  assert (Had : Rabs (a + d) <= 2001). { eapply Rle_trans; [apply Rabs_triang|]. lra. }
  destruct (fadd_small s (fmul v lr) Fs Fm) as [Fa Ea]; [fold a d; lra|]. fold a d s' in Ea. split; [exact Fa|].
  pose proof (rnd_abs_any (a + d)) as Hr. rewrite <- Ea in Hr.
  assert (Hr1 : Rabs (B2R s' - (a + d)) <= 2001 * uu + ee) by nra.
  assert (HVL' : 1 * L <= V * L) by (apply Rmult_le_compat_r; lra). assert (HVL : / 1073741824 <= V * L) by lra.
  assert (Hu3 : 2002 * uu + 2 * ee + 1000 * uu <= / 1073741824 / 2048) by (rewrite uu_val; lra).
  split.
  { replace (B2R s' - a) with ((B2R s' - (a + d)) + d) by ring. eapply Rle_trans; [apply Rabs_triang|].
    assert (uu * (V * L) <= uu * 1000) by (apply Rmult_le_compat_l; lra). lra. }
  assert (Hmono : forall y, y <= a + d -> rnd y <= B2R s') by (intros y Hy; rewrite Ea; apply rnd_mono; exact Hy).
  split; [|split].
  - intros H0. assert (Hd0 : 0 <= d) by (rewrite Em; apply rnd_ge_0; apply Rmult_le_pos; lra).
    unfold a. rewrite <- (rnd_B2R s). apply Hmono. fold a. lra.
  - intros H0. assert (Hd0 : d <= 0) by (rewrite Em; apply rnd_le_0; rewrite <- (Rmult_0_l L); apply Rmult_le_compat_r; lra).
    rewrite Ea. unfold a at 2. rewrite <- (rnd_B2R s). apply rnd_mono. fold a. lra.
  - intros H8. apply Rabs_le' in Hd1, Hr1. assert (H8' : / 8 * L <= x * L) by (apply Rmult_le_compat_r; lra).
    assert (uu * (V * L) <= uu * 1000) by (apply Rmult_le_compat_l; lra). lra.
Qed.

(** ** The exponential *)
Lemma exp_INR n : exp (INR n) = exp 1 ^ n.
Proof.
  induction n as [|n IH]; [apply exp_0|]. rewrite S_INR, exp_plus, IH. simpl. ring.
Qed.
Lemma exp_mono x y : x <= y -> exp x <= exp y.
Proof. intros [H|H]; [left; apply exp_increasing; exact H|rewrite H; lra]. Qed.
Lemma exp_610 x : x <= 610 -> exp x <= bpow radix2 976.
Proof.
  intros H. apply Rle_trans with (exp (INR 610)).
  { apply exp_mono. rewrite INR_IZR_INZ. exact H. }
  rewrite exp_INR. apply Rle_trans with (3 ^ 610)%R.
  { apply pow_incr. split; [left; apply exp_pos|apply exp_le_3]. }
  rewrite pow_IZR, <- (IZR_Zpower radix2 976) by lia. apply IZR_le. vm_compute. discriminate.
Qed.
Lemma exp_lower x : - 610 <= x -> bpow radix2 (-976) <= exp x.
Proof.
  intros H. replace x with (- - x) by ring. rewrite exp_Ropp. change (-976)%Z with (- (976))%Z. rewrite bpow_opp.
  apply Rinv_le_contravar; [apply exp_pos|]. apply exp_610. lra.
Qed.
Lemma exp_close x : x <= 101 / 100 -> exp x <= 4.
Proof.
  intros H. apply Rle_trans with (exp (1 + / 100)); [apply exp_mono; lra|]. rewrite exp_plus.
  assert (H1 : exp (/ 100) <= 100 / 99).
  { replace (/ 100) with (- (- / 100)) by ring. rewrite exp_Ropp. replace (100 / 99) with (/ (1 + - / 100)) by field.
    apply Rinv_le_contravar; [lra|]. apply exp_ineq1_le. }
  pose proof exp_le_3. pose proof (exp_pos 1). pose proof (exp_pos (/ 100)). nra.
Qed.

(** ** Sums *)
Lemma rsum_nonneg l : (forall x, In x l -> 0 <= x) -> 0 <= rsum l.
Proof. induction l as [|a l IH]; intros H; simpl; [lra|]. pose proof (H a ltac:(left; auto)). specialize (IH ltac:(intros; apply H; right; auto)). lra. Qed.
Lemma rsum_one l c a : (forall x, In x l -> 0 <= x) -> nth_error l c = Some a -> a <= rsum l.
Proof.
  revert c. induction l as [|x l IH]; intros [|c] H Hc; cbn [nth_error] in Hc; try discriminate; simpl.
  - injection Hc as ->. pose proof (rsum_nonneg l ltac:(intros; apply H; right; auto)). lra.
  - pose proof (H x ltac:(left; auto)). specialize (IH c ltac:(intros; apply H; right; auto) Hc). lra.
Qed.
Lemma rsum_two l c j a b : (forall x, In x l -> 0 <= x) -> c <> j -> nth_error l c = Some a -> nth_error l j = Some b -> a + b <= rsum l.
Proof.
  revert c j. induction l as [|x l IH]; intros [|c] [|j] H Hcj Hc Hj; cbn [nth_error] in Hc, Hj; try discriminate; try congruence; simpl.
  - injection Hc as ->. pose proof (rsum_one l j b ltac:(intros; apply H; right; auto) Hj). lra.
  - injection Hj as ->. pose proof (rsum_one l c a ltac:(intros; apply H; right; auto) Hc). lra.
  - pose proof (H x ltac:(left; auto)). specialize (IH c j ltac:(intros; apply H; right; auto) ltac:(congruence) Hc Hj). lra.
Qed.
Lemma rsum_upper l m : (forall x, In x l -> x <= m) -> rsum l <= INR (length l) * m.
Proof.
  induction l as [|x l IH]; intros H; [simpl; lra|]. cbn [length]. rewrite S_INR. simpl rsum.
  pose proof (H x ltac:(left; auto)). specialize (IH ltac:(intros; apply H; right; auto)). lra.
Qed.
(** a sum of non-negative numbers is at least the rounded sum of any two of them *)
Lemma is_sum_above l s : is_sum l s -> ffinite s = true -> (forall x, In x l -> 0 <= B2R x) ->
  0 <= B2R s /\ (forall x, In x l -> B2R x <= B2R s) /\
  forall x y r, Permutation l (x :: y :: r) -> rnd (B2R x + B2R y) <= B2R s.
Proof.
  intros H. induction H as [|x|l1 l2 a b H1 IH1 H2 IH2|l1 l2 a Hp H IH]; intros Hf H0.
  - split; [right; reflexivity|]. split; [intros x []|]. intros x y r HP. apply Permutation_nil in HP. discriminate HP.
  - split; [apply H0; left; auto|]. split; [intros y [<-|[]]; lra|]. intros y z r HP. apply Permutation_length in HP. discriminate HP.
  - destruct (fadd_real _ _ Hf) as (Fa & Fb & He).
    destruct (IH1 Fa ltac:(intros; apply H0; apply in_or_app; auto)) as (A0 & A1 & A2).
    destruct (IH2 Fb ltac:(intros; apply H0; apply in_or_app; auto)) as (B0 & B1 & B2).
    assert (Ga : B2R a <= B2R (fadd a b)) by (rewrite He, <- (rnd_B2R a) at 1; apply rnd_mono; lra).
    assert (Gb : B2R b <= B2R (fadd a b)) by (rewrite He, <- (rnd_B2R b) at 1; apply rnd_mono; lra).
    split; [lra|]. split.
    { intros x Hx. apply in_app_or in Hx as [Hx|Hx]; [pose proof (A1 x Hx)|pose proof (B1 x Hx)]; lra. }
    intros x y r HP.
    assert (Hx : In x (l1 ++ l2)) by (apply Permutation_in with (1 := Permutation_sym HP); left; auto).
    assert (Key : forall u v, Permutation (u ++ v) (x :: y :: r) -> In x u ->
      (exists r', Permutation u (x :: y :: r')) \/ In y v).
    { intros u v HP' Hxu. apply in_split in Hxu as (u1 & u2 & ->).
      assert (HP2 : Permutation ((u1 ++ u2) ++ v) (y :: r)).
      { apply (Permutation_cons_inv (a := x)). eapply Permutation_trans; [|exact HP']. rewrite <- !app_assoc. cbn [app]. apply Permutation_middle. }
      assert (Hy : In y ((u1 ++ u2) ++ v)) by (apply Permutation_in with (1 := Permutation_sym HP2); left; auto).
      apply in_app_or in Hy as [Hy|Hy]; [left|right; exact Hy].
      apply in_split in Hy as (w1 & w2 & Hw). exists (w1 ++ w2).
      eapply Permutation_trans; [apply Permutation_sym, Permutation_middle|]. constructor. rewrite Hw. apply Permutation_sym, Permutation_middle. }
    apply in_app_or in Hx as [Hx|Hx].
    + destruct (Key l1 l2 HP Hx) as [[r' Hr]|Hy].
      * pose proof (A2 _ _ _ Hr). lra.
      * rewrite He. apply rnd_mono. pose proof (A1 x Hx). pose proof (B1 y Hy). lra.
    + destruct (Key l2 l1 (Permutation_trans (Permutation_app_comm l2 l1) HP) Hx) as [[r' Hr]|Hy].
      * pose proof (B2 _ _ _ Hr). lra.
      * rewrite He. apply rnd_mono. pose proof (B1 x Hx). pose proof (A1 y Hy). lra.
  - destruct (IH Hf ltac:(intros x Hx; apply H0; apply Permutation_in with (1 := Hp); auto)) as (A0 & A1 & A2).
    split; [exact A0|]. split; [intros x Hx; apply A1; apply Permutation_in with (1 := Permutation_sym Hp); auto|].
    intros x y r HP. eapply A2. eapply Permutation_trans; [exact Hp|exact HP].
Qed.
Lemma two_perm {A} (l : list A) c j a b : c <> j -> nth_error l c = Some a -> nth_error l j = Some b -> exists r, Permutation l (a :: b :: r).
Proof.
  revert c j. induction l as [|x l IH]; intros [|c] [|j] Hcj Hc Hj; cbn [nth_error] in Hc, Hj; try discriminate; try congruence.
  - injection Hc as ->. apply nth_error_In, in_split in Hj as (l1 & l2 & ->). exists (l1 ++ l2). constructor. apply Permutation_sym, Permutation_middle.
  - injection Hj as ->. apply nth_error_In, in_split in Hc as (l1 & l2 & ->). exists (l1 ++ l2).
    eapply Permutation_trans; [|apply perm_swap]. constructor. apply Permutation_sym, Permutation_middle.
  - destruct (IH c j ltac:(congruence) Hc Hj) as (r & Hr). exists (x :: r).
    eapply Permutation_trans; [constructor; exact Hr|]. eapply Permutation_trans; [apply perm_swap|]. constructor. apply perm_swap.
Qed.

(** ** Shares of an accurate exponential *)
Section Shares.
Context (E : Env) (HE : EnvOk E) (HA : expAccurate E) (ss : list f64)
  (Hfin : forall s, In s ss -> ffinite s = true /\ Rabs (B2R s) <= 610) (Hne : ss <> []) (HK : (Z.of_nat (length ss) <= 2 ^ 40)%Z).
Definition ex (s : f64) : R := B2R (e_exp E s).
Let D : f64 := e_sum E (map (e_exp E) ss).
Let T : R := rsum (map ex ss).
Let N : R := INR (length ss).

Lemma ex_facts s : In s ss -> ffinite (e_exp E s) = true /\ 0 < exp (B2R s) /\ (1 - eta) * exp (B2R s) <= ex s <= (1 + eta) * exp (B2R s) /\
  bpow radix2 (-978) <= ex s <= bpow radix2 978.
Proof.
  intros H. destruct (Hfin s H) as [Hf Hb]. destruct (HA s Hf ltac:(lra)) as [F1 F2]. split; [exact F1|]. split; [apply exp_pos|].
  fold (ex s) in F2. apply Rabs_le' in F2. assert (HH : (1 - eta) * exp (B2R s) <= ex s <= (1 + eta) * exp (B2R s)) by lra. split; [exact HH|].
  apply Rabs_le' in Hb. pose proof (exp_610 (B2R s) ltac:(lra)) as Hu. pose proof (exp_lower (B2R s) ltac:(lra)) as Hl. pose proof (exp_pos (B2R s)). rewrite eta_val in HH.
  replace (bpow radix2 978) with (4 * bpow radix2 976) by (change 4 with (bpow radix2 2); rewrite <- bpow_plus; reflexivity).
  replace (bpow radix2 (-978)) with (/ 4 * bpow radix2 (-976)) by (change (/ 4) with (bpow radix2 (-2)); rewrite <- bpow_plus; reflexivity).
  pose proof (bpow_gt_0 radix2 976). pose proof (bpow_gt_0 radix2 (-976)). split; nra.
Qed.
Lemma ex_pos s : In s ss -> 0 < ex s.
Proof. intros H. destruct (ex_facts s H) as (_ & _ & _ & H1 & _). pose proof (bpow_gt_0 radix2 (-978)). lra. Qed.
Lemma N_range : 1 <= N <= 1099511627776.
Proof.
  unfold N. split.
  - change 1 with (INR 1). apply le_INR. destruct ss; [congruence|simpl; lia].
  - rewrite INR_IZR_INZ. apply IZR_le in HK. exact HK.
Qed.
Lemma all_nn : forall x, In x (map ex ss) -> 0 <= x.
Proof. intros x Hx. apply in_map_iff in Hx as (s & <- & Hs). pose proof (ex_pos s Hs). lra. Qed.
Lemma T_pos : 0 < T.
Proof.
  unfold T. destruct ss as [|s l] eqn:Es; [congruence|]. assert (In s ss) by (rewrite Es; left; auto). rewrite <- Es in *. pose proof (ex_pos s H).
  pose proof (rsum_one (map ex ss) 0 (ex s) all_nn ltac:(rewrite Es; reflexivity)). lra.
Qed.
Lemma exact_exps : exact (map (e_exp E) ss) = map ex ss.
Proof. unfold exact. rewrite map_map. reflexivity. Qed.
Lemma D_facts : ffinite D = true /\ (1 - / 4096) * T <= B2R D <= (1 + / 4096) * T.
Proof.
  pose proof (ok_sum E HE (map (e_exp E) ss)) as HS. fold D in HS. pose proof N_range as [N1 N2]. pose proof T_pos as HT.
  assert (Hg : 0 <= gam (length (map (e_exp E) ss)) <= / 4096).
  { split; [apply gam_nn|]. rewrite map_length. destruct (gam_lin (length ss)) as [G _]; [lia|]. fold N in G. rewrite uu_val in G. lra. }
  assert (Has : asum (exact (map (e_exp E) ss)) = T). { rewrite exact_exps. apply asum_nonneg. apply all_nn. }
  assert (HTu : T <= bpow radix2 40 * bpow radix2 978).
  { apply Rle_trans with (N * bpow radix2 978).
    - unfold T, N. rewrite <- (map_length ex ss). apply rsum_upper. intros x Hx. apply in_map_iff in Hx as (s & <- & Hs). apply ex_facts; auto.
    - apply Rmult_le_compat_r; [apply bpow_ge_0|]. simpl. lra. }
  assert (F : ffinite D = true).
  { apply (sum_finite _ _ HS).
    - intros x Hx. apply in_map_iff in Hx as (s & <- & Hs). apply ex_facts; auto.
    - rewrite Has. rewrite <- bpow_plus in HTu. apply Rle_lt_trans with (2 * bpow radix2 (40 + 978)).
      + nra.
      + replace (2 * bpow radix2 (40 + 978)) with (bpow radix2 1019) by (change 2 with (bpow radix2 1); rewrite <- bpow_plus; reflexivity).
        unfold Mx. apply bpow_lt. lia. }
  split; [exact F|]. destruct (sum_error' _ _ HS F) as (_ & _ & HB). rewrite Has, exact_exps in HB. fold T in HB. apply Rabs_le' in HB. nra.
Qed.
Lemma D_pos : 0 < B2R D.
Proof. destruct D_facts as [_ H]. pose proof T_pos. nra. Qed.
Lemma share s : In s ss -> ffinite (fdiv (e_exp E s) D) = true /\ B2R (fdiv (e_exp E s) D) = rnd (ex s / B2R D).
Proof.
  intros H. destruct (ex_facts s H) as (F & _). destruct D_facts as [FD HD]. pose proof D_pos as HP.
  apply (fdiv_small _ _ 2); auto.
  - lra.
  - fold (ex s). pose proof (ex_pos s H) as Hs. rewrite Rabs_pos_eq by (apply Rlt_le; apply Rdiv_lt_0_compat; auto).
    apply (Rmult_le_reg_r (B2R D)); [auto|]. unfold Rdiv. rewrite Rmult_assoc, Rinv_l, Rmult_1_r by lra.
    apply In_nth_error in H as [c Hc]. assert (ex s <= T) by (apply (rsum_one _ c); [apply all_nn|rewrite nth_error_map, Hc; reflexivity]). pose proof T_pos. nra.
  - apply Rle_trans with (bpow radix2 1); [simpl; lra|]. apply bpow_le. lia.
Qed.

(** how two shares compare *)
Lemma ex_ratio s t d : In s ss -> In t ss -> 0 < d -> d * exp (B2R s) <= exp (B2R t) -> d * (1 - 4 * eta) * ex s <= ex t.
Proof.
  intros Hs Ht Hd H. destruct (ex_facts s Hs) as (_ & P1 & [A1 A2] & _). destruct (ex_facts t Ht) as (_ & P2 & [B1 B2] & _).
  rewrite eta_val in *. set (a := exp (B2R s)) in *. set (b := exp (B2R t)) in *. set (h := / 1099511627776) in *. assert (Hh : 0 < h < / 1000000) by (unfold h; lra).
  apply Rle_trans with ((1 - h) * b); [|lra]. apply Rle_trans with ((1 - h) * (d * a)); [|apply Rmult_le_compat_l; lra].
  apply Rle_trans with (d * (1 - 4 * h) * ((1 + h) * a)).
  - apply Rmult_le_compat_l; [apply Rmult_le_pos; lra|lra].
  - replace (d * (1 - 4 * h) * ((1 + h) * a)) with (d * a * ((1 - 4 * h) * (1 + h))) by ring.
    replace ((1 - h) * (d * a)) with (d * a * (1 - h)) by ring. apply Rmult_le_compat_l; [apply Rmult_le_pos; lra|]. nra.
Qed.
Lemma ex_order s t : In s ss -> In t ss -> B2R s <= B2R t -> (1 - 4 * eta) * ex s <= ex t.
Proof. intros Hs Ht H. rewrite <- (Rmult_1_l (1 - 4 * eta)). apply ex_ratio; auto; [lra|]. rewrite Rmult_1_l. apply exp_mono. exact H. Qed.
Lemma ratio_pos s : In s ss -> 0 < ex s / B2R D <= 2.
Proof.
  intros H. pose proof (ex_pos s H). pose proof D_pos as HP. destruct D_facts as [_ HD]. split; [apply Rdiv_lt_0_compat; auto|].
  apply (Rmult_le_reg_r (B2R D)); [auto|]. unfold Rdiv. rewrite Rmult_assoc, Rinv_l, Rmult_1_r by lra.
  apply In_nth_error in H as [c Hc]. assert (ex s <= T) by (apply (rsum_one _ c); [apply all_nn|rewrite nth_error_map, Hc; reflexivity]). pose proof T_pos. nra.
Qed.

Context (c : nat) (sc : f64) (Hc : nth_error ss c = Some sc).
Let Hin : In sc ss := nth_error_In _ _ Hc.
Let pc := fdiv (e_exp E sc) D.

Lemma share_top_ratio : (forall s, In s ss -> B2R s <= B2R sc) -> 99 / 100 / N <= ex sc / B2R D.
Proof.
  intros Htop. pose proof N_range as [N1 N2]. destruct D_facts as [_ [_ HD]]. pose proof D_pos as HP. pose proof (ex_pos sc Hin) as Hs.
  assert (HT : T <= N * (ex sc * (101 / 100) * (999 / 1000))).
  { unfold T, N. rewrite <- (map_length ex ss). apply rsum_upper. intros x Hx. apply in_map_iff in Hx as (s & <- & Hx).
    pose proof (ex_order s sc Hx Hin (Htop s Hx)). pose proof (ex_pos s Hx). rewrite eta_val in *. nra. }
  apply (Rmult_le_reg_r (B2R D)); [auto|]. unfold Rdiv at 3. rewrite (Rmult_assoc (ex sc)), Rinv_l, Rmult_1_r by lra.
  apply (Rmult_le_reg_r N); [lra|]. replace (99 / 100 / N * B2R D * N) with (99 / 100 * B2R D) by (field; lra).
  apply Rle_trans with (99 / 100 * ((1 + / 4096) * (N * (ex sc * (101 / 100) * (999 / 1000))))); [nra|].
  assert (0 < ex sc * N) by (apply Rmult_lt_0_compat; lra). nra.
Qed.
Lemma share_top : (forall s, In s ss -> B2R s <= B2R sc) -> 2 / 3 / N <= B2R pc.
Proof.
  intros Htop. destruct (share sc Hin) as [_ Eq]. fold pc in Eq. rewrite Eq. pose proof (share_top_ratio Htop) as H. pose proof N_range as [N1 N2].
  destruct (ratio_pos sc Hin) as [P1 P2]. pose proof (rnd_abs_pos (ex sc / B2R D) ltac:(lra)) as HR.
  pose proof one_uu. pose proof ee_small. set (q := ex sc / B2R D) in *.
  assert (Hi : / 1099511627776 <= / N) by (apply Rinv_le_contravar; lra). unfold Rdiv in *. nra.
Qed.
Lemma share_strict s : (forall s, In s ss -> B2R s <= B2R sc) -> In s ss -> bpow radix2 (-34) <= B2R sc - B2R s ->
  B2R (fdiv (e_exp E s) D) < B2R pc.
Proof.
  intros Htop Hs Hgap. destruct (share sc Hin) as [_ Eq]. fold pc in Eq. rewrite Eq. destruct (share s Hs) as [_ ->].
  assert (E34 : bpow radix2 (-34) = / 17179869184) by reflexivity. rewrite E34 in Hgap.
  assert (H1 : (1 + / 17179869184) * exp (B2R s) <= exp (B2R sc)).
  { replace (B2R sc) with ((B2R sc - B2R s) + B2R s) by ring. rewrite exp_plus. pose proof (exp_pos (B2R s)). pose proof (exp_ineq1_le (B2R sc - B2R s)).
    apply Rmult_le_compat_r; lra. }
  pose proof (ex_ratio s sc (1 + / 17179869184) Hs Hin ltac:(lra) H1) as H2. rewrite eta_val in H2. pose proof (ex_pos s Hs) as Ps.
  assert (H3 : (1 + / 34359738368) * ex s <= ex sc) by nra. pose proof D_pos as HP.
  set (a := ex sc / B2R D). set (b := ex s / B2R D).
  assert (Hab : (1 + / 34359738368) * b <= a). { unfold a, b, Rdiv. rewrite <- Rmult_assoc. apply Rmult_le_compat_r; [left; apply Rinv_0_lt_compat; auto|exact H3]. }
  pose proof (share_top_ratio Htop) as H. fold a in H. pose proof N_range as [N1 N2].
  assert (Hi : / 1099511627776 <= / N) by (apply Rinv_le_contravar; lra).
  assert (Ha : / 2199023255552 <= a) by (unfold Rdiv in H; lra).
  assert (Hb : 0 < b) by (apply Rdiv_lt_0_compat; auto).
  pose proof (rnd_abs_pos a ltac:(lra)) as R1. pose proof (rnd_abs_pos b ltac:(lra)) as R2. pose proof ee_small. rewrite uu_val in R1, R2. lra.
Qed.
Context (j : nat) (sj : f64) (Hj : nth_error ss j = Some sj) (Hcj : c <> j).
Let Hinj : In sj ss := nth_error_In _ _ Hj.
Let pj := fdiv (e_exp E sj) D.
Lemma T_two : ex sc + ex sj <= T.
Proof. apply (rsum_two _ c j); auto; [apply all_nn|rewrite nth_error_map, Hc; reflexivity|rewrite nth_error_map, Hj; reflexivity]. Qed.
Lemma rnd_to x m e : (Z.abs m < 2 ^ 53)%Z -> (-1074 <= e)%Z -> x <= IZR m * bpow radix2 e -> rnd x <= IZR m * bpow radix2 e.
Proof. intros Hm He H. apply rnd_le_fmt; [exact H|]. apply fmt_dyadic; auto. Qed.
Lemma share_not_all : B2R sc - B2R sj <= 101 / 100 -> B2R pc <= 7 / 8.
Proof.
  intros Hgap. destruct (share sc Hin) as [_ Eq]. fold pc in Eq. rewrite Eq.
  replace (7 / 8) with (IZR 7 * bpow radix2 (-3)) by (simpl; lra). apply rnd_to; try (simpl; lia).
  replace (IZR 7 * bpow radix2 (-3)) with (7 / 8) by (simpl; lra).
  assert (H1 : / 4 * exp (B2R sc) <= exp (B2R sj)).
  { replace (B2R sc) with ((B2R sc - B2R sj) + B2R sj) by ring. rewrite exp_plus. pose proof (exp_pos (B2R sj)). pose proof (exp_close _ Hgap). nra. }
  pose proof (ex_ratio sc sj (/ 4) Hin Hinj ltac:(lra) H1) as H2. rewrite eta_val in H2. pose proof (ex_pos sc Hin) as Ps. pose proof T_two. destruct D_facts as [_ [HD _]].
  pose proof D_pos. apply (Rmult_le_reg_r (B2R D)); [auto|]. unfold Rdiv. rewrite Rmult_assoc, Rinv_l, Rmult_1_r by lra. nra.
Qed.
Lemma share_other : B2R sj <= B2R sc -> B2R pj <= 5 / 8.
Proof.
  intros Hle. destruct (share sj Hinj) as [_ Eq]. fold pj in Eq. rewrite Eq.
  replace (5 / 8) with (IZR 5 * bpow radix2 (-3)) by (simpl; lra). apply rnd_to; try (simpl; lia).
  replace (IZR 5 * bpow radix2 (-3)) with (5 / 8) by (simpl; lra).
  pose proof (ex_order sj sc Hinj Hin Hle) as H2. rewrite eta_val in H2. pose proof (ex_pos sj Hinj) as Ps. pose proof T_two. destruct D_facts as [_ [HD _]].
  pose proof D_pos. apply (Rmult_le_reg_r (B2R D)); [auto|]. unfold Rdiv. rewrite Rmult_assoc, Rinv_l, Rmult_1_r by lra. nra.
Qed.
Lemma exp_29 x : x <= 29 -> exp x <= bpow radix2 46.
Proof.
  intros H. apply Rle_trans with (exp (INR 29)); [apply exp_mono; rewrite INR_IZR_INZ; exact H|]. rewrite exp_INR. apply Rle_trans with (3 ^ 29)%R.
  { apply pow_incr. split; [left; apply exp_pos|apply exp_le_3]. }
  simpl. lra.
Qed.
Lemma gap_ratio : B2R sc - B2R sj <= 29 -> ex sc <= bpow radix2 47 * ex sj.
Proof.
  intros Hgap. assert (H1 : bpow radix2 (-46) * exp (B2R sc) <= exp (B2R sj)).
  { replace (B2R sc) with ((B2R sc - B2R sj) + B2R sj) by ring. rewrite exp_plus. pose proof (exp_pos (B2R sj)). pose proof (exp_29 _ Hgap).
    assert (E1 : bpow radix2 (-46) * bpow radix2 46 = 1) by (rewrite <- bpow_plus; reflexivity). rewrite <- Rmult_assoc.
    rewrite <- (Rmult_1_l (exp (B2R sj))) at 2. apply Rmult_le_compat_r; [lra|]. rewrite <- E1. apply Rmult_le_compat_l; [apply bpow_ge_0|assumption]. }
  pose proof (ex_ratio sc sj (bpow radix2 (-46)) Hin Hinj (bpow_gt_0 _ _) H1) as H2. pose proof (ex_pos sc Hin) as Ps.
  assert (E47 : bpow radix2 47 = 140737488355328) by reflexivity. rewrite E47. assert (E46 : bpow radix2 (-46) = / 70368744177664) by reflexivity.
  rewrite eta_val, E46 in H2. lra.
Qed.
Lemma share_below_one : B2R sc - B2R sj <= 29 -> B2R pc <= 1 - bpow radix2 (-49).
Proof.
  intros Hgap. destruct (share sc Hin) as [_ Eq]. fold pc in Eq. rewrite Eq.
  replace (1 - bpow radix2 (-49)) with (IZR (2 ^ 49 - 1) * bpow radix2 (-49)) by (simpl; lra). apply rnd_to; try (simpl; lia).
  replace (IZR (2 ^ 49 - 1) * bpow radix2 (-49)) with (1 - bpow radix2 (-49)) by (simpl; lra).
  pose proof (gap_ratio Hgap) as HG. pose proof (ex_pos sc Hin) as Ps. pose proof (ex_pos sj Hinj) as Pj. destruct D_facts as [FD _].
  assert (HD : rnd (ex sc + ex sj) <= B2R D).
  { destruct (two_perm (map (e_exp E) ss) c j (e_exp E sc) (e_exp E sj) Hcj) as (r & Hr); [rewrite nth_error_map, Hc; reflexivity|rewrite nth_error_map, Hj; reflexivity|].
    destruct (is_sum_above _ _ (ok_sum E HE (map (e_exp E) ss)) FD) as (_ & _ & HAb).
    - intros x Hx. apply in_map_iff in Hx as (s & <- & Hs). fold (ex s). pose proof (ex_pos s Hs). lra.
    - exact (HAb _ _ _ Hr). }
  destruct (rnd_plus (e_exp E sc) (e_exp E sj)) as (e & He & Hr). fold (ex sc) (ex sj) in Hr. rewrite Hr in HD. apply Rabs_le' in He. rewrite uu_val in He.
  assert (E47 : bpow radix2 47 = 140737488355328) by reflexivity. rewrite E47 in HG. assert (E49 : bpow radix2 (-49) = / 562949953421312) by reflexivity. rewrite E49.
  pose proof D_pos as HP. apply (Rmult_le_reg_r (B2R D)); [auto|]. unfold Rdiv. rewrite Rmult_assoc, Rinv_l, Rmult_1_r by lra.
  apply Rle_trans with ((1 - / 562949953421312) * ((ex sc + ex sj) * (1 + e))); [|apply Rmult_le_compat_l; lra].
  apply Rle_trans with ((1 - / 562949953421312) * ((ex sc + ex sc * / 140737488355328) * (1 - / 9007199254740992))); [nra|].
  apply Rmult_le_compat_l; [lra|]. apply Rmult_le_compat; lra.
Qed.
Lemma share_not_zero : (forall s, In s ss -> B2R s <= B2R sc) -> B2R sc - B2R sj <= 29 -> bpow radix2 (-100) <= B2R pj.
Proof.
  intros Htop Hgap. destruct (share sj Hinj) as [_ Eq]. fold pj in Eq. rewrite Eq.
  apply rnd_ge_fmt; [|replace (bpow radix2 (-100)) with (IZR 1 * bpow radix2 (-100)) by (rewrite Rmult_1_l; reflexivity); apply fmt_dyadic; lia].
  pose proof (share_top_ratio Htop) as H. pose proof N_range as [N1 N2]. assert (Hi : / 1099511627776 <= / N) by (apply Rinv_le_contravar; lra).
  pose proof (gap_ratio Hgap) as HG. pose proof D_pos as HP.
  assert (Hr : ex sc / B2R D <= bpow radix2 47 * (ex sj / B2R D)).
  { unfold Rdiv. rewrite <- Rmult_assoc. apply Rmult_le_compat_r; [left; apply Rinv_0_lt_compat; auto|exact HG]. }
  set (q := ex sj / B2R D) in *. assert (E47 : bpow radix2 47 = 140737488355328) by reflexivity. rewrite E47 in Hr.
  apply Rle_trans with (bpow radix2 (-90)); [apply bpow_le; lia|]. unfold Rdiv in H. simpl. lra.
Qed.
End Shares.

(** ** The values of leaves with a single sample *)
Lemma fadd_zero_val x : ffinite x = true -> ffinite (fadd fzero x) = true /\ B2R (fadd fzero x) = B2R x.
Proof.
  intros F. assert (Z0 : B2R fzero = 0) by reflexivity.
  assert (F' : ffinite (fadd fzero x) = true). { apply fadd_finite; auto. rewrite Z0, Rplus_0_l, rnd_B2R. apply abs_B2R_lt. }
  split; [exact F'|]. destruct (fadd_real _ _ F') as (_ & _ & ->). rewrite Z0, Rplus_0_l. apply rnd_B2R.
Qed.
Definition leafValue (g h : f64) : f64 := fdiv (fadd fzero g) (fadd fzero h).
Lemma leaf_one g : ffinite g = true -> ffinite (leafValue g (fofZ 1)) = true /\ B2R (leafValue g (fofZ 1)) = B2R g.
Proof.
  intros F. unfold leafValue. destruct (fadd_zero_val g F) as [F1 E1]. destruct (fofZ_exact50 1 ltac:(lia)) as [K1 K2]. destruct (fadd_zero_val _ K1) as [F2 E2].
  rewrite K2 in E2. destruct (fdiv_ext _ _ F1 F2) as [Hn He]; [rewrite E2; lra|]. rewrite E1, E2 in He. replace (B2R g / 1) with (B2R g) in He by field.
  rewrite rnd_B2R, clamp_id in He by (pose proof (B2R_bounds g); lra).
  assert (F' : ffinite (fdiv (fadd fzero g) (fadd fzero (fofZ 1))) = true). { apply finite_ext; auto. rewrite He. pose proof (B2R_bounds g). lra. }
  split; [exact F'|]. rewrite <- He. symmetry. apply ext_finite. exact F'.
Qed.
Lemma diff_one p : ffinite p = true -> 0 <= B2R p <= 1 -> ffinite (fsub fone p) = true /\ 0 <= B2R (fsub fone p) <= 1 /\ B2R (fsub fone p) = rnd (1 - B2R p).
Proof.
  intros F H. destruct (fsub_small fone p eq_refl F) as [F1 E1]; [rewrite B2R_fone; apply Rabs_le; lra|]. rewrite B2R_fone in E1. split; [exact F1|].
  split; [|exact E1]. rewrite E1. split; [apply rnd_ge_0; lra|]. rewrite <- B2R_fone at 2. rewrite <- (rnd_B2R fone), B2R_fone. apply rnd_mono. lra.
Qed.
Lemma diff_zero p : ffinite p = true -> 0 <= B2R p <= 1 -> ffinite (fsub fzero p) = true /\ B2R (fsub fzero p) = - B2R p.
Proof.
  intros F H. assert (Z0 : B2R fzero = 0) by reflexivity. destruct (fsub_small fzero p eq_refl F) as [F1 E1]; [rewrite Z0; apply Rabs_le; lra|].
  rewrite Z0 in E1. split; [exact F1|]. rewrite E1. replace (0 - B2R p) with (- B2R p) by ring. rewrite rnd_opp, rnd_B2R. reflexivity.
Qed.
Lemma sq_true p : ffinite p = true -> 0 <= B2R p <= 1 -> let v := leafValue (fsub fone p) (fofZ 1) in
  ffinite v = true /\ 0 <= B2R v <= 1 /\ (B2R p <= 7 / 8 -> / 8 <= B2R v).
Proof.
  intros F H v. destruct (diff_one p F H) as (F1 & R1 & E1). destruct (leaf_one _ F1) as [F2 E2]. fold v in F2, E2. split; [exact F2|]. rewrite E2. split; [exact R1|].
  intros H8. rewrite E1. apply rnd_ge_fmt; [lra|]. change (/ 8) with (bpow radix2 (-3)). rewrite <- (Rmult_1_l (bpow radix2 (-3))). apply (fmt_dyadic 1); lia.
Qed.
Lemma sq_other p : ffinite p = true -> 0 <= B2R p <= 1 -> let v := leafValue (fsub fzero p) (fofZ 1) in
  ffinite v = true /\ -1 <= B2R v <= 0.
Proof.
  intros F H v. destruct (diff_zero p F H) as (F1 & E1). destruct (leaf_one _ F1) as [F2 E2]. fold v in F2, E2. split; [exact F2|]. rewrite E2. lra.
Qed.
(** the product in the second derivative of MSELoss, away from underflow *)
Lemma hess_val p : ffinite p = true -> bpow radix2 (-100) <= B2R p <= 1 - bpow radix2 (-49) ->
  let g := fsub fone p in let h := fmul g p in
  ffinite g = true /\ ffinite h = true /\ bpow radix2 (-50) <= B2R g <= 1 /\
  exists e1 e2, Rabs e1 <= uu /\ Rabs e2 <= 2 * uu /\ B2R g = (1 - B2R p) * (1 + e1) /\ B2R h = B2R g * B2R p * (1 + e2).
Proof.
  intros F [P1 P2] g h. pose proof (bpow_gt_0 radix2 (-100)). pose proof (bpow_gt_0 radix2 (-49)) as P49.
  destruct (diff_one p F ltac:(lra)) as (F1 & R1 & E1). fold g in F1, R1, E1. pose proof one_uu as [U1 U2].
  assert (Eg : exists e1, Rabs e1 <= uu /\ B2R g = (1 - B2R p) * (1 + e1)).
  { destruct (rnd_plus fone (fopp p)) as (e & He & Hr). exists e. split; [exact He|]. rewrite E1. rewrite B2R_fone in Hr.
    assert (Eo : B2R (fopp p) = - B2R p) by (apply B2R_Bopp). rewrite Eo in Hr. exact Hr. }
  destruct Eg as (e1 & He1 & Eg). apply Rabs_le' in He1 as He1'.
  assert (G50 : bpow radix2 (-50) <= B2R g).
  { rewrite Eg. apply Rle_trans with (bpow radix2 (-49) * (1 + e1)); [|apply Rmult_le_compat_r; lra].
    replace (bpow radix2 (-50)) with (bpow radix2 (-49) * / 2) by (change (/ 2) with (bpow radix2 (-1)); rewrite <- bpow_plus; reflexivity).
    apply Rmult_le_compat_l; lra. }
  pose proof (bpow_gt_0 radix2 (-50)).
  assert (Hgp : 0 <= B2R g * B2R p <= 1) by (split; nra).
  destruct (fmul_small g p F1 F) as [Fh Eh]; [apply Rabs_le; lra|]. fold h in Fh, Eh.
  split; [exact F1|]. split; [exact Fh|]. split; [lra|].
  assert (Hbig : bpow radix2 (-150) <= B2R g * B2R p).
  { change (-150)%Z with (-50 + -100)%Z. rewrite bpow_plus. apply Rmult_le_compat; lra. }
  destruct (rnd_any (B2R g * B2R p)) as (e & n & He & Hn & Hr). pose proof (bpow_gt_0 radix2 (-150)) as P150.
  exists e1, (e + n / (B2R g * B2R p)). split; [exact He1|]. split.
  - eapply Rle_trans; [apply Rabs_triang|]. assert (Rabs (n / (B2R g * B2R p)) <= uu); [|lra].
    unfold Rdiv. rewrite Rabs_mult, (Rabs_pos_eq (/ _)) by (left; apply Rinv_0_lt_compat; lra).
    apply (Rmult_le_reg_r (B2R g * B2R p)); [lra|]. rewrite Rmult_assoc, Rinv_l, Rmult_1_r by lra.
    apply Rle_trans with ee; [exact Hn|]. apply Rle_trans with (uu * bpow radix2 (-150)); [|apply Rmult_le_compat_l; lra].
    unfold uu, ee. rewrite <- bpow_plus. apply bpow_le. lia.
  - split; [exact Eg|]. rewrite Eh, Hr. field. split; nra.
Qed.
Lemma mse_true p N : ffinite p = true -> 2 <= N <= 1099511627776 -> 2 / 3 / N <= B2R p <= 1 - bpow radix2 (-49) ->
  let v := leafValue (fsub fone p) (fmul (fsub fone p) p) in ffinite v = true /\ / 8 <= B2R v <= 2 * N.
Proof.
  intros F HN [P1 P2] v. assert (Hi : / 1099511627776 <= / N) by (apply Rinv_le_contravar; lra).
  assert (P100 : bpow radix2 (-100) <= B2R p). { apply Rle_trans with (bpow radix2 (-42)); [apply bpow_le; lia|]. unfold Rdiv in P1. simpl. lra. }
  destruct (hess_val p F (conj P100 P2)) as (Fg & Fh & [G1 G2] & e1 & e2 & He1 & He2 & Eg & Eh). set (g := fsub fone p) in *. set (h := fmul g p) in *.
  destruct (fadd_zero_val g Fg) as [Fg' Eg']. destruct (fadd_zero_val h Fh) as [Fh' Eh']. pose proof (bpow_gt_0 radix2 (-50)). pose proof (bpow_gt_0 radix2 (-100)).
  pose proof (bpow_gt_0 radix2 (-49)) as P49. pose proof one_uu as [U1 U2]. apply Rabs_le' in He2.
  assert (Hgp : 0 < B2R g * B2R p) by (apply Rmult_lt_0_compat; lra).
  assert (Hh : 0 < B2R h) by (rewrite Eh; apply Rmult_lt_0_compat; lra).
  assert (Hq : B2R g / B2R h = / (B2R p * (1 + e2))). { rewrite Eh. field. repeat split; lra. }
  assert (Hpl : 2 / 3 / N * (999 / 1000) <= B2R p * (1 + e2)). { assert (0 < 2 / 3 / N) by (apply Rdiv_lt_0_compat; lra). apply Rmult_le_compat; lra. }
  assert (Hp2 : 0 < B2R p * (1 + e2) <= 2) by (split; [apply Rmult_lt_0_compat; lra|nra]).
  assert (Hqu : B2R g / B2R h <= 19 / 10 * N).
  { rewrite Hq. replace (19 / 10 * N) with (/ (10 / 19 / N)) by (field; lra). apply Rinv_le_contravar; [apply Rdiv_lt_0_compat; lra|]. unfold Rdiv in *. lra. }
  assert (Hql : / 2 <= B2R g / B2R h) by (rewrite Hq; apply Rinv_le_contravar; lra).
  destruct (fdiv_small (fadd fzero g) (fadd fzero h) (2 * N) Fg' Fh') as [Fv Ev].
  - rewrite Eh'. lra.
  - rewrite Eg', Eh', Rabs_pos_eq by lra. lra.
  - apply Rle_trans with (bpow radix2 42); [simpl; lra|apply bpow_le; lia].
  - rewrite Eg', Eh' in Ev. split; [exact Fv|]. unfold v, leafValue. rewrite Ev. pose proof (rnd_abs_pos (B2R g / B2R h) ltac:(lra)) as HR. pose proof ee_small.
    assert (uu * (B2R g / B2R h) <= / 1000000 * (B2R g / B2R h)) by (apply Rmult_le_compat_r; lra). split; lra.
Qed.
Lemma mse_other p : ffinite p = true -> bpow radix2 (-100) <= B2R p <= 5 / 8 ->
  let v := leafValue (fsub fzero p) (fmul (fsub fone p) p) in ffinite v = true /\ -3 <= B2R v <= 0.
Proof.
  intros F [P1 P2] v. pose proof (bpow_gt_0 radix2 (-100)). assert (P49 : bpow radix2 (-49) = / 562949953421312) by reflexivity.
  destruct (hess_val p F ltac:(rewrite P49; lra)) as (Fg & Fh & [G1 G2] & e1 & e2 & He1 & He2 & Eg & Eh). set (g := fsub fone p) in *. set (h := fmul g p) in *.
  destruct (diff_zero p F ltac:(lra)) as (Fn & En). set (n := fsub fzero p) in *.
  destruct (fadd_zero_val n Fn) as [Fn' En']. destruct (fadd_zero_val h Fh) as [Fh' Eh']. pose proof (bpow_gt_0 radix2 (-50)).
  pose proof one_uu as [U1 U2]. apply Rabs_le' in He2, He1.
  assert (Hgp : 0 < B2R g * B2R p) by (apply Rmult_lt_0_compat; lra).
  assert (Hh : 0 < B2R h) by (rewrite Eh; apply Rmult_lt_0_compat; lra).
  assert (Hq : B2R n / B2R h = - / (B2R g * (1 + e2))). { rewrite Eh, En. field. repeat split; lra. }
  assert (Hg : 37 / 100 <= B2R g) by (rewrite Eg; nra).
  assert (Hg2 : 36 / 100 <= B2R g * (1 + e2)) by nra.
  assert (Hi : 0 < / (B2R g * (1 + e2)) <= 29 / 10).
  { split; [apply Rinv_0_lt_compat; lra|]. replace (29 / 10) with (/ (10 / 29)) by field. apply Rinv_le_contravar; lra. }
  destruct (fdiv_small (fadd fzero n) (fadd fzero h) 3 Fn' Fh') as [Fv Ev].
  - rewrite Eh'. lra.
  - rewrite En', Eh', Hq, Rabs_Ropp, Rabs_pos_eq by lra. lra.
  - apply Rle_trans with (bpow radix2 2); [simpl; lra|apply bpow_le; lia].
  - rewrite En', Eh', Hq in Ev. split; [exact Fv|]. unfold v, leafValue. rewrite Ev, rnd_opp. pose proof (rnd_abs_pos (/ (B2R g * (1 + e2))) ltac:(lra)) as HR. pose proof ee_small.
    pose proof (rnd_ge_0 (/ (B2R g * (1 + e2))) ltac:(lra)).
    assert (uu * / (B2R g * (1 + e2)) <= / 1000000 * / (B2R g * (1 + e2))) by (apply Rmult_le_compat_r; lra). split; lra.
Qed.
