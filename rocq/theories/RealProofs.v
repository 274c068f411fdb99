(** Exact-arithmetic facts about the formulas of the library, instantiated at [RN] (proof support for
    C13, C14, C24, C25, C26, C27). *)
From Coq Require Import Reals Lra Psatz.
From Verif Require Import Base F64 F64Lemmas Env EnvLemmas Utils Tree Spec.
Open Scope R_scope.

Lemma rsum_app l l' : rsum (l ++ l') = rsum l + rsum l'.
Proof. induction l as [|x l IH]; simpl; lra. Qed.
Lemma rsum_fold l a : fold_left Rplus l a = a + rsum l.
Proof. revert a; induction l as [|x l IH]; intros a; simpl; [lra|]. rewrite IH. lra. Qed.
Lemma rsum_nn l : (forall x, In x l -> 0 <= x) -> 0 <= rsum l.
Proof.
  induction l as [|x l IH]; intros H; simpl; [lra|].
  assert (0 <= x) by (apply H; left; auto). assert (0 <= rsum l) by (apply IH; intros; apply H; right; auto). lra.
Qed.

(** ** C13 *)
Lemma leafObjective_eq gh lambda w :
  leafObjective gh lambda w = sumG gh * w + (sumH gh + lambda) * (w * w) / 2.
Proof.
  unfold leafObjective, sumG, sumH.
  assert (H : rsum (map (fun p => fst p * w + snd p * (w * w) / 2) gh) =
              rsum (map fst gh) * w + rsum (map snd gh) * (w * w) / 2).
  { induction gh as [|p gh IH]; simpl; [lra|]. rewrite IH. lra. }
  rewrite H. lra.
Qed.

Lemma c13_value_lemma gh lambda : 0 < sumH gh + lambda -> forall w,
  let v : R := xgbValue RN (sumG gh) (sumH gh) lambda in
  leafObjective gh lambda v <= leafObjective gh lambda w /\
  (leafObjective gh lambda w = leafObjective gh lambda v -> w = v).
Proof.
  intros HH w v. rewrite !leafObjective_eq. set (G := sumG gh) in *. set (K := sumH gh + lambda) in *.
  assert (Hv : @eq R v (- G / K)) by (unfold v, xgbValue; cbn [ndiv nmul nofZ nadd RN]; fold K; field; lra).
  assert (HD : G * w + K * (w * w) / 2 - (G * v + K * (v * v) / 2) = K / 2 * ((w - v) * (w - v))).
  { rewrite Hv. field. lra. }
  assert (HS : 0 <= (w - v) * (w - v)) by apply Rle_0_sqr. clear Hv. clearbody v K G.
  split; [nra|]. intros HE. assert (HZ : (w - v) * (w - v) = 0) by nra. apply Rmult_integral in HZ. lra.
Qed.

Lemma c13_gain_lemma l r lambda gamma :
  0 < sumH l + lambda -> 0 < sumH r + lambda -> 0 < sumH (l ++ r) + lambda ->
  let best gh := leafObjective gh lambda (xgbValue RN (sumG gh) (sumH gh) lambda) in
  xgbGain RN (1 / 2) (sumG l) (sumH l) (sumG r) (sumH r) (sumG (l ++ r)) (sumH (l ++ r)) lambda gamma =
  best (l ++ r) - (best l + best r) - gamma / 2.
Proof.
  intros H1 H2 H3 best. unfold best. rewrite !leafObjective_eq. unfold xgbGain, xgbValue, sq.
  cbn [ndiv nmul nofZ nadd nsub RN carrier]. field. lra.
Qed.

(** ** C14 *)
Lemma deviations_eq l m : deviations l m = rsum (map (fun y => y * y) l) - 2 * m * rsum l + INR (length l) * (m * m).
Proof.
  unfold deviations. induction l as [|y l IH]; [simpl; lra|].
  change (map (fun y => (y - m) * (y - m)) (y :: l)) with ((y - m) * (y - m) :: map (fun y => (y - m) * (y - m)) l).
  change (length (y :: l)) with (S (length l)). rewrite S_INR. simpl rsum. rewrite IH. lra.
Qed.
Lemma INR_len_pos {A} (l : list A) : l <> [] -> 0 < INR (length l).
Proof. intros H. apply lt_0_INR. destruct l; [congruence|simpl; lia]. Qed.

Lemma c14_mean_lemma l : l <> [] ->
  meanValue RN (rsum l) (Z.of_nat (length l)) = mean l /\
  forall m, deviations l (mean l) <= deviations l m /\ (deviations l m = deviations l (mean l) -> m = mean l).
Proof.
  intros Hl. pose proof (INR_len_pos l Hl) as HP. split.
  - unfold meanValue, mean. cbn [ndiv nofZ RN carrier]. rewrite <- INR_IZR_INZ. reflexivity.
  - intros m. rewrite !deviations_eq. set (n := INR (length l)) in *. set (S := rsum l). set (Q := rsum (map _ l)).
    assert (HM : mean l = S / n) by reflexivity.
    assert (HD : (Q - 2 * m * S + n * (m * m)) - (Q - 2 * mean l * S + n * (mean l * mean l)) = n * ((m - mean l) * (m - mean l))).
    { rewrite HM. field. lra. }
    assert (0 <= (m - mean l) * (m - mean l)) by apply Rle_0_sqr. split; [nra|]. intros HE.
    assert (HZ : (m - mean l) * (m - mean l) = 0) by nra. apply Rmult_integral in HZ. lra.
Qed.

Lemma deviations_mean l : l <> [] -> deviations l (mean l) = rsum (map (fun y => y * y) l) - rsum l * rsum l / INR (length l).
Proof. intros Hl. pose proof (INR_len_pos l Hl). rewrite deviations_eq. unfold mean. field. lra. Qed.

Lemma c14_score_lemma l r : l <> [] -> r <> [] ->
  let score : R := regGain RN (rsum l) (rsum r) (rsum (l ++ r)) (Z.of_nat (length l)) (Z.of_nat (length r)) (Z.of_nat (length (l ++ r))) in
  score = deviations l (mean l) + deviations r (mean r) - deviations (l ++ r) (mean (l ++ r)) /\ score <= 0.
Proof.
  intros Hl Hr score.
  assert (Hlr : l ++ r <> []) by (destruct l; simpl; congruence).
  assert (HE : score = deviations l (mean l) + deviations r (mean r) - deviations (l ++ r) (mean (l ++ r))).
  { rewrite !deviations_mean by auto. rewrite map_app, rsum_app. unfold score, regGain, sq.
    cbn [ndiv nmul nofZ nadd nsub nopp RN carrier]. rewrite <- !INR_IZR_INZ.
    pose proof (INR_len_pos _ Hl). pose proof (INR_len_pos _ Hr). pose proof (INR_len_pos _ Hlr). field. lra. }
  split; [exact HE|]. rewrite HE.
  destruct (c14_mean_lemma l Hl) as [_ H1]. destruct (c14_mean_lemma r Hr) as [_ H2].
  specialize (H1 (mean (l ++ r))). specialize (H2 (mean (l ++ r))).
  assert (HA : deviations (l ++ r) (mean (l ++ r)) = deviations l (mean (l ++ r)) + deviations r (mean (l ++ r))).
  { unfold deviations. rewrite map_app, rsum_app. reflexivity. }
  lra.
Qed.

(** ** C24 *)
Lemma rsum_scale l k : rsum (map (fun v => v / k) l) = rsum l / k.
Proof. induction l as [|x l IH]; simpl; [lra|]. rewrite IH. lra. Qed.
Lemma rsum_pos l : l <> [] -> (forall x, In x l -> 0 < x) -> 0 < rsum l.
Proof.
  destruct l as [|x l]; [congruence|]. intros _ H. simpl. assert (0 < x) by (apply H; left; auto).
  assert (0 <= rsum l) by (apply rsum_nn; intros y Hy; apply Rlt_le, H; right; auto). lra.
Qed.
Lemma c24_lemma p : p <> [] ->
  let q : list R := softmax RN exp rsum p in
  length q = length p /\ (forall x, In x q -> 0 < x) /\ rsum q = 1 /\
  forall i j a b a' b', nth_error p i = Some a -> nth_error p j = Some b ->
    nth_error q i = Some a' -> nth_error q j = Some b' -> (a < b <-> a' < b').
Proof.
  intros Hp q. set (s := rsum (map exp p)).
  assert (Hs : 0 < s).
  { apply rsum_pos.
    - destruct p; simpl; congruence.
    - intros x Hx. apply in_map_iff in Hx as (y & <- & _). apply exp_pos. }
  assert (Hq : q = map (fun v => v / s) (map exp p)) by reflexivity.
  split; [|split; [|split]].
  - rewrite Hq, !map_length. auto.
  - rewrite Hq. intros x Hx. apply in_map_iff in Hx as (y & <- & Hy). apply in_map_iff in Hy as (z & <- & _).
    apply Rdiv_lt_0_compat; auto. apply exp_pos.
  - rewrite Hq, rsum_scale. fold s. field. lra.
  - intros i j a b a' b' Ha Hb Ha' Hb'. rewrite Hq, map_map in Ha', Hb'. cbn [carrier RN] in *.
    rewrite nth_error_map in Ha', Hb'. rewrite Ha in Ha'. rewrite Hb in Hb'. simpl in Ha', Hb'.
    injection Ha' as <-. injection Hb' as <-.
    assert (Hi : 0 < / s) by (apply Rinv_0_lt_compat; auto). unfold Rdiv. split; intros H.
    + apply Rmult_lt_compat_r; auto. apply exp_increasing; auto.
    + apply exp_lt_inv. eapply Rmult_lt_reg_r; eauto.
Qed.

(** ** C25 *)
Lemma c25_exact_lemma p : rsum p <> 0 ->
  let q : list R := normalization RN p in
  length q = length p /\ rsum q = 1 /\
  forall i a b, nth_error p i = Some a -> nth_error q i = Some b -> b = a / rsum p.
Proof.
  intros Hs q. assert (Hq : q = map (fun v => v / rsum p) p).
  { unfold q, normalization. cbn [ndiv nadd nofZ RN]. change (nadd RN) with Rplus. apply map_ext. intros v.
    assert (HR : fold_left Rplus p 0 = rsum p) by (rewrite rsum_fold; lra).
    unfold carrier, RN in *. rewrite HR. reflexivity. }
  rewrite Hq. split; [apply map_length|]. split.
  - rewrite rsum_scale. field. auto.
  - intros i a b Ha Hb. rewrite nth_error_map, Ha in Hb. simpl in Hb. congruence.
Qed.

(** ** C26 *)
Lemma c26_derivative_lemma y p : length y = length p ->
  forall i yi pi gi, nth_error y i = Some yi -> nth_error p i = Some pi -> nth_error (gradients RN y p) i = Some gi ->
  derivable_pt_lim (fun q => (yi - q) * (yi - q) / 2) pi gi.
Proof.
  intros HL i yi pi gi Hy Hp Hg. unfold gradients, negGradients in Hg. rewrite map_map, nth_error_map in Hg.
  assert (HC : nth_error (combine y p) i = Some (yi, pi)).
  { clear Hg HL. revert p i Hy Hp. induction y as [|a y IH]; intros [|b p] [|i] Hy Hp; simpl in *; try discriminate; [congruence|auto]. }
  rewrite HC in Hg. simpl in Hg. injection Hg as <-.
  replace (-1 * (yi - pi)) with (((0 - 1) * (yi - pi) + (yi - pi) * (0 - 1)) * / 2 + (yi - pi) * (yi - pi) * 0) by lra.
  apply (derivable_pt_lim_mult (fun q => (yi - q) * (yi - q)) (fun _ => / 2)).
  - apply (derivable_pt_lim_mult (fun q => yi - q) (fun q => yi - q)).
    + apply (derivable_pt_lim_minus (fun _ => yi) (fun q => q)); [apply derivable_pt_lim_const|apply derivable_pt_lim_id].
    + apply (derivable_pt_lim_minus (fun _ => yi) (fun q => q)); [apply derivable_pt_lim_const|apply derivable_pt_lim_id].
  - apply derivable_pt_lim_const.
Qed.

(** ** C27 *)
Lemma c27_exact_lemma p : (forall v, In v p -> 0 <= v <= 1) -> forall h, In h (mseHessian RN p) -> 0 <= h <= 1 / 4.
Proof.
  intros H h Hh. apply in_map_iff in Hh as (v & <- & Hv). specialize (H v Hv). cbn [nmul nsub nofZ RN carrier].
  split; [nra|]. assert (0 <= (v - 1 / 2) * (v - 1 / 2)) by apply Rle_0_sqr. nra.
Qed.
