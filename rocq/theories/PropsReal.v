(** Exact-arithmetic property theorems: C13, C14, C24 and the exact parts of C25-C27. The formulas are the generic
    definitions of the model at the real numbers ([RN]); the float64 model is the same definitions at [F]. *)
From Coq Require Import Reals Lra.
From Verif Require Import Base F64 Env Utils Tree Spec RealProofs.
Open Scope R_scope.

(** C13: [gh] lists the (gradient, hessian) pairs of the samples of a leaf *)
Theorem c13_value_optimal gh lambda : 0 < sumH gh + lambda -> forall w,
  let v : R := xgbValue RN (sumG gh) (sumH gh) lambda in
  leafObjective gh lambda v <= leafObjective gh lambda w /\
  (leafObjective gh lambda w = leafObjective gh lambda v -> w = v).
Proof. exact (c13_value_lemma gh lambda). Qed.
Theorem c13_gain_is_decrease l r lambda gamma :
  0 < sumH l + lambda -> 0 < sumH r + lambda -> 0 < sumH (l ++ r) + lambda ->
  let best gh := leafObjective gh lambda (xgbValue RN (sumG gh) (sumH gh) lambda) in
  xgbGain RN (1 / 2) (sumG l) (sumH l) (sumG r) (sumH r) (sumG (l ++ r)) (sumH (l ++ r)) lambda gamma =
  best (l ++ r) - (best l + best r) - gamma / 2.
Proof. exact (c13_gain_lemma l r lambda gamma). Qed.
Example c13_nonvacuous : 0 < sumH [(-1, 1); (2, 1)] + 1 /\ 0 < sumH [(3, 1)] + 1 /\ 0 < sumH ([(-1, 1); (2, 1)] ++ [(3, 1)]) + 1.
Proof. unfold sumH; simpl. lra. Qed.
Print Assumptions c13_value_optimal.
Print Assumptions c13_gain_is_decrease.

(** C14 *)
Theorem c14_mean_optimal l : l <> [] ->
  meanValue RN (rsum l) (Z.of_nat (length l)) = mean l /\
  forall m, deviations l (mean l) <= deviations l m /\ (deviations l m = deviations l (mean l) -> m = mean l).
Proof. exact (c14_mean_lemma l). Qed.
Theorem c14_score_is_change l r : l <> [] -> r <> [] ->
  let score : R := regGain RN (rsum l) (rsum r) (rsum (l ++ r)) (Z.of_nat (length l)) (Z.of_nat (length r)) (Z.of_nat (length (l ++ r))) in
  score = deviations l (mean l) + deviations r (mean r) - deviations (l ++ r) (mean (l ++ r)) /\ score <= 0.
Proof. exact (c14_score_lemma l r). Qed.
Example c14_nonvacuous : deviations [1; 3] (mean [1; 3]) = 2.
Proof. unfold deviations, mean; simpl. field. Qed.
Print Assumptions c14_mean_optimal.
Print Assumptions c14_score_is_change.

(** C24 *)
Theorem c24_softmax_exact p : p <> [] ->
  let q : list R := softmax RN exp rsum p in
  length q = length p /\ (forall x, In x q -> 0 < x) /\ rsum q = 1 /\
  forall i j a b a' b', nth_error p i = Some a -> nth_error p j = Some b ->
    nth_error q i = Some a' -> nth_error q j = Some b' -> (a < b <-> a' < b').
Proof. exact (c24_lemma p). Qed.
Example c24_nonvacuous : softmax RN exp rsum [0; 0] = [1 / 2; 1 / 2].
Proof. unfold softmax; simpl. rewrite exp_0. repeat f_equal; lra. Qed.
Print Assumptions c24_softmax_exact.

(** C25, exact part *)
Theorem c25_normalization_exact p : rsum p <> 0 ->
  let q : list R := normalization RN p in
  length q = length p /\ rsum q = 1 /\
  forall i a b, nth_error p i = Some a -> nth_error q i = Some b -> b = a / rsum p.
Proof. exact (c25_exact_lemma p). Qed.
Example c25_nonvacuous : rsum [1; 3] <> 0.
Proof. simpl. lra. Qed.
Print Assumptions c25_normalization_exact.

(** C26, exact part *)
Theorem c26_derivative y p : length y = length p ->
  forall i yi pi gi, nth_error y i = Some yi -> nth_error p i = Some pi -> nth_error (gradients RN y p) i = Some gi ->
  derivable_pt_lim (fun q => (yi - q) * (yi - q) / 2) pi gi.
Proof. exact (c26_derivative_lemma y p). Qed.
Example c26_exact_nonvacuous : nth_error (gradients RN [1; 5] [3; 4]) 1 = Some (-1 * (5 - 4)).
Proof. reflexivity. Qed.
Print Assumptions c26_derivative.

(** C27, exact part *)
Theorem c27_mse_hessian_exact p : (forall v, In v p -> 0 <= v <= 1) -> forall h, In h (mseHessian RN p) -> 0 <= h <= 1 / 4.
Proof. exact (c27_exact_lemma p). Qed.
Example c27_exact_nonvacuous : In ((1 - 1 / 2) * (1 / 2)) (mseHessian RN [1 / 2]) /\ (1 - 1 / 2) * (1 / 2) = 1 / 4.
Proof. split; [left; reflexivity|lra]. Qed.
Print Assumptions c27_mse_hessian_exact.
