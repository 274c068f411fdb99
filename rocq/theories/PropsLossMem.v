(** Property theorems about destinations of losses and activations: C156. *)
From Verif Require Import Base F64 Env EnvLemmas Utils Spec Examples TrainEx LossMem SpecLossMem LossMemProofs LossMemEx.
From Coq Require Import List.
Open Scope Z_scope.

(** C156. [h] is the memory before the call and [h'] after it. Labels, predictions and destination may be the same matrix. *)
Theorem c156_loss h y pred dst : stored h y -> stored h pred -> (forall m, dst = Some m -> stored h m) -> shaped y pred -> (forall m, dst = Some m -> shaped m y) ->
  exists h' g, LossM h y pred dst = Ok (h', sqLoss F (arr h (m_at y)) (arr h (m_at pred))) /\ returned h h' y dst g /\ othersKept h h' g /\
    arr h' (m_at g) = map (fun p => fmul (fsub (fst p) (snd p)) (fsub (fst p) (snd p))) (combine (arr h (m_at y)) (arr h (m_at pred))).
Proof. exact (loss_spec h y pred dst). Qed.
Theorem c156_neg_gradients h y pred dst : stored h y -> stored h pred -> (forall m, dst = Some m -> stored h m) -> shaped y pred -> (forall m, dst = Some m -> shaped m y) ->
  exists h' g, NegGradientsM h y pred dst = Ok (h', g) /\ returned h h' y dst g /\ shaped g y /\
    arr h' (m_at g) = negGradients F (arr h (m_at y)) (arr h (m_at pred)) /\ othersKept h h' g.
Proof. exact (neg_spec h y pred dst). Qed.
Theorem c156_gradients h y pred dst : stored h y -> stored h pred -> (forall m, dst = Some m -> stored h m) -> shaped y pred -> (forall m, dst = Some m -> shaped m y) ->
  exists h' g, GradientsM h y pred dst = Ok (h', g) /\ returned h h' y dst g /\
    arr h' (m_at g) = gradients F (arr h (m_at y)) (arr h (m_at pred)) /\ othersKept h h' g.
Proof. exact (grad_spec h y pred dst). Qed.
Theorem c156_shapes h y pred dst : ~ (shaped y pred /\ forall m, dst = Some m -> shaped m y) ->
  LossM h y pred dst = Panic /\ NegGradientsM h y pred dst = Panic /\ GradientsM h y pred dst = Panic.
Proof. exact (mismatch h y pred dst). Qed.
(** the Hessians do not compare shapes *)
Theorem c156_sq_hessian h probs dst : (forall m, dst = Some m -> stored h m) ->
  exists h' g, SQHessianM h probs dst = Ok (h', g) /\ returned h h' probs dst g /\ arr h' (m_at g) = repeat fone (entries g) /\ othersKept h h' g.
Proof. exact (sq_hess_spec h probs dst). Qed.
Theorem c156_mse_hessian h probs dst : stored h probs -> (forall m, dst = Some m -> stored h m) -> (forall m, dst = Some m -> (entries probs <= entries m)%nat) ->
  exists h' g, MSEHessianM h probs dst = Ok (h', g) /\ returned h h' probs dst g /\ othersKept h h' g /\
    firstn (entries probs) (arr h' (m_at g)) = mseHessian F (arr h (m_at probs)) /\
    (forall m, dst = Some m -> skipn (entries probs) (arr h' (m_at m)) = skipn (entries probs) (arr h (m_at m))).
Proof. exact (mse_hess_spec h probs dst). Qed.
Theorem c156_mse_hessian_panic h probs m : stored h probs -> stored h m -> (entries m < entries probs)%nat -> m_at m <> m_at probs -> MSEHessianM h probs (Some m) = Panic.
Proof. exact (mse_hess_short h probs m). Qed.
(** activations of slices: what SoftMax and Normalization of Utils.v say (C23-C25) of the old contents *)
Theorem c156_softmax E h p q : inside h p -> inside h q -> apart p q ->
  ((sl_len p <= sl_len q)%nat -> exists h', SoftMaxM E h p q = Ok h' /\ SoftMax E (readS h p) (readS h q) = Ok (readS h' q) /\ onlyFirst h h' q (sl_len p)) /\
  ((sl_len q < sl_len p)%nat -> SoftMaxM E h p q = Panic).
Proof. exact (fun Hp Hq HA => conj (softmax_mem E h p q Hp Hq HA) (softmax_short E h p q)). Qed.
Theorem c156_normalization h p q : inside h p -> inside h q -> apart p q ->
  ((sl_len p <= sl_len q)%nat -> exists h', NormalizationM h p q = Ok h' /\ Normalization (readS h p) (readS h q) = Ok (readS h' q) /\ onlyFirst h h' q (sl_len p)) /\
  ((sl_len q < sl_len p)%nat -> NormalizationM h p q = Panic).
Proof. exact (fun Hp Hq HA => conj (normalization_mem h p q Hp Hq HA) (normalization_short h p q)). Qed.
Theorem c156_softmax_dense E h O dst : stored h O -> (forall m, dst = Some m -> stored h m /\ shaped m O) ->
  exists h' g, activationDenseM (SoftMaxM E) h O dst = Ok (h', g) /\ returned h h' O dst g /\ othersKept h h' g /\
    forall i, (i < m_r O)%nat -> SoftMax E (readS h (rowOf O i)) (repeat fzero (m_c O)) = Ok (readS h' (rowOf g i)).
Proof. exact (dense_spec (SoftMaxM E) (SoftMax E) (softmax_mem E) (softmax_dest E) h O dst). Qed.
Theorem c156_normalization_dense h O dst : stored h O -> (forall m, dst = Some m -> stored h m /\ shaped m O) ->
  exists h' g, activationDenseM NormalizationM h O dst = Ok (h', g) /\ returned h h' O dst g /\ othersKept h h' g /\
    forall i, (i < m_r O)%nat -> Normalization (readS h (rowOf O i)) (repeat fzero (m_c O)) = Ok (readS h' (rowOf g i)).
Proof. exact (dense_spec NormalizationM Normalization normalization_mem normalization_dest h O dst). Qed.
(** a matrix with fewer rows or columns is refused as a destination *)
Theorem c156_dense_short E h O d : (m_r d < m_r O)%nat \/ ((0 < m_r O)%nat /\ (m_c d < m_c O)%nat) ->
  activationDenseM (SoftMaxM E) h O (Some d) = Panic /\ activationDenseM NormalizationM h O (Some d) = Panic.
Proof. exact (fun H => conj (dense_short (SoftMaxM E) (softmax_ends E) (softmax_short E) h O d H) (dense_short NormalizationM normalization_ends normalization_short h O d H)). Qed.
(** a longer destination does not get probabilities: what it held is part of the sum *)
Theorem c156_longer_refuted : exists h' x, SoftMaxM env0 exM (MkS (0%nat, 0%nat) 1) (MkS (2%nat, 0%nat) 2) = Ok h' /\ nth_error (arr h' 2) 0 = Some x /\ feqb x fone = false /\
  exists y, SoftMax env0 (readS exM (MkS (0%nat, 0%nat) 1)) [fzero] = Ok [y] /\ feqb y fone = true.
Proof. exact ex_longer. Qed.
Example c156_nonvacuous : (stored exM exY /\ stored exM exP /\ stored exM exW /\ shaped exY exP) /\
  (exists h' l, LossM exM exY exP (Some exY) = Ok (h', l) /\ feqb l (fdiv (fofZ 79) (fofZ 4)) = true /\ map ftoZ (arr h' 0) = [4; 25; 1; 49]) /\
  exists h' g, GradientsM exM exY exP (Some exP) = Ok (h', g) /\ map ftoZ (arr h' 1) = [2; 5; 1; 7] /\ map ftoZ (arr h' 0) = [1; 0; 1; 0].
Proof. exact (conj ex_stored ex_in_place). Qed.
Print Assumptions c156_loss.
Print Assumptions c156_neg_gradients.
Print Assumptions c156_gradients.
Print Assumptions c156_shapes.
Print Assumptions c156_sq_hessian.
Print Assumptions c156_mse_hessian.
Print Assumptions c156_mse_hessian_panic.
Print Assumptions c156_softmax.
Print Assumptions c156_normalization.
Print Assumptions c156_softmax_dense.
Print Assumptions c156_normalization_dense.
Print Assumptions c156_dense_short.
Print Assumptions c156_longer_refuted.
