(** C135: options that restrict the growth of a tree. *)
From Coq Require Import Reals.
From Verif Require Import Base F64 Env EnvLemmas Utils Tree Spec Examples SpecReg RegProofs RegEx.
From Coq Require Import List.
Open Scope Z_scope.

(** C135: with a larger MinChildWeight or Gamma a node with the same samples that was not split is not split either, and the score
    of the best split does not improve. [k] and [k'] are the distances from the roots; below the roots the hypothesis on columns
    always holds. *)
Theorem c135_leaf_stays : forall E X o o' t t' d l r d' l' r' k k', EnvOk E -> NewTree E X o = Ok t -> NewTree E X o' = Ok t' -> harsher o o' ->
  subAt (Node d l r) k t -> subAt (Node d' l' r') k' t' -> samplesOf d' = samplesOf d -> Z.of_nat k < to_maxdepth o ->
  (forall nf f, scannedAt o' nf k' f -> scannedAt o nf k f) ->
  (t_leaf d = true -> t_leaf d' = true) /\ (t_leaf d' = false -> betterScore (to_xgb o) (t_best d') (t_best d) = false).
Proof. exact c135_leaf_lemma. Qed.
Example c135_nonvacuous : exists o o' t t' d l r d' l' r', harsher o o' /\ NewTree env0 exX o = Ok t /\ NewTree env0 exX o' = Ok t' /\
  t = Node d l r /\ t' = Node d' l' r' /\ samplesOf d' = samplesOf d /\ 0 < to_maxdepth o /\ t_leaf d = true /\ fltb (to_gamma o) (to_gamma o') = true /\ ftoZ (to_mcw o) < ftoZ (to_mcw o').
Proof. exact ex_harsher. Qed.
(** but whole trees can grow: the root is split elsewhere *)
Theorem c135_gamma_shrinks_refuted : exists o o' t t', harsher o o' /\ o' = withGamma o (to_gamma o') /\ NewTree env0 gamX o = Ok t /\ NewTree env0 gamX o' = Ok t' /\
  Branches t = Ok 7 /\ Branches t' = Ok 9.
Proof. exact ex_gamma. Qed.
Theorem c135_mcw_shrinks_refuted : exists o o' t t', harsher o o' /\ o' = withMCW o (to_mcw o') /\ NewTree env0 mcwX o = Ok t /\ NewTree env0 mcwX o' = Ok t' /\
  Branches t = Ok 3 /\ Branches t' = Ok 5.
Proof. exact ex_mcw. Qed.

(** a larger Lambda does not increase the magnitude of the value of a node with the same samples *)
Theorem c135_lambda_value : forall E X o o' t t' d l r d' l' r' g h, NewTree E X o = Ok t -> NewTree E X o' = Ok t' -> sub (Node d l r) t -> sub (Node d' l' r') t' ->
  to_xgb o = true -> to_xgb o' = true -> to_grads o' = to_grads o -> to_hess o' = to_hess o -> samplesOf d' = samplesOf d ->
  Forall2 (look (orNil (to_grads o))) (samplesOf d) g -> Forall2 (look (orNil (to_hess o))) (samplesOf d) h ->
  ffinite (e_sum E g) = true -> ffinite (e_sum E h) = true -> ffinite (to_lambda o) = true -> ffinite (to_lambda o') = true ->
  fltb fzero (fadd (e_sum E h) (to_lambda o)) = true -> fleb (to_lambda o) (to_lambda o') = true ->
  fleb (magnitude (t_value d')) (magnitude (t_value d)) = true.
Proof. exact c135_lambda_lemma. Qed.
Example c135_lambda_nonvacuous : exists o o' t t' d l r d' l' r' g h, NewTree env0 lamX o = Ok t /\ NewTree env0 lamX o' = Ok t' /\
  t = Node d l r /\ t' = Node d' l' r' /\ to_xgb o = true /\ to_xgb o' = true /\ to_grads o' = to_grads o /\ to_hess o' = to_hess o /\ samplesOf d' = samplesOf d /\
  Forall2 (look (orNil (to_grads o))) (samplesOf d) g /\ Forall2 (look (orNil (to_hess o))) (samplesOf d) h /\
  ffinite (e_sum env0 g) = true /\ ffinite (e_sum env0 h) = true /\ ffinite (to_lambda o) = true /\ ffinite (to_lambda o') = true /\
  fltb fzero (fadd (e_sum env0 h) (to_lambda o)) = true /\ fleb (to_lambda o) (to_lambda o') = true /\ fltb (magnitude (t_value d')) (magnitude (t_value d)) = true.
Proof. exact ex_lambda_value. Qed.
(** in exact arithmetic a larger Lambda does not make a worthwhile split better, nor any other split worthwhile *)
Theorem c135_lambda_gain : forall gl hl gr hr lam lam' gam : R, (0 <= hl)%R -> (0 <= hr)%R -> (0 < hl + lam)%R -> (0 < hr + lam)%R -> (0 <= gam)%R -> (lam <= lam')%R ->
  let gain l := xgbGain RN (1 / 2)%R gl hl gr hr (gl + gr)%R (hl + hr)%R l gam in
  (0 < gain lam' -> gain lam' <= gain lam)%R.
Proof. exact c135_exact_lemma. Qed.
(** in float64 it can make a node splittable *)
Theorem c135_lambda_leaf_refuted : exists o o' t t', o' = withLambda o (to_lambda o') /\ fleb (to_lambda o) (to_lambda o') = true /\ NewTree env0 lamX o = Ok t /\ NewTree env0 lamX o' = Ok t' /\
  Leaf t = Ok true /\ Leaf t' = Ok false.
Proof. exact ex_lambda. Qed.
Print Assumptions c135_leaf_stays.
Print Assumptions c135_gamma_shrinks_refuted.
Print Assumptions c135_mcw_shrinks_refuted.
Print Assumptions c135_lambda_value.
Print Assumptions c135_lambda_gain.
Print Assumptions c135_lambda_leaf_refuted.
