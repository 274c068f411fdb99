(** C122: which options a training depends on. *)
From Verif Require Import Base F64 Env Utils Tree Spec Options Train SpecTrain SpecOpt TrainEx OptProofs OptEx.
Open Scope Z_scope.

(** option records that ask for the same training give the same model, round by round, or fail in the same way *)
Theorem c122_same_options : forall K E rnd (D : DataBunch K) O O', sameTraining O O' ->
  resultOf (NewMultiClass E rnd D O) = resultOf (NewMultiClass E rnd D O').
Proof. intros K E rnd D O O' H. exact (c122_lemma E O O' H rnd rnd D (or_introl eq_refl)). Qed.
(** without sub-sampling the random numbers have no influence: training is deterministic *)
Theorem c122_deterministic : forall K E rnd rnd' (D : DataBunch K) O O', sameTraining O O' -> noDraws O ->
  resultOf (NewMultiClass E rnd D O) = resultOf (NewMultiClass E rnd' D O').
Proof. intros K E rnd rnd' D O O' H N. exact (c122_lemma E O O' H rnd rnd' D (or_intror N)). Qed.
(** the call leaves the caller's options asking for the same training, with MinChildWeight at least 1 *)
Theorem c122_options_left : forall K E rnd (D : DataBunch K) O tr, NewMultiClass E rnd D O = Ok tr ->
  fltb (o_mcw (tr_opts tr)) fone = false /\ sameTraining O (tr_opts tr) /\ (fltb (o_mcw O) fone = false -> tr_opts tr = O) /\
  (fltb (o_mcw O) fone = true -> o_mcw (tr_opts tr) = fone).
Proof. exact @c122_options. Qed.
(** with sub-sampling the draws decide *)
Theorem c122_draws_refuted : exists rnd rnd' (D : DataBunch unit) O, resultOf (NewMultiClass env0 rnd D O) <> resultOf (NewMultiClass env0 rnd' D O).
Proof. exists drawsA, drawsB, exD, optS. exact ex_c122_draws. Qed.
Example c122_nonvacuous : sameTraining optA optB /\ noDraws optA /\ exists tr, NewMultiClass env0 draws0 exD optA = Ok tr /\ length (tr_hist tr) = 2%nat /\ o_mcw optA <> o_mcw (tr_opts tr).
Proof. exact ex_c122. Qed.

Print Assumptions c122_same_options.
Print Assumptions c122_deterministic.
Print Assumptions c122_options_left.
Print Assumptions c122_draws_refuted.
Print Assumptions c122_nonvacuous.
