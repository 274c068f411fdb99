(** C143: the order of the columns. *)
From Verif Require Import Base F64 Env EnvLemmas Utils Tree Spec Options Train SpecTrain SpecCols Examples TrainEx ColProofs ColTrain ColEx.
From Coq Require Import List.
Open Scope Z_scope.

(** C143 *)
Theorem c143_tree_columns : forall E X X' n s o A' t, EnvOk E -> reorders n s -> movedColumns n s X X' -> movedSet n s (to_allowed o) A' ->
  NewTree E X o = Ok t -> noTies E X o n (to_allowed o) t ->
  NewTree E X' (withColumns o A') = Ok (moveTree s t) /\
  forall row row', movedRow n s row row' -> PredictSingle (moveTree s t) row' = PredictSingle t row.
Proof. exact c143_tree_lemma. Qed.
Theorem c143_training_columns : forall K K' E rnd rnd' (D : DataBunch K) (D' : DataBunch K') O tr n s, EnvOk E -> reorders n s ->
  movedColumns n s (Data D) (Data D') -> Labels D' = Labels D -> (length (Data D) <= length (Labels D))%nat -> movedDraws n s rnd rnd' ->
  NewMultiClass E rnd D O = Ok tr -> noTiesTraining E rnd D n tr ->
  exists tr', NewMultiClass E rnd' D' O = Ok tr' /\ tr_model tr' = moveModel s (tr_model tr) /\ tr_state tr' = tr_state tr /\
    forall row row' bufs, movedRow n s row row' -> PredictMC (tr_model tr') row' bufs = PredictMC (tr_model tr) row bufs /\
      PredictSingleClass (tr_model tr') row' bufs = PredictSingleClass (tr_model tr) row bufs.
Proof. exact c143_train_lemma. Qed.
Theorem c143_ties_refuted : exists (D : DataBunch unit) O tr row row', movedColumns 2 swap2 (Data D) (Data D) /\ movedDraws 2 swap2 draws0 draws0 /\
  NewMultiClass env0 draws0 D O = Ok tr /\ movedRow 2 swap2 row row' /\
  PredictSingleClass (tr_model tr) row [] = Ok (0, []) /\ PredictSingleClass (tr_model tr) row' [] = Ok (1, []).
Proof. exact ref_c143. Qed.
Example c143_nonvacuous : EnvOk env0 /\ reorders 2 swap2 /\ movedColumns 2 swap2 exX exX' /\ movedSet 2 swap2 (to_allowed exO) [] /\
  exists t, NewTree env0 exX exO = Ok t /\ noTies env0 exX exO 2 (to_allowed exO) t /\ depth t = 2%nat.
Proof. exact ex_c143. Qed.
Example c143_training_nonvacuous : movedColumns 2 swap2 (Data colD) (Data colD') /\ movedDraws 2 swap2 draws0 draws0 /\
  exists tr, NewMultiClass env0 draws0 colD (mkO true 0 3 2 (fdec 3 10)) = Ok tr /\ noTiesTraining env0 draws0 colD 2 tr /\
    exists e d l r, In e (concat (tr_hist tr)) /\ g_tree e = Node d l r /\ t_leaf d = false.
Proof. exact ex_c143_train. Qed.
Print Assumptions c143_tree_columns.
Print Assumptions c143_training_columns.
Print Assumptions c143_ties_refuted.
