(** C123: how large trees and ensembles can get. *)
From Verif Require Import Base F64 Env EnvLemmas Utils Tree Spec Options Train SpecTrain SpecTot SpecOpt SpecSize Examples TrainEx SizeProofs SizeEx.
From Coq Require Import List.
Open Scope Z_scope.

(** Every node below the root has at least MinChildWeight samples, and the size of a tree is bounded accordingly. *)
Theorem c123_tree_size : forall E X o t, EnvOk E -> goodTable X -> NewTree E X o = Ok t ->
  let m := leastSamples (to_mcw o) in let s := Z.of_nat (length (initialSamples X o)) in
  (forall k d l r, subAt (Node d l r) (Datatypes.S k) t -> m <= t_nsamples d) /\
  Branches t = Ok (nodes t) /\ nodes t <= mostNodes s m /\
  (depth t = O \/ (Z.of_nat (depth t) + 1) * m <= s) /\ (s < 2 * m -> nodes t = 1).
Proof. exact c123_tree_lemma. Qed.
Theorem c123_model_size : forall K E rnd (D : DataBunch K) O tr, EnvOk E -> goodTable (Data D) -> (length (Data D) <= length (Labels D))%nat ->
  NewMultiClass E rnd D O = Ok tr ->
  let m := Z.max 1 (askedWeight (o_mcw O)) in let ts := concat (mc_b (tr_model tr)) in
  (forall t, In t ts -> nodes t <= mostNodes (Z.of_nat (length (Data D))) m) /\
  Z.of_nat (length ts) <= Z.max 0 (o_rounds O) * Z.of_nat (length (ClassLabels (tr_model tr))) /\
  allNodes ts <= Z.max 0 (o_rounds O) * Z.of_nat (length (ClassLabels (tr_model tr))) * mostNodes (Z.of_nat (length (Data D))) m.
Proof. exact @c123_model_lemma. Qed.
(** finite values are not enough: neighbouring numbers have no midpoint between them *)
Theorem c123_close_values_refuted : exists X o t d, NewTree env0 X o = Ok t /\ (forall row v, In row X -> In v row -> ffinite v = true) /\
  subAt (Node d Nil Nil) 1 t /\ t_nsamples d = 1 /\ leastSamples (to_mcw o) = 2.
Proof. exists nearX, nearO. exact ref_c123. Qed.
Example c123_nonvacuous : goodTable exX /\ exists t, NewTree env0 exX exO = Ok t /\ leastSamples (to_mcw exO) = 1 /\
  nodes t = mostNodes (Z.of_nat (length (initialSamples exX exO))) 1.
Proof. exact ex_c123. Qed.
Example c123_nonvacuous_model : goodTable (Data exD) /\ exists tr, NewMultiClass env0 draws0 exD (mkO true 0 3 2 (fdec 3 10)) = Ok tr /\
  length (concat (mc_b (tr_model tr))) = 9%nat /\ 9 < allNodes (concat (mc_b (tr_model tr))).
Proof. exact ex_c123_model. Qed.

Print Assumptions c123_tree_size.
Print Assumptions c123_model_size.
Print Assumptions c123_close_values_refuted.
