(** Property theorems about saving and loading models: C41-C47, C83. The codec [C] stands for encoding/json. *)
From Verif Require Import Base F64 Env EnvLemmas Utils Tree Spec Options Train SpecTrain Examples TrainEx Feats SpecFeats
  Text Json SpecJson JsonProofs JsonCodec JsonMore.
From Coq Require Import String List.
Open Scope Z_scope.

(** C41 *)
Theorem c41_tree_round_trip C t : CodecOk C -> t <> Nil ->
  ((exists lines, JSONTree C t 0 = Ok (Some (lines, 1), nodes t)) <-> treeFinite t) /\
  (~ treeFinite t -> JSONTree C t 0 = Ok (None, nodes t)) /\
  forall lines id cur rest, JSONTree C t 0 = Ok (Some (lines, id), cur) ->
    readTree C (unlines lines ++ rest) = Ok (Some (unsampled t, rest)) /\
    (forall row, PredictSingle (unsampled t) row = PredictSingle t row) /\ Leaf (unsampled t) = Leaf t.
Proof. exact (c41_lemma C t). Qed.
Example c41_nonvacuous : CodecOk codec0 /\ exists t lines, NewTree env0 exX exOg = Ok t /\
  JSONTree codec0 t 0 = Ok (Some (lines, 1), nodes t) /\ treeFinite t /\ 3 <= nodes t.
Proof. exact (conj codec0_ok ex_json_tree). Qed.
Print Assumptions c41_tree_round_trip.

(** C42 *)
Theorem c42_preorder_ids C t lines id cur : JSONTree C t 0 = Ok (Some (lines, id), cur) ->
  exists js, lines = map (c_node C) js /\ length js = length (preorder t) /\ id = 1 /\
  forall i d l r, nth_error (preorder t) i = Some (Node d l r) -> exists j,
    nth_error js i = Some j /\ j_id j = Z.of_nat i + 1 /\
    (j_nsamples j, j_split j, j_leaf j, j_thr j, j_branches j, j_value j, j_xgb j) =
    (t_nsamples d, t_split d, t_leaf d, t_thr d, t_branches d, t_value d, t_xgb d) /\ j_samples j = None /\
    (l = Nil -> j_left j = 0) /\ (l <> Nil -> 0 < j_left j /\ nth_error (preorder t) (Z.to_nat (j_left j - 1)) = Some l) /\
    (r = Nil -> j_right j = 0) /\ (r <> Nil -> 0 < j_right j /\ nth_error (preorder t) (Z.to_nat (j_right j - 1)) = Some r).
Proof. exact (c42_lemma C t lines id cur). Qed.
Example c42_nonvacuous : exists t lines, NewTree env0 exX exOg = Ok t /\
  JSONTree codec0 t 0 = Ok (Some (lines, 1), nodes t) /\ treeFinite t /\ 3 <= nodes t.
Proof. exact ex_json_tree. Qed.
Print Assumptions c42_preorder_ids.

(** C43 *)
Theorem c43_reload C E M name : CodecOk C -> writable M -> modelFinite M ->
  exists out M', JSONMultiClass C M name (fun _ => true) = Ok (out, true) /\ UnJSONMultiClass C E (concat out) true = Ok (Some M') /\
    mc_b M' = map (map unsampled) (removelast (mc_b M)) /\ mc_lr M' = mc_lr M /\ mc_labels M' = mc_labels M /\
    mc_base M' = mc_base M /\ mc_xgb M' = false /\
    (name = tx "softmax" -> mc_pt M = softmaxOf E ->
       forall row bufs, PredictMC M' row bufs = PredictMC (withRounds M (removelast (mc_b M))) row bufs) /\
    ((length (mc_b M) <= 1)%nat -> mc_b M' = [] /\ forall row bufs, PredictMC M' row bufs = Panic).
Proof. exact (c43_lemma C E M name). Qed.
Theorem c43_trained_writable {K} E rnd (D : DataBunch K) O tr : NewMultiClass E rnd D O = Ok tr ->
  (length (Data D) <= length (Labels D))%nat -> writable (tr_model tr) /\ mc_pt (tr_model tr) = softmaxOf E.
Proof. exact (trained_writable E rnd D O tr). Qed.
Example c43_nonvacuous : exists tr out, NewMultiClass env0 draws0 exD (mkO true 0 3 2 (fdec 3 10)) = Ok tr /\
  writable (tr_model tr) /\ modelFinite (tr_model tr) /\ JSONMultiClass codec0 (tr_model tr) (tx "softmax") (fun _ => true) = Ok (out, true) /\
  length (mc_b (tr_model tr)) = 3%nat /\ (forall t, In t (concat (mc_b (tr_model tr))) -> twoChildren t) /\ mc_xgb (tr_model tr) = true.
Proof. exact ex_json. Qed.
Print Assumptions c43_reload.
Print Assumptions c43_trained_writable.

(** C44. [wok n]: the n-th write succeeds. *)
Theorem c44_save_errors C M name wok : writable M -> exists out ok, JSONMultiClass C M name wok = Ok (out, ok) /\
  (exists rest, modelItems C M name = map Some out ++ rest /\ (ok = true <-> rest = [])) /\
  ((forall n, wok n = true) -> (ok = true <-> modelFinite M)).
Proof. exact (c44_lemma C M name wok). Qed.
Example c44_nonvacuous : writable badModel /\ ~ modelFinite badModel /\
  exists out, JSONMultiClass codec0 badModel (tx "softmax") (fun _ => true) = Ok (out, false) /\ length out = 5%nat.
Proof. exact ex_json_bad. Qed.
Print Assumptions c44_save_errors.

(** C45 *)
Theorem c45_truncated_file C E M name out p q : CodecOk C -> writable M ->
  JSONMultiClass C M name (fun _ => true) = Ok (out, true) -> concat out = p ++ q ->
  UnJSONMultiClass C E p true = Ok None \/
  exists M', UnJSONMultiClass C E p true = Ok (Some M') /\ isPrefix (mc_b M') (map (map unsampled) (removelast (mc_b M))) /\
    mc_lr M' = mc_lr M /\ mc_labels M' = mc_labels M /\ mc_base M' = mc_base M.
Proof. exact (c45_lemma C E M name out p q). Qed.
(** the same for any loadable text and any decoder *)
Theorem c45_truncated_any C E p q M : UnJSONMultiClass C E (p ++ q) true = Ok (Some M) ->
  UnJSONMultiClass C E p true = Ok None \/
  exists M', UnJSONMultiClass C E p true = Ok (Some M') /\ isPrefix (mc_b M') (mc_b M) /\ mc_lr M' = mc_lr M /\ mc_labels M' = mc_labels M /\
    mc_base M' = mc_base M /\ mc_pt M' = mc_pt M.
Proof. exact (c45_any_lemma C E p q M). Qed.
Example c45_nonvacuous : exists tr out, NewMultiClass env0 draws0 exD (mkO true 0 3 2 (fdec 3 10)) = Ok tr /\
  writable (tr_model tr) /\ modelFinite (tr_model tr) /\ JSONMultiClass codec0 (tr_model tr) (tx "softmax") (fun _ => true) = Ok (out, true) /\
  length (mc_b (tr_model tr)) = 3%nat /\ (forall t, In t (concat (mc_b (tr_model tr))) -> twoChildren t) /\ mc_xgb (tr_model tr) = true.
Proof. exact ex_json. Qed.
Print Assumptions c45_truncated_file.
Print Assumptions c45_truncated_any.

(** C46 *)
Theorem c46_unknown_activation C E M name out : CodecOk C -> writable M ->
  JSONMultiClass C M name (fun _ => true) = Ok (out, true) -> name <> tx "softmax" ->
  exists M', UnJSONMultiClass C E (concat out) true = Ok (Some M') /\ forall row bufs, PredictMC M' row bufs = Panic.
Proof. exact (c46_lemma C E M name out). Qed.
Example c46_nonvacuous : exists out, JSONMultiClass codec0 (withRounds badModel [[zeroTree; zeroTree]]) (tx "sigmoid") (fun _ => true) = Ok (out, true).
Proof. exact ex_json_sigmoid. Qed.
Print Assumptions c46_unknown_activation.

(** C47 *)
Theorem c47_importance_after_reload C E M name out : CodecOk C -> EnvOk E -> writable M ->
  JSONMultiClass C M name (fun _ => true) = Ok (out, true) -> mc_xgb M = true -> (forall t, In t (concat (mc_b M)) -> twoChildren t) ->
  exists M' f f', UnJSONMultiClass C E (concat out) true = Ok (Some M') /\ FeatureImportance E M = Ok f /\ FeatureImportance E M' = Ok f' /\
    tallies (flat_map splitScores (concat (removelast (mc_b M)))) f' /\
    ((forall g, In g (fe_gains f) -> fnanb g = false) -> bestFirst true f) /\
    ((forall g, In g (fe_gains f') -> fnanb g = false) -> bestFirst false f').
Proof. exact (c47_lemma C E M name out). Qed.
Example c47_nonvacuous : exists tr out, NewMultiClass env0 draws0 exD (mkO true 0 3 2 (fdec 3 10)) = Ok tr /\
  writable (tr_model tr) /\ modelFinite (tr_model tr) /\ JSONMultiClass codec0 (tr_model tr) (tx "softmax") (fun _ => true) = Ok (out, true) /\
  length (mc_b (tr_model tr)) = 3%nat /\ (forall t, In t (concat (mc_b (tr_model tr))) -> twoChildren t) /\ mc_xgb (tr_model tr) = true.
Proof. exact ex_json. Qed.
Print Assumptions c47_importance_after_reload.

(** C83. [eof]: whether the reader's final error is io.EOF. *)
Theorem c83_loader_total C E r eof : UnJSONMultiClass C E r eof <> Panic /\ UnJSONMultiClass C E r eof <> Diverge.
Proof. exact (load_total C E r eof). Qed.
Theorem c83_read_error C E r : UnJSONMultiClass C E r false = Ok None.
Proof. exact (read_error_lemma C E r). Qed.
Print Assumptions c83_loader_total.
Print Assumptions c83_read_error.
