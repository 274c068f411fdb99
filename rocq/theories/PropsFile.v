(** C137: what the file of a model holds. *)
From Verif Require Import Base F64 Env EnvLemmas Utils Tree Spec Options Train SpecTrain Examples TrainEx Feats SpecFeats Text Json SpecJson JsonProofs JsonCodec JsonMore FileProofs.
From Coq Require Import String List.
Open Scope Z_scope.

(** C137: one more line that contains ROUND at the end of the file, and the loader returns all rounds *)
Theorem c137_extra_line : forall C E h M name out wok, CodecOk C -> ~ In NL h -> containsT h (tx "ROUND") = true -> writable M ->
  JSONMultiClass C M name wok = Ok (out, true) ->
  exists M', UnJSONMultiClass C E (concat out ++ h ++ [NL]) true = Ok (Some M') /\
    mc_b M' = map (map unsampled) (mc_b M) /\ mc_lr M' = mc_lr M /\ mc_labels M' = mc_labels M /\ mc_base M' = mc_base M /\
    (name = tx "softmax" -> mc_pt M = softmaxOf E -> forall row bufs, PredictMC M' row bufs = PredictMC M row bufs).
Proof. exact (fun C E h M name out wok HC Hnl Hh => complete_lemma C HC E h Hnl Hh M name out wok). Qed.
Example c137_nonvacuous : exists tr out, NewMultiClass env0 draws0 exD (mkO true 0 3 2 (fdec 3 10)) = Ok tr /\
  writable (tr_model tr) /\ modelFinite (tr_model tr) /\ JSONMultiClass codec0 (tr_model tr) (tx "softmax") (fun _ => true) = Ok (out, true) /\
  length (mc_b (tr_model tr)) = 3%nat /\ (forall t, In t (concat (mc_b (tr_model tr))) -> twoChildren t) /\ mc_xgb (tr_model tr) = true.
Proof. exact ex_json. Qed.
(** models with the same file have the same rounds, apart from the sample lists, and predict the same *)
Theorem c137_same_file : forall C M M' name name' out out' wok wok', CodecOk C -> writable M -> writable M' ->
  JSONMultiClass C M name wok = Ok (out, true) -> JSONMultiClass C M' name' wok' = Ok (out', true) -> concat out = concat out' ->
  map (map unsampled) (mc_b M) = map (map unsampled) (mc_b M') /\ mc_lr M = mc_lr M' /\ mc_labels M = mc_labels M' /\ mc_base M = mc_base M' /\
  (mc_pt M = mc_pt M' -> forall row bufs, PredictMC M row bufs = PredictMC M' row bufs).
Proof. exact same_file_lemma. Qed.
Example c137_same_nonvacuous : exists out out', fileModel (Some [0]) <> fileModel None /\ writable (fileModel (Some [0])) /\ writable (fileModel None) /\
  JSONMultiClass codec0 (fileModel (Some [0])) (tx "softmax") (fun _ => true) = Ok (out, true) /\
  JSONMultiClass codec0 (fileModel None) (tx "softmax") (fun _ => true) = Ok (out', true) /\ concat out = concat out' /\ length out = 6%nat.
Proof. exact ex_same_file. Qed.
(** the file of a loaded model is an initial part of the file it was loaded from *)
Theorem c137_resave : forall C E M name out wok M', CodecOk C -> writable M -> JSONMultiClass C M name wok = Ok (out, true) ->
  UnJSONMultiClass C E (concat out) true = Ok (Some M') ->
  exists out' rest, JSONMultiClass C M' name (fun _ => true) = Ok (out', true) /\ out = out' ++ rest /\ concat out = concat out' ++ concat rest.
Proof. exact resave_lemma. Qed.
Print Assumptions c137_extra_line.
Print Assumptions c137_same_file.
Print Assumptions c137_resave.
