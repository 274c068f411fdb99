(** Property theorems about saving the best model: C111 and C112. *)
From Coq Require Import Ascii String.
From Verif Require Import Base F64 Env EnvLemmas Utils Tree Spec Options Train SpecTrain Examples TrainEx Text Json SpecJson JsonCodec JsonMore CV CVEx Grid SpecGrid GridEx Save SpecSave SaveProofs SaveEx.
From Coq Require Import List.
Open Scope Z_scope.

(** C111. [fok k] tells whether the k-th write to the file fails, [size] is the size of the buffer. *)
Theorem c111_cannot_create : forall K size fok C E rnd (D : DataBunch K) acc op d, writeBest size fok false C E rnd D acc op d = (d, Ok false).
Proof. exact @c111_create_lemma. Qed.
(** whatever happens afterwards, the earlier contents of the file are gone; it holds an initial part of the new text *)
Theorem c111_effect : forall K size fok C E rnd (D : DataBunch K) acc op, exists p r,
  (forall d, writeBest size fok true C E rnd D acc op d = (setFile d (modelName acc) p, r)) /\
  (NewMultiClass E rnd D op = Panic -> p = [] /\ r = Panic) /\
  (forall tr, NewMultiClass E rnd D op = Ok tr -> writable (tr_model tr) ->
     exists full, writablePart C (tr_model tr) full /\ isPrefix p full /\ (r = Ok true \/ r = Ok false) /\
       (r = Ok true -> modelFinite (tr_model tr))).
Proof. exact @c111_effect_lemma. Qed.
Theorem c111_one_file : forall d n s, setFile d n s n = Some s /\ forall m, m <> n -> setFile d n s m = d m.
Proof. exact (fun d n s => conj (setFile_same d n s) (fun m => setFile_other d n s m)). Qed.
Theorem c111_complete : forall K size fok C E rnd (D : DataBunch K) acc op tr, (forall k, fok k = None) -> NewMultiClass E rnd D op = Ok tr -> writable (tr_model tr) ->
  (modelFinite (tr_model tr) -> exists s, modelText C (tr_model tr) s /\ forall d, writeBest size fok true C E rnd D acc op d = (setFile d (modelName acc) s, Ok true)) /\
  (~ modelFinite (tr_model tr) -> forall d, snd (writeBest size fok true C E rnd D acc op d) = Ok false).
Proof. exact @c111_complete_lemma. Qed.
(** a text that fits in the buffer reaches the file in the last flush only, whose error is not reported *)
Theorem c111_silent_failure : forall K size fok C E rnd (D : DataBunch K) acc op tr s m, NewMultiClass E rnd D op = Ok tr -> writable (tr_model tr) ->
  modelText C (tr_model tr) s -> s <> [] -> (length s <= size)%nat -> fok 0%nat = Some m ->
  forall d, writeBest size fok true C E rnd D acc op d = (setFile d (modelName acc) (firstn m s), Ok true).
Proof. exact @c111_silent_lemma. Qed.
Theorem c111_names : forall a b, modelName a = modelName b <-> ftoZ a = ftoZ b.
Proof. exact c111_names_lemma. Qed.
(** an earlier model of the same name does not survive a failed save *)
Theorem c111_keeps_old_refuted : exists op d d', writeBest bufSize allOk true codec0 env0 draws0 exD (fofZ 93) op d = (d', Ok false) /\
  d (tx "xgbmodel93.json") = Some (tx "a good model") /\ d' (tx "xgbmodel93.json") = Some [].
Proof. destruct ref_c111_lost as (d' & H1 & H2). exists badO, old, d'. split; [exact H1|]. split; [reflexivity|exact H2]. Qed.
(** a nil error does not mean that the model is on disk *)
Theorem c111_nil_error_refuted : exists fok op d', writeBest bufSize fok true codec0 env0 draws0 exD (fofZ 93) op old = (d', Ok true) /\
  d' (tx "xgbmodel93.json") = Some [].
Proof. exists noSpace, okO. exact ref_c111_silent. Qed.
Example c111_nonvacuous : exists d', writeBest bufSize allOk true codec0 env0 draws0 exD (fofZ 93) okO noFiles = (d', Ok true) /\
  nonEmptyFile d' (tx "xgbmodel93.json") = true.
Proof. exact ex_c111. Qed.

(** C112. A grid search with WriteBest; [T k a op] is the text the save of combination [k] puts in the file. *)
Theorem c112_grid_files : forall T save fuel id eval o d r d', savesText T save -> evalShape eval -> 1 <= g_ncpus o ->
  GridSaving save fuel id eval o d = Ok (r, d') ->
  GridWith fuel id eval o = Ok r /\ (gr_err r = false ->
    (gr_acc r = fzero /\ gr_opts r = None /\ forall n, d' n = d n) \/
    (exists k, outcomeAt eval (gr_spawned r) k (Some (gr_acc r, gr_opts r)) /\ d' (modelName (gr_acc r)) = Some (T k (gr_acc r) (gr_opts r)) /\
       returned save (k, gr_acc r, gr_opts r)) /\
    fltb fzero (gr_acc r) = true /\
    forall n, d' n = d n \/ exists k a op, outcomeAt eval (gr_spawned r) k (Some (a, op)) /\ n = modelName a /\ fleb a (gr_acc r) = true /\ d' n = Some (T k a op)).
Proof. exact c112_grid_lemma. Qed.
(** so the file of the best model is the one with the highest number *)
Theorem c112_numbers : forall a b, fleb fzero a = true -> fleb a b = true -> fleb b (fofZ 100) = true -> 0 <= ftoZ a <= ftoZ b.
Proof. exact c112_number_lemma. Qed.
Theorem c112_save_exists : forall K size fok C E rnd (D : DataBunch K) id, exists T, savesText T (saveOf size fok C E rnd D id).
Proof. exact @saveOf_savesText. Qed.
(** what the file of the best model loads as *)
Theorem c112_best_file : forall K size fok C E rnd (D : DataBunch K) id fuel eval o d r d', CodecOk C -> (forall k n, fok k n = None) ->
  (length (Data D) <= length (Labels D))%nat -> evalShape eval -> 1 <= g_ncpus o ->
  GridSaving (saveOf size fok C E rnd D id) fuel id eval o d = Ok (r, d') -> gr_err r = false -> fltb fzero (gr_acc r) = true ->
  forall O, gr_opts r = Some O -> exists k tr, NewMultiClass E (rnd k) D O = Ok tr /\
    (modelFinite (tr_model tr) -> exists s M', d' (modelName (gr_acc r)) = Some s /\ modelText C (tr_model tr) s /\ UnJSONMultiClass C E s true = Ok (Some M') /\
       mc_b M' = map (map unsampled) (removelast (mc_b (tr_model tr)))).
Proof. exact @c112_best_lemma. Qed.
Example c112_nonvacuous : evalShape exEval /\ exists r d', exSaving = Ok (r, d') /\ gr_err r = false /\ fltb fzero (gr_acc r) = true /\ (exists O, gr_opts r = Some O) /\
  nonEmptyFile d' (modelName (gr_acc r)) = true.
Proof. exact (conj exEval_shape ex_c112). Qed.

Print Assumptions c111_cannot_create.
Print Assumptions c111_effect.
Print Assumptions c111_one_file.
Print Assumptions c111_complete.
Print Assumptions c111_silent_failure.
Print Assumptions c111_names.
Print Assumptions c111_keeps_old_refuted.
Print Assumptions c111_nil_error_refuted.
Print Assumptions c112_grid_files.
Print Assumptions c112_numbers.
Print Assumptions c112_save_exists.
Print Assumptions c112_best_file.
