(** Property theorems about what a Confusions shares with the program: C154. *)
From Verif Require Import Base F64 Env EnvLemmas Utils Tree Options Train Spec SpecTrain Examples TrainEx Text Confu SpecConfu ConfuProofs ConfuMore ConfuEx
  ConfuShare SpecConfuShare ConfuShareProofs ConfuShareEx.
From Coq Require Import List.
Open Scope Z_scope.

(** C154. [p] is the array of the data's labels, [h] the memory before the call. *)
Theorem c154_first_call {K} E M (D : DataBunch K) h h0 p C0 h1 C1 : (p < length h)%nat -> MCConfusionsH h M D p = Ok (h0, C0) ->
  hreach E anywhere (h0, C0) (h1, C1) -> ch_matrix C1 = None -> NoDup (ClassLabels M) -> (length (block h p) <= length (Data D))%nat ->
  block h1 (ch_labels C0) = block h0 (ch_labels C0) -> block h1 (ch_predicted C0) = block h0 (ch_predicted C0) ->
  exists preds h2 rows C2, Forall2 (predictsLabel M) (Data D) preds /\ MatrixH h1 C1 = Ok (h2, rows, C2) /\
    map (block h2) rows = map (fun a => map (countPairs (block h1 p) preds a) (ClassLabels M)) (ClassLabels M).
Proof. exact (fun Hp H0 => first_call E M D h h0 p C0 Hp H0 h1 C1). Qed.
Theorem c154_cached {K} E M (D : DataBunch K) h h0 p C0 may h1 C1 h2 rows C2 h3 C3 : (p < length h)%nat -> MCConfusionsH h M D p = Ok (h0, C0) ->
  hreach E anywhere (h0, C0) (h1, C1) -> MatrixH h1 C1 = Ok (h2, rows, C2) -> hreach E may (h2, C2) (h3, C3) ->
  MatrixH h3 C3 = Ok (h3, rows, C3) /\ (forall r, In r rows -> ~ may r -> block h3 r = block h2 r).
Proof. exact (fun Hp H0 => cached E M D h h0 p C0 Hp H0 may h1 C1 h2 rows C2 h3 C3). Qed.
Theorem c154_calls_keep {K} E M (D : DataBunch K) h h0 p C0 h1 C1 h2 C2 : (p < length h)%nat -> MCConfusionsH h M D p = Ok (h0, C0) ->
  hreach E anywhere (h0, C0) (h1, C1) -> hcall E (h1, C1) (h2, C2) ->
  forall b, (b < length h1)%nat -> ~ isTmp C1 b -> block h2 b = block h1 b.
Proof. exact (fun Hp H0 => calls_keep E M D h h0 p C0 Hp H0 h1 C1 h2 C2). Qed.
Theorem c154_own_memory {K} E M (D : DataBunch K) h h0 p C0 may h1 C1 b : (p < length h)%nat -> MCConfusionsH h M D p = Ok (h0, C0) ->
  hreach E may (h0, C0) (h1, C1) -> (b < length h)%nat -> ~ isTmp C1 b /\ (~ may b -> block h1 b = block h b).
Proof. exact (fun Hp H0 => own_memory E M D h h0 p C0 Hp H0 may h1 C1 b). Qed.
(** the counts are not those of the time of MCConfusions *)
Theorem c154_snapshot_refuted : exists h2 rows C2 h3 rows' C3,
  MatrixH exH0 exCH = Ok (h2, rows, C2) /\ map (block h2) rows = [[1; 1; 0]; [0; 0; 0]; [0; 0; 1]] /\
  hreach env0 anywhere (exH0, exCH) (write exH0 0 [6; 7; 6], exCH) /\
  MatrixH (write exH0 0 [6; 7; 6]) exCH = Ok (h3, rows', C3) /\ map (block h3) rows' = [[0; 1; 0]; [0; 0; 0]; [1; 0; 1]].
Proof. exact ex_late. Qed.
(** the returned matrix is not a copy *)
Theorem c154_copy_refuted : exists h2 rows C2 r ri rv C3 h3,
  MatrixH exH0 exCH = Ok (h2, rows, C2) /\ nth_error rows 0 = Some r /\ block h2 r = [1; 1; 0] /\
  TopNH env0 (write h2 r [0; 9; 0]) C2 1 7 true = Ok (Some (ri, rv), C3, h3) /\ sread h3 ri = [1] /\ sread h3 rv = [9].
Proof. exact ex_scribble. Qed.
Example c154_nonvacuous : exists tr, NewMultiClass env0 draws0 exD (mkO true 0 3 2 (fdec 3 10)) = Ok tr /\ ClassLabels (tr_model tr) = [7; 5; 6] /\
  NoDup (ClassLabels (tr_model tr)) /\ MCConfusionsH exH (tr_model tr) exT 0 = Ok (exH0, exCH).
Proof. exact ex_start. Qed.
Print Assumptions c154_first_call.
Print Assumptions c154_cached.
Print Assumptions c154_calls_keep.
Print Assumptions c154_own_memory.
Print Assumptions c154_snapshot_refuted.
Print Assumptions c154_copy_refuted.
