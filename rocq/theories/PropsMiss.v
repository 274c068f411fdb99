(** Property C144: tables with missing values (NaN). *)
From Verif Require Import Base F64 F64Lemmas Env EnvLemmas Utils Tree Options Train Spec SpecTrain Examples TrainEx MissProofs MissEx.
From Coq Require Import List.
Open Scope Z_scope.

(** C144: below the root, a node without samples is only possible where MaxDepth is reached; its value is NaN, or 0 for an
    XGB tree. *)
Theorem c144_empty_nodes : forall E X o t d l r k, EnvOk E -> NewTree E X o = Ok t -> (forall row0, look X 0 row0 -> row0 <> []) ->
  subAt (Node d l r) (S k) t -> samplesOf d = [] ->
  Z.of_nat (S k) = to_maxdepth o /\ l = Nil /\ r = Nil /\ t_nsamples d = 0 /\
  (to_xgb o = false -> fnanb (t_value d) = true) /\
  (to_xgb o = true -> fltb fzero (to_lambda o) = true -> feqb (t_value d) fzero = true).
Proof. exact empty_nodes. Qed.
(** a threshold that is NaN sends every sample to the right, which the construction only survives on the last level *)
Theorem c144_nan_threshold : forall E X o t d l r k, EnvOk E -> NewTree E X o = Ok t -> (forall row0, look X 0 row0 -> row0 <> []) ->
  subAt (Node d l r) k t -> t_leaf d = false -> fnanb (t_thr d) = true ->
  Z.of_nat (S k) = to_maxdepth o /\
  exists dl dr, l = Node dl Nil Nil /\ r = Node dr Nil Nil /\ samplesOf dl = [] /\ samplesOf dr = samplesOf d.
Proof. exact nan_threshold. Qed.
(** a column without any value among the samples of a node cannot be split on higher up *)
Theorem c144_missing_column : forall E X o t d l r k, EnvOk E -> NewTree E X o = Ok t -> (forall row0, look X 0 row0 -> row0 <> []) ->
  subAt (Node d l r) k t -> (forall j v, In j (samplesOf d) -> cell X j (t_split d) v -> fnanb v = true) -> Z.of_nat (S k) < to_maxdepth o ->
  t_leaf d = true.
Proof. exact all_missing. Qed.
(** a table without any value: at best one leaf; as soon as a split looks worth while there is no tree at all *)
Theorem c144_missing_table : forall E X o, EnvOk E -> (forall row0, look X 0 row0 -> row0 <> []) -> (forall i f v, cell X i f v -> fnanb v = true) -> 2 <= to_maxdepth o ->
  (forall t, NewTree E X o = Ok t -> exists d, t = Node d Nil Nil /\ t_leaf d = true) /\
  (forall row0 f j sc thr, look X 0 row0 -> scannedAt o (length row0) 0 f -> candidate E X o (initialSamples X o) f j sc thr ->
     betterScore (to_xgb o) sc (startScore (to_xgb o)) = true -> forall t, NewTree E X o <> Ok t).
Proof. exact missing_table. Qed.
Example c144_nonvacuous : EnvOk env0 /\ exists t d l r, NewTree env0 noneX (missO 1) = Ok t /\ subAt (Node d l r) 0 t /\ t_leaf d = false /\ fnanb (t_thr d) = true /\
  (forall i f v, cell noneX i f v -> fnanb v = true) /\ (forall row0, look noneX 0 row0 -> row0 <> []) /\
  (exists f j sc thr, scannedAt (missO 2) 1 0 f /\ candidate env0 noneX (missO 2) (initialSamples noneX (missO 2)) f j sc thr /\ betterScore false sc (startScore false) = true).
Proof. exact (conj env0_ok miss_tree). Qed.
(** one missing value among ordinary ones is enough to make the training panic, with the default options of gradient
    boosting and with checked options of XGBoost; with a number in its place both return *)
Theorem c144_one_missing_refuted : exists (D D' A A' : DataBunch unit) O,
  length (Data D) = 6%nat /\ (forall i f v, cell (Data D) i f v -> ffinite v = true \/ i = 3 /\ f = 0) /\
  length (Data A) = 4%nat /\ (forall i f v, cell (Data A) i f v -> ffinite v = true \/ i = 2 /\ f = 0) /\
  (forall i f v, cell (Data D') i f v -> ffinite v = true /\ (i <> 3 -> cell (Data D) i f v)) /\
  (forall i f v, cell (Data A') i f v -> ffinite v = true /\ (i <> 2 -> cell (Data A) i f v)) /\
  Labels D' = Labels D /\ Labels A' = Labels A /\
  NewMultiClass env0 draws0 D (DefaultGOptions 0) = Panic /\ (exists tr, NewMultiClass env0 draws0 D' (DefaultGOptions 0) = Ok tr) /\
  Check O = true /\ NewMultiClass env0 draws0 A O = Panic /\ (exists tr, NewMultiClass env0 draws0 A' O = Ok tr).
Proof. exact one_missing. Qed.
Print Assumptions c144_empty_nodes.
Print Assumptions c144_nan_threshold.
Print Assumptions c144_missing_column.
Print Assumptions c144_missing_table.
Print Assumptions c144_one_missing_refuted.
