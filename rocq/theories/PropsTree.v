(** Property theorems about NewTree and Tree prediction (C01-C12, C15-C17). Nothing but statements closed by a
    lemma, examples showing that their hypotheses are met, and their assumptions. *)
From Coq Require Import Reals.
From Verif Require Import Base F64 F64Lemmas Env EnvLemmas Utils Tree Spec UtilsProofs TreeProofs TreeSplit TreeMid Examples TreeThms.
Open Scope Z_scope.

(** C01 *)
Theorem c01_split_partition E X o t d l r : NewTree E X o = Ok t -> sub (Node d l r) t -> t_leaf d = false ->
  exists ix dl ll lr dr rl rr,
    t_samples d = Some ix /\ l = Node dl ll lr /\ r = Node dr rl rr /\
    (forall i, In i ix -> exists v, cell X i (t_split d) v) /\
    t_samples dl = Some (filter (below X (t_split d) (t_thr d)) ix) /\
    t_samples dr = Some (filter (fun i => negb (below X (t_split d) (t_thr d) i)) ix) /\
    Permutation ix (samplesOf dl ++ samplesOf dr).
Proof. exact (split_partition E X o t d l r). Qed.
Theorem c01_root_samples E X o t : NewTree E X o = Ok t ->
  exists d l r, t = Node d l r /\ t_samples d = Some (initialSamples X o) /\
  t_nsamples d = Z.of_nat (length (initialSamples X o)).
Proof. exact (root_samples E X o t). Qed.
Example c01_nonvacuous : exists t d l r, NewTree env0 exX exO = Ok t /\ sub (Node d l r) t /\ t_leaf d = false.
Proof. exact ex_split_xgb. Qed.
Print Assumptions c01_split_partition.
Print Assumptions c01_root_samples.

(** C02 *)
Theorem c02_training_sample_leaf E X o t i row : NewTree E X o = Ok t -> In i (initialSamples X o) -> look X i row ->
  exists k d, nth_error (leaves t) k = Some d /\ In i (samplesOf d) /\ PredictSingle t row = Ok (t_value d) /\
    forall k' d', nth_error (leaves t) k' = Some d' -> In i (samplesOf d') -> k' = k.
Proof. exact (c02_lemma E X o t i row). Qed.
Example c02_nonvacuous : exists t row, NewTree env0 exX exO = Ok t /\ In 3 (initialSamples exX exO) /\ look exX 3 row.
Proof. exact ex_c02. Qed.
Print Assumptions c02_training_sample_leaf.

(** C03 *)
Theorem c03_depth E X o t : NewTree E X o = Ok t ->
  Z.of_nat (depth t) <= Z.max 0 (to_maxdepth o) /\
  (to_maxdepth o <= 0 -> exists d, t = Node d Nil Nil /\ t_leaf d = true).
Proof. exact (c03_lemma E X o t). Qed.
Example c03_nonvacuous : exists t, NewTree env0 exX exO = Ok t /\ depth t = 2%nat.
Proof. exact ex_depth. Qed.
Print Assumptions c03_depth.

(** C04 *)
Theorem c04_branches E X o t : NewTree E X o = Ok t ->
  Branches t = Ok (nodes t) /\ Z.odd (nodes t) = true /\ 1 <= nodes t <= 2 ^ (Z.max 0 (to_maxdepth o) + 1) - 1 /\
  forall d l r, sub (Node d l r) t -> t_branches d = nodes (Node d l r).
Proof. exact (c04_lemma E X o t). Qed.
Example c04_nonvacuous : exists t, NewTree env0 exX exO = Ok t /\ nodes t = 7.
Proof. exact ex_nodes. Qed.
Print Assumptions c04_branches.

(** C05 *)
Theorem c05_leaf_children E X o t d l r : NewTree E X o = Ok t -> sub (Node d l r) t ->
  (t_leaf d = true <-> l = Nil /\ r = Nil) /\ (t_leaf d = false <-> l <> Nil /\ r <> Nil).
Proof. exact (leaf_children E X o t d l r). Qed.
Example c05_nonvacuous : exists t d l r, NewTree env0 exX exO = Ok t /\ sub (Node d l r) t /\ t_leaf d = false.
Proof. exact ex_split_xgb. Qed.
Print Assumptions c05_leaf_children.

(** C06 *)
Theorem c06_node_value E X o t d l r : NewTree E X o = Ok t -> sub (Node d l r) t ->
  exists ix, t_samples d = Some ix /\ t_nsamples d = Z.of_nat (length ix) /\ t_xgb d = to_xgb o /\
  if to_xgb o then
    exists g h, Forall2 (look (orNil (to_grads o))) ix g /\ Forall2 (look (orNil (to_hess o))) ix h /\
      t_value d = fdiv (fmul (fofZ (-1)) (e_sum E g)) (fadd (e_sum E h) (to_lambda o))
  else
    exists y, Forall2 (look (to_y o)) ix y /\ t_value d = fdiv (e_sum E y) (fofZ (Z.of_nat (length ix))).
Proof. exact (node_value E X o t d l r). Qed.
Example c06_nonvacuous :
  (exists t d l r, NewTree env0 exX exO = Ok t /\ sub (Node d l r) t /\ t_leaf d = false) /\
  (exists t d l r, NewTree env0 exX exOg = Ok t /\ sub (Node d l r) t /\ t_leaf d = false).
Proof. exact (conj ex_split_xgb ex_split_reg). Qed.
Print Assumptions c06_node_value.

(** C07: [k] is the distance of the node from the root; only the root honours AllowedColumns ([scannedAt]). *)
Theorem c07_best_split E X o t d l r k : EnvOk E -> NewTree E X o = Ok t -> subAt (Node d l r) k t ->
  exists row0, look X 0 row0 /\
  (t_leaf d = false ->
     exists i, scannedAt o (length row0) k (t_split d) /\
       candidate E X o (samplesOf d) (t_split d) i (t_best d) (t_thr d) /\
       betterScore (to_xgb o) (t_best d) (startScore (to_xgb o)) = true /\
       (forall f j sc thr, scannedAt o (length row0) k f -> candidate E X o (samplesOf d) f j sc thr ->
          betterScore (to_xgb o) sc (t_best d) = false) /\
       (forall f j sc thr, scannedAt o (length row0) k f -> (f < t_split d \/ f = t_split d /\ (j < i)%nat) ->
          candidate E X o (samplesOf d) f j sc thr ->
          fnanb sc = true \/ betterScore (to_xgb o) (t_best d) sc = true)) /\
  (t_leaf d = true -> Z.of_nat k < to_maxdepth o ->
     forall f j sc thr, scannedAt o (length row0) k f -> candidate E X o (samplesOf d) f j sc thr ->
       betterScore (to_xgb o) sc (startScore (to_xgb o)) = false).
Proof. exact (c07_lemma E X o t d l r k). Qed.
Example c07_nonvacuous : EnvOk env0 /\
  (exists t d l r, NewTree env0 exX exO = Ok t /\ subAt (Node d l r) 1 t /\ t_leaf d = false) /\
  (exists t d l r, NewTree env0 exX exO = Ok t /\ subAt (Node d l r) 2 t /\ t_leaf d = true /\ 2 < to_maxdepth exO).
Proof. exact ex_c07. Qed.
Print Assumptions c07_best_split.

(** C08 *)
Theorem c08_min_child_weight E X o t d l r : EnvOk E -> NewTree E X o = Ok t -> sub (Node d l r) t -> t_leaf d = false ->
  (forall j v, In j (samplesOf d) -> cell X j (t_split d) v -> ffinite v = true) ->
  exists a b dl ll lr dr rl rr,
    l = Node dl ll lr /\ r = Node dr rl rr /\
    (exists j, In j (samplesOf d) /\ cell X j (t_split d) a) /\
    (exists j, In j (samplesOf d) /\ cell X j (t_split d) b) /\
    fltb a b = true /\ t_thr d = fdiv (fadd a b) (fofZ 2) /\
    (forall j v, In j (samplesOf d) -> cell X j (t_split d) v -> fleb v a = true \/ fleb b v = true) /\
    (ffinite (fadd a b) = true -> ftoZ (to_mcw o) <= t_nsamples dl /\ 1 <= t_nsamples dl) /\
    (fltb (t_thr d) b = true -> ftoZ (to_mcw o) <= t_nsamples dr /\ 1 <= t_nsamples dr).
Proof. exact (c08_lemma E X o t d l r). Qed.
Example c08_nonvacuous : exists t d l r, NewTree env0 exX exO = Ok t /\ sub (Node d l r) t /\ t_leaf d = false /\
  forall j v, In j (samplesOf d) -> cell exX j (t_split d) v -> ffinite v = true.
Proof. exact ex_c08. Qed.
(** the right child can be empty although MinChildWeight = 1 *)
Theorem c08_right_child_refuted : exists X o t d l r dr rl rr,
  NewTree env0 X o = Ok t /\ sub (Node d l r) t /\ t_leaf d = false /\
  (forall row v, In row X -> In v row -> ffinite v = true) /\ ftoZ (to_mcw o) = 1 /\
  r = Node dr rl rr /\ samplesOf dr = [] /\ t_nsamples dr = 0.
Proof. exact empty_right_child. Qed.
Print Assumptions c08_min_child_weight.
Print Assumptions c08_right_child_refuted.

(** C09 *)
Theorem c09_threshold_between a b : ffinite a = true -> ffinite b = true -> fltb a b = true ->
  ffinite (fadd a b) = true ->
  let t := fdiv (fadd a b) (fofZ 2) in
  fleb a t = true /\ fleb t b = true /\
  forall c, ffinite c = true -> fltb c b = true -> (B2R a + B2R b <= 2 * B2R c)%R -> fleb t c = true /\ fltb t b = true.
Proof. exact (midpoint_between a b). Qed.
Theorem c09_threshold_overflow a b : ffinite a = true -> ffinite b = true -> ffinite (fadd a b) = false ->
  let t := fdiv (fadd a b) (fofZ 2) in
  (t = finf \/ t = fninf) /\
  ((forall v, ffinite v = true -> fleb v t = true) \/ (forall v, ffinite v = true -> fleb v t = false)).
Proof. exact (c09_overflow_lemma a b). Qed.
Example c09_nonvacuous : fltb (fZ 1) (fZ 2) = true /\ ffinite (fadd (fZ 1) (fZ 2)) = true /\
  ffinite bigF = true /\ ffinite (fadd bigF bigF) = false.
Proof. exact ex_c09. Qed.
Print Assumptions c09_threshold_between.
Print Assumptions c09_threshold_overflow.

(** C10 *)
Theorem c10_no_panic E X o row0 rest : EnvOk E -> X = row0 :: rest ->
  (forall row, In row X -> length row = length row0) ->
  (forall i f v, cell X i f v -> fnanb v = false) ->
  (forall f i j a b, cell X i f a -> cell X j f b -> fltb a b = true ->
     fleb a (fdiv (fadd a b) (fofZ 2)) = true /\ fltb (fdiv (fadd a b) (fofZ 2)) b = true) ->
  initialSamples X o <> [] -> NoDup (initialSamples X o) ->
  (forall i, In i (initialSamples X o) -> 0 <= i < Z.of_nat (length X)) ->
  (if to_xgb o then exists g h, to_grads o = Some g /\ to_hess o = Some h /\ length g = length X /\ length h = length X
   else length (to_y o) = length X) ->
  (forall b, to_in o = Some b -> (length (initialSamples X o) <= length b)%nat) ->
  (forall b, to_val o = Some b -> (length (initialSamples X o) <= length b)%nat) ->
  exists t, NewTree E X o = Ok t.
Proof. exact (c10_lemma E X o row0 rest). Qed.
Example c10_nonvacuous :
  (forall i f v, cell exX i f v -> fnanb v = false) /\
  (forall f i j a b, cell exX i f a -> cell exX j f b -> fltb a b = true ->
     fleb a (fdiv (fadd a b) (fofZ 2)) = true /\ fltb (fdiv (fadd a b) (fofZ 2)) b = true) /\
  initialSamples exX exO <> [] /\ NoDup (initialSamples exX exO).
Proof. exact ex_c10. Qed.
(** without the midpoint condition: finite data on which NewTree panics *)
Theorem c10_no_panic_refuted : exists X o,
  (forall row, In row X -> length row = 1%nat) /\ (forall row v, In row X -> In v row -> ffinite v = true) /\
  length X = 2%nat /\ to_indexes o = None /\ NewTree env0 X o = Panic.
Proof. exact tree_panics. Qed.
Print Assumptions c10_no_panic.
Print Assumptions c10_no_panic_refuted.

(** C11 *)
Theorem c11_allowed_root E X o t d l r : NewTree E X o = Ok t -> t = Node d l r -> t_leaf d = false ->
  exists row0, look X 0 row0 /\ 0 <= t_split d < Z.of_nat (length row0) /\ (to_allowed o = [] \/ In (t_split d) (to_allowed o)).
Proof. exact (c11_lemma E X o t d l r). Qed.
Example c11_nonvacuous : exists t d l r, NewTree env0 exX exOcol = Ok t /\ t = Node d l r /\ t_leaf d = false.
Proof. exact ex_split_col. Qed.
Theorem c11_descendants_refuted : exists X o t d l r,
  NewTree env0 X o = Ok t /\ sub (Node d l r) t /\ t_leaf d = false /\ to_allowed o <> [] /\ ~ In (t_split d) (to_allowed o).
Proof. exact child_not_allowed. Qed.
Print Assumptions c11_allowed_root.
Print Assumptions c11_descendants_refuted.

(** C12 *)
Theorem c12_positive_gain E X o t d l r : EnvOk E -> NewTree E X o = Ok t -> sub (Node d l r) t -> t_leaf d = false ->
  if to_xgb o then fltb fzero (t_best d) = true else fltb (t_best d) finf = true.
Proof. exact (c12_lemma E X o t d l r). Qed.
Example c12_nonvacuous : exists t d l r, NewTree env0 exX exO = Ok t /\ sub (Node d l r) t /\ t_leaf d = false.
Proof. exact ex_split_xgb. Qed.
Print Assumptions c12_positive_gain.

(** C15 *)
Theorem c15_predict_total E X o t : NewTree E X o = Ok t ->
  exists row0, look X 0 row0 /\
  forall row, (length row0 <= length row)%nat ->
    (exists d, In d (leaves t) /\ PredictSingle t row = Ok (t_value d)) /\
    forall row', (length row0 <= length row')%nat ->
      (forall d l r v v', sub (Node d l r) t -> t_leaf d = false -> look row (t_split d) v -> look row' (t_split d) v' ->
         fleb v (t_thr d) = fleb v' (t_thr d)) ->
      PredictSingle t row = PredictSingle t row'.
Proof. exact (c15_lemma E X o t). Qed.
Example c15_nonvacuous : exists t d l r, NewTree env0 exX exO = Ok t /\ sub (Node d l r) t /\ t_leaf d = false.
Proof. exact ex_split_xgb. Qed.
Print Assumptions c15_predict_total.

(** C16 *)
Theorem c16_predict_elementwise t data preds : (forall row, In row data -> exists v, PredictSingle t row = Ok v) ->
  (Z.of_nat (length data) <= Z.of_nat (length (match preds with Some p => p | None => repeat fzero (length data) end)) ->
   exists out, Predict t data preds = Ok out /\
     length out = length (match preds with Some p => p | None => repeat fzero (length data) end) /\
     (forall k row, nth_error data k = Some row -> exists v, PredictSingle t row = Ok v /\ nth_error out k = Some v) /\
     (forall p k, preds = Some p -> (length data <= k)%nat -> nth_error out k = nth_error p k)) /\
  (forall p, preds = Some p -> (length p < length data)%nat -> Predict t data preds = Panic).
Proof. exact (c16_lemma t data preds). Qed.
Example c16_nonvacuous : exists t, NewTree env0 exX exO = Ok t /\ forall row, In row exX -> exists v, PredictSingle t row = Ok v.
Proof. exact ex_c16. Qed.
Print Assumptions c16_predict_elementwise.

(** C17: [NewTreeSt] also returns the caller's option record after the call *)
Theorem c17_remembers_indexes E X o t o' : NewTreeSt E X o = Ok (t, o') ->
  NewTree E X o = Ok t /\
  to_indexes o' = Some (initialSamples X o) /\
  (to_xgb o', to_mcw o', to_allowed o', to_lambda o', to_gamma o', to_grads o', to_hess o', to_y o', to_maxdepth o') =
  (to_xgb o, to_mcw o, to_allowed o, to_lambda o, to_gamma o, to_grads o, to_hess o, to_y o, to_maxdepth o) /\
  forall X' t', NewTree E X' o' = Ok t' ->
    exists d l r, t' = Node d l r /\ t_samples d = Some (initialSamples X o).
Proof. exact (c17_lemma E X o t o'). Qed.
Example c17_nonvacuous : exists t o', NewTreeSt env0 exX exO = Ok (t, o').
Proof. exact ex_c17. Qed.
Print Assumptions c17_remembers_indexes.
