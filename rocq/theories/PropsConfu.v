(** Confusion matrices: C72-C75, C95. *)
From Coq Require Import Ascii String.
From Verif Require Import Base F64 Env EnvLemmas Utils Tree Options Train Spec SpecTrain TrainEx Text Confu SpecConfu ConfuProofs ConfuMore ConfuEx.
From Coq Require Import List.
Open Scope Z_scope.

(** The classes of a trained model are distinct. *)
Theorem c72_trained_labels {K} E rnd (D : DataBunch K) O tr : NewMultiClass E rnd D O = Ok tr -> NoDup (ClassLabels (tr_model tr)).
Proof. exact (trained_nodup E rnd D O tr). Qed.
(** C72: whatever was done with the Confusions before ([creach]), the matrix holds the counts *)
Theorem c72_matrix_counts {K} E M (D : DataBunch K) C0 h0 C h : EnvOk E -> MCConfusions M D = Ok C0 -> NoDup (ClassLabels M) -> ~ knownBeyond M D ->
  creach E (C0, h0) (C, h) -> exists preds C', Forall2 (predictsLabel M) (Data D) preds /\
  Matrix C = Ok (map (fun a => map (countPairs (Labels D) preds a) (ClassLabels M)) (ClassLabels M), C').
Proof. exact (fun HE HC HN HK H => matrix_same E HE M D C0 h0 HC HN HK C h H). Qed.
Theorem c72_more_labels_panic {K} M (D : DataBunch K) C : MCConfusions M D = Ok C -> NoDup (ClassLabels M) -> knownBeyond M D -> Matrix C = Panic.
Proof. exact (matrix_panics M D C). Qed.
Example c72_nonvacuous : (exists tr, NewMultiClass env0 draws0 exD (mkO true 0 3 2 (fdec 3 10)) = Ok tr /\ ClassLabels (tr_model tr) = [7; 5; 6] /\
  MCConfusions (tr_model tr) exT = Ok exC /\ NoDup (ClassLabels (tr_model tr)) /\ ~ knownBeyond (tr_model tr) exT) /\
  (exists C', Matrix exC = Ok ([[1; 1; 0]; [0; 0; 0]; [0; 0; 1]], C')) /\
  exists tr C, NewMultiClass env0 draws0 exD (mkO true 0 3 2 (fdec 3 10)) = Ok tr /\ MCConfusions (tr_model tr) exC2 = Ok C /\
  NoDup (ClassLabels (tr_model tr)) /\ knownBeyond (tr_model tr) exC2.
Proof. exact (conj ex_confu_hyps (conj ex_matrix ex_panics)). Qed.
Print Assumptions c72_trained_labels.
Print Assumptions c72_matrix_counts.
Print Assumptions c72_more_labels_panic.

(** C73 *)
Theorem c73_margins {K} M (D : DataBunch K) C m C' : MCConfusions M D = Ok C -> NoDup (ClassLabels M) -> Matrix C = Ok (m, C') ->
  map sumZ m = map (count (Labels D)) (ClassLabels M) /\
  ((forall l, In l (Labels D) -> In l (ClassLabels M)) -> sumZ (map sumZ m) = Z.of_nat (length (Labels D))) /\
  (forall a, Accuracy M D = Ok a -> a = fmul (fofZ 100) (fdiv (fofZ (sumZ (diagonal m))) (fofZ (Z.of_nat (length (Data D)))))).
Proof. exact (matrix_margins M D C m C'). Qed.
Example c73_nonvacuous : (exists C', Matrix exC = Ok ([[1; 1; 0]; [0; 0; 0]; [0; 0; 1]], C')) /\ map sumZ [[1; 1; 0]; [0; 0; 0]; [0; 0; 1]] = [2; 0; 1] /\
  sumZ (diagonal [[1; 1; 0]; [0; 0; 0]; [0; 0; 1]]) = 2.
Proof. exact (conj ex_matrix (conj eq_refl eq_refl)). Qed.
Print Assumptions c73_margins.

(** C74 *)
Theorem c74_top_n {K} E M (D : DataBunch K) C0 h0 C h N m dc : EnvOk E -> MCConfusions M D = Ok C0 -> NoDup (ClassLabels M) -> ~ knownBeyond M D ->
  creach E (C0, h0) (C, h) ->
  (~ In m (ClassLabels M) -> exists C', TopNForLabelM E C h N m dc = Ok (None, C', h)) /\
  (In m (ClassLabels M) -> N < 0 -> TopNForLabelM E C h N m dc = Panic) /\
  (In m (ClassLabels M) -> 0 <= N -> exists preds ri rv C' h', Forall2 (predictsLabel M) (Data D) preds /\
     TopNForLabelM E C h N m dc = Ok (Some (ri, rv), C', h') /\
     topOf (map (countPairs (Labels D) preds m) (ClassLabels M)) (Z.to_nat N) (sread h' ri) (sread h' rv)).
Proof. exact (fun HE HC HN HK H => top_n E HE M D C0 h0 HC HN HK C h N m dc H). Qed.
Example c74_nonvacuous : exists ri rv C1 h1, TopNForLabelM env0 exC [] 2 7 true = Ok (Some (ri, rv), C1, h1) /\ sread h1 rv = [1; 1] /\ sread h1 ri <> [].
Proof. exact ex_copy. Qed.
Print Assumptions c74_top_n.

(** C75 *)
Theorem c75_copies_kept {K} E M (D : DataBunch K) C0 h0 C h N m ri rv C1 h1 C2 h2 : EnvOk E -> MCConfusions M D = Ok C0 -> NoDup (ClassLabels M) -> ~ knownBeyond M D ->
  creach E (C0, h0) (C, h) -> TopNForLabelM E C h N m true = Ok (Some (ri, rv), C1, h1) ->
  ccalls E (C1, h1) (C2, h2) -> sread h2 ri = sread h1 ri /\ sread h2 rv = sread h1 rv.
Proof. exact (fun HE HC HN HK => top_copy_kept E HE M D C0 h0 HC HN HK C h N m ri rv C1 h1 C2 h2). Qed.
(** without copies a later call returns the same slices, whose contents are then those of the later label *)
Theorem c75_shared {K} E M (D : DataBunch K) C0 h0 C h N m ri rv C1 h1 C2 h2 m' ri' rv' C3 h3 : EnvOk E -> MCConfusions M D = Ok C0 -> NoDup (ClassLabels M) -> ~ knownBeyond M D ->
  creach E (C0, h0) (C, h) -> TopNForLabelM E C h N m false = Ok (Some (ri, rv), C1, h1) ->
  ccalls E (C1, h1) (C2, h2) -> TopNForLabelM E C2 h2 N m' false = Ok (Some (ri', rv'), C3, h3) -> ri' = ri /\ rv' = rv.
Proof. exact (fun HE HC HN HK => top_shared E HE M D C0 h0 HC HN HK C h N m ri rv C1 h1 C2 h2 m' ri' rv' C3 h3). Qed.
Theorem c75_overwritten : exists ri rv C1 h1 C2 h2, TopNForLabelM env0 exC [] 2 7 false = Ok (Some (ri, rv), C1, h1) /\ sread h1 rv = [1; 1] /\
  TopNForLabelM env0 C1 h1 2 6 false = Ok (Some (ri, rv), C2, h2) /\ sread h2 rv = [1; 0] /\ sread h2 ri <> sread h1 ri.
Proof. exact ex_overwritten. Qed.
Example c75_nonvacuous : (exists tr, NewMultiClass env0 draws0 exD (mkO true 0 3 2 (fdec 3 10)) = Ok tr /\ ClassLabels (tr_model tr) = [7; 5; 6] /\
  MCConfusions (tr_model tr) exT = Ok exC /\ NoDup (ClassLabels (tr_model tr)) /\ ~ knownBeyond (tr_model tr) exT) /\
  exists ri rv C1 h1 o C2 h2, TopNForLabelM env0 exC [] 2 7 true = Ok (Some (ri, rv), C1, h1) /\
    TopNForLabelM env0 C1 h1 2 6 false = Ok (o, C2, h2) /\ sread h2 rv = [1; 1].
Proof. exact (conj ex_confu_hyps ex_copied). Qed.
Print Assumptions c75_copies_kept.
Print Assumptions c75_shared.
Print Assumptions c75_overwritten.

(** C95 *)
Theorem c95_print {K} E M (D : DataBunch K) C0 h0 C h N names : EnvOk E -> MCConfusions M D = Ok C0 -> NoDup (ClassLabels M) -> ~ knownBeyond M D ->
  creach E (C0, h0) (C, h) ->
  (N < 1 -> ClassLabels M <> [] -> PrintTopN E C h N names = Panic) /\
  (1 <= N -> exists preds tops C' h', Forall2 (predictsLabel M) (Data D) preds /\
    (forall m, In m (ClassLabels M) -> topOf (map (countPairs (Labels D) preds m) (ClassLabels M)) (Z.to_nat N) (fst (tops m)) (snd (tops m))) /\
    PrintTopN E C h N names = Ok (joinT (tx "Confusions:" :: map (fun m => topLine names (ClassLabels M) m (fst (tops m)) (snd (tops m)))
       (filter (fun m => negb (count (Labels D) m =? 0)) (ClassLabels M))) [NL], C', h')).
Proof. exact (fun HE HC HN HK => print_top E HE M D C0 h0 HC HN HK C h N names). Qed.
Theorem c95_simple_names labels k : nameGet (MakeSimpleNameMap labels) k = if contains labels k then decZ k else [].
Proof. exact (simple_names labels k). Qed.
Example c95_nonvacuous : exists C' h', PrintTopN env0 exC [] 3 (fun z => decZ z) = Ok (tx "Confusions:" ++ NL :: tx "Label 7  5:1 7:1" ++ NL :: tx "Label 6  6:1", C', h').
Proof. exact ex_print. Qed.
Print Assumptions c95_print.
Print Assumptions c95_simple_names.
