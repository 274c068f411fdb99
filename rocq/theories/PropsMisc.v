(** C124-C127: sorting with indexes, one-hot encoded names, the text of a node, the error of the libSVM reader. *)
From Coq Require Import Ascii String Permutation.
From Verif Require Import Base F64 Env EnvLemmas Utils Tree Text Confu Readers ReadersNum Json Print Misc Spec SpecPrint SpecMisc Examples TrainEx MiscProofs MiscEx.
From Coq Require Import List.
Open Scope Z_scope.

(** Whatever a sorting program does to a [Slice] through [Less] and [Swap], every value keeps its index, and the values
    end as in a plain slice. *)
Theorem c124_pairs : forall n p s, runSlice p (NewSlice n) = Ok s ->
  Permutation (iota (length n)) (sl_idx s) /\ Forall2 (look n) (sl_idx s) (sl_vals s) /\ Permutation n (sl_vals s) /\ runFloats p n = Ok (sl_vals s).
Proof. exact c124_pairs_lemma. Qed.
Theorem c124_total : forall n p, inRange (Z.of_nat (length n)) p -> exists s, runSlice p (NewSlice n) = Ok s.
Proof. exact c124_total_lemma. Qed.
(** the order is a strict weak order on all numbers; when nothing is out of order, NaN comes first and the others increase *)
Theorem c124_order : forall l, swo lessF l.
Proof. exact c124_order_lemma. Qed.
Theorem c124_sorted : forall v, no_inversion lessF v ->
  forall i j x y, (i < j)%nat -> nth_error v i = Some x -> nth_error v j = Some y -> fnanb x = true \/ fleb x y = true.
Proof. exact c124_sorted_lemma. Qed.
(** on different numbers the result is that of [ArgSort] *)
Theorem c124_argsort : forall E n p s, EnvOk E -> (forall x, In x n -> fnanb x = false) ->
  (forall i j x y, nth_error n i = Some x -> nth_error n j = Some y -> feqb x y = true -> i = j) ->
  runSlice p (NewSlice n) = Ok s -> no_inversion lessF (sl_vals s) -> (sl_idx s, sl_vals s) = ArgSort E n.
Proof. exact c124_argsort_lemma. Qed.
(** the sort that Go uses on at most 12 elements *)
Theorem c124_insertion : forall n, exists s, runSlice (insertionSort (length n)) (NewSlice n) = Ok s /\ no_inversion lessF (sl_vals s).
Proof. exact c124_insertion_lemma. Qed.
Example c124_nonvacuous : exists s, runSlice (insertionSort 4) (NewSlice sortMe) = Ok s /\ sl_idx s = [1; 2; 3; 0].
Proof. exact ex_c124. Qed.
Example c124_nonvacuous_argsort : EnvOk env0 /\ (forall x, In x numbers -> fnanb x = false) /\
  (forall i j x y, nth_error numbers i = Some x -> nth_error numbers j = Some y -> feqb x y = true -> i = j).
Proof. exact ex_c124_argsort. Qed.

(** One row per name, one column per different name in the order of appearance, a single 1 in every row. *)
Theorem c125_names : forall (D : DataBunch text),
  (Keys D = [] -> OHEKeys D = Panic) /\
  (Keys D <> [] -> exists M de, OHEKeys D = Ok (M, de) /\ firstsOf (Keys D) de /\ wfDense M /\ d_r M = length (Keys D) /\ d_c M = length de /\
     forall i j k w, nth_error (Keys D) i = Some k -> nth_error de j = Some w -> entry M i j (if text_eqb w k then fone else fzero)).
Proof. exact c125_lemma. Qed.
Theorem c125_different_names : forall (D : DataBunch text), Keys D <> [] -> NoDup (Keys D) ->
  exists M, OHEKeys D = Ok (M, Keys D) /\ d_r M = length (Keys D) /\ d_c M = length (Keys D) /\
    forall i j, (i < length (Keys D))%nat -> (j < length (Keys D))%nat -> entry M i j (if Nat.eqb i j then fone else fzero).
Proof. exact c125_distinct_lemma. Qed.
(** the encoder of the labels is the same function *)
Theorem c125_labels : forall l, oneHotEncodeDense l = oneHotOf Z.eqb l.
Proof. exact c125_labels_lemma. Qed.
Example c125_nonvacuous : exists M, OHEKeys namesD = Ok (M, [tx "age"; tx "size"]) /\ d_r M = 3%nat /\ d_c M = 2%nat.
Proof. exact ex_c125. Qed.

(** Two stored nodes have the same text exactly when they agree in everything but the feature they split on. *)
Theorem c126_text : forall j k, StringNode j = StringNode k <-> sameNode j k.
Proof. exact c126_lemma. Qed.
Theorem c126_split_refuted : exists j k, StringNode j = StringNode k /\ j_split j <> j_split k.
Proof. exact ref_c126. Qed.
Example c126_nonvacuous : StringNode (nodeOn 3) = tx "ID:1, Samples:[], ns: 4, score: 2.000,Value:1.000Threshold: 0.500, Leaf: false, Branches: 7, LeftID: 2, RightID: 5, XGB:true".
Proof. exact ex_c126. Qed.

(** The libSVM reader ends with an error about a line exactly when some complete line cannot be read, and the error is
    about the first of these, counted from 1 with the header. *)
Theorem c127_first_bad_line : forall pf why r eof hh ls msg, linesOf r ls ->
  ParseLibSVMErr pf why r eof hh = Ok (SLine msg) <->
  exists k line, nth_error ls k = Some line /\ parseLibSVMLine pf line (hh && Nat.eqb k 0) = Ok None /\
    (forall i l, (i < k)%nat -> nth_error ls i = Some l -> exists v, parseLibSVMLine pf l (hh && Nat.eqb i 0) = Ok (Some v)) /\
    msg = svmliberror (why (hh && Nat.eqb k 0) line) (Z.of_nat k + 1) line.
Proof. exact c127_line_lemma. Qed.
Theorem c127_number : forall e n l e' n' l', svmliberror e n l = svmliberror e' n' l' -> n = n'.
Proof. exact c127_number_lemma. Qed.
(** the message shows the number, the reason and the line *)
Theorem c127_message : forall e n l, (exists a b c, svmliberror e n l = a ++ decZ n ++ b ++ e ++ c ++ l) /\
  (forall l', svmliberror e n l = svmliberror e n l' -> l = l') /\ (forall e', svmliberror e n l = svmliberror e' n l -> e = e').
Proof. exact c127_message_lemma. Qed.
Theorem c127_lines : forall r, exists ls, linesOf r ls.
Proof. exact linesOf_ex. Qed.
(** without the text of the error this is the reader of C76-C77 *)
Theorem c127_same_reader : forall pf why r eof hh,
  ParseLibSVM pf r eof hh = (o <- ParseLibSVMErr pf why r eof hh ;; Ok (match o with SData D => Some D | _ => None end)).
Proof. exact c127_erase_lemma. Qed.
Example c127_nonvacuous : linesOf oneBad oneBadLines /\
  ParseLibSVMErr pf0 (fun _ _ => tx "why") oneBad true false = Ok (SLine (tx "Can't read line 2 in libSVM-formatted file, Error: why, line: 2 1:x" ++ [NL])).
Proof. exact ex_c127. Qed.

Print Assumptions c124_pairs.
Print Assumptions c124_total.
Print Assumptions c124_order.
Print Assumptions c124_sorted.
Print Assumptions c124_argsort.
Print Assumptions c124_insertion.
Print Assumptions c125_names.
Print Assumptions c125_different_names.
Print Assumptions c125_labels.
Print Assumptions c126_text.
Print Assumptions c126_split_refuted.
Print Assumptions c127_first_bad_line.
Print Assumptions c127_number.
Print Assumptions c127_message.
Print Assumptions c127_lines.
Print Assumptions c127_same_reader.
