(** Text formats: C76-C79, C96, C97. *)
From Coq Require Import Ascii String Reals.
From Flocq Require Import Core IEEE754.BinarySingleNaN.
From Verif Require Import Base F64 Env F64Lemmas Utils Text Confu Readers SpecReaders ReadersProofs ReadersNum ReadersMore ReadersCsv ReadersEx.
From Coq Require Import List.
Open Scope Z_scope.

(** C76 *)
Theorem c76_round_trip pf D t : ParserOk pf -> LibSVM (Some D) = Ok t -> Forall int64 (Labels D) -> Forall svmKey (Keys D) \/ hasKeys D = false ->
  let n := length (Data D) in
  (Forall (Forall (fun x => is_finite x = true)) (firstn (Nat.pred n) (Data D)) ->
    exists D', ParseLibSVM pf t true (hasKeys D) = Ok (Some D') /\ Keys D' = (if hasKeys D then Keys D else []) /\ printedRows (Nat.pred n) D D') /\
  (Forall (Forall (fun x => is_finite x = true)) (Data D) ->
    exists D', ParseLibSVM pf (t ++ [NL]) true (hasKeys D) = Ok (Some D') /\ Keys D' = (if hasKeys D then Keys D else []) /\ printedRows n D D').
Proof. exact (svm_round_trip pf D t). Qed.
Theorem c76_special_values pf D t : ParserOk pf -> LibSVM (Some D) = Ok t -> Forall svmKey (Keys D) \/ hasKeys D = false ->
  Exists (Exists (fun x => is_finite x = false)) (firstn (Nat.pred (length (Data D))) (Data D)) -> ParseLibSVM pf t true (hasKeys D) = Ok None.
Proof. exact (svm_round_trip_special pf D t). Qed.
Example c76_nonvacuous : (ParserOk pf0 /\ LibSVM (Some exRD) = Ok exRT /\ Forall int64 (Labels exRD) /\ Forall svmKey (Keys exRD) /\ hasKeys exRD = true /\
  Forall (Forall (fun x => is_finite x = true)) (Data exRD) /\ length (Data exRD) = 2%nat) /\
  Exists (Exists (fun x => is_finite x = false)) (firstn (Nat.pred (length (Data exNaN))) (Data exNaN)).
Proof. exact (conj ex_hyps (proj1 (proj2 (proj2 ex_nan)))). Qed.
Print Assumptions c76_round_trip.
Print Assumptions c76_special_values.

(** C77: every text is made of lines; the reader's outcome in terms of them *)
Theorem c77_text_lines t : exists ls last, t = unlines ls last /\ Forall oneLine ls /\ oneLine last.
Proof. exact (text_lines t). Qed.
Theorem c77_data pf ls last eof h D : Forall oneLine ls -> oneLine last ->
  ParseLibSVM pf (unlines ls last) eof h = Ok (Some D) <-> eof = true /\ svmDoc pf h ls D.
Proof. exact (svm_data pf ls last eof h D). Qed.
Theorem c77_panic pf ls last eof h : Forall oneLine ls -> oneLine last ->
  ParseLibSVM pf (unlines ls last) eof h = Panic <-> exists pre l post D, ls = pre ++ l :: post /\ blank l /\ svmDoc pf h pre D.
Proof. exact (svm_panic pf ls last eof h). Qed.
Theorem c77_terminates pf r eof h : ParseLibSVM pf r eof h <> Diverge.
Proof. exact (svm_terminates pf r eof h). Qed.
Example c77_nonvacuous : (Forall oneLine [tx "1 1:2.0000"; tx "  "; tx "2 1:3.0000"] /\ blank (tx "  ") /\ (exists D, svmDoc pf0 false [tx "1 1:2.0000"] D)) /\
  ParseLibSVM pf0 (unlines [tx "1 1:2.0000"; tx "  "; tx "2 1:3.0000"] []) true false = Panic /\ ParseLibSVM pf0 (unlines [tx "1 2.0000"; tx "  "] []) true false = Ok None.
Proof. exact (conj ex_lines (conj (proj1 ex_blank) (proj1 (proj2 ex_blank)))). Qed.
Print Assumptions c77_text_lines.
Print Assumptions c77_data.
Print Assumptions c77_panic.
Print Assumptions c77_terminates.

(** C78 *)
Theorem c78_data pf recs eof hh hl D : ParseCSV pf recs eof hh hl = Ok (Some D) <-> eof = true /\ csvDoc pf hh hl recs D.
Proof. exact (csv_data pf recs eof hh hl D). Qed.
Theorem c78_panic pf recs eof hh hl : ParseCSV pf recs eof hh hl = Panic <-> hl = true /\ exists pre post, recs = pre ++ [] :: post /\ (pre = [] \/ exists D, csvDoc pf hh true pre D).
Proof. exact (csv_panic pf recs eof hh hl). Qed.
Theorem c78_terminates pf recs eof hh hl : ParseCSV pf recs eof hh hl <> Diverge.
Proof. exact (csv_terminates pf recs eof hh hl). Qed.
Example c78_nonvacuous : readsAs (ParseCSV pf0 [[tx "kind"; tx "a"; tx "b"]; [tx "3"; tx "1.5000"; tx "-0.2500"]; [tx "5"; tx "0.0000"; tx "+Inf"]] true true true)
    (fun D => rowsAre (Data D) [[d4 15000; d4 (-2500)]; [fzero; finf]] && (length (Keys D) =? 2)%nat && (length (Labels D) =? 2)%nat) = true /\
  ParseCSV pf0 [[tx "3"; tx "1.5000"]; [tx "5"; tx "x"]] true false true = Ok None /\ ParseCSV pf0 [[tx "3"; tx "1.5000"]] false false true = Ok None /\
  ParseCSV pf0 [[tx "3"; tx "1.5000"]; []] true false true = Panic /\ ParseCSV pf0 [] true true false = Ok None.
Proof. exact ex_csv. Qed.
Print Assumptions c78_data.
Print Assumptions c78_panic.
Print Assumptions c78_terminates.

(** C79 *)
Theorem c79_names ls last eof s m ps : Forall oneLine ls -> oneLine last -> ReadNameMap (Some (unlines ls last, eof)) s = Ok (Some m) ->
  Forall2 (fun l p => nameLine (sepName s) l (fst p) (snd p)) ls ps -> forall k, lookupZ m k = lastOf ps k.
Proof. exact (names_lookup ls last eof s m ps). Qed.
Theorem c79_success ls last eof s : Forall oneLine ls -> oneLine last -> forall m,
  ReadNameMap (Some (unlines ls last, eof)) s = Ok (Some m) <-> exists ps, Forall2 (fun l p => nameLine (sepName s) l (fst p) (snd p)) ls ps /\ m = rev ps.
Proof. exact (names_data ls last eof s). Qed.
Theorem c79_failures ls last eof s : Forall oneLine ls -> oneLine last ->
  (ReadNameMap (Some (unlines ls last, eof)) s = Panic <-> exists pre l post ps, ls = pre ++ l :: post /\ badLine (sepName s) l /\ Forall2 (fun l p => nameLine (sepName s) l (fst p) (snd p)) pre ps) /\
  (ReadNameMap (Some (unlines ls last, eof)) s = Ok None <-> exists pre l post ps, ls = pre ++ l :: post /\ wrongLine (sepName s) l /\ Forall2 (fun l p => nameLine (sepName s) l (fst p) (snd p)) pre ps).
Proof. exact (names_fail ls last eof s). Qed.
Theorem c79_terminates file s : ReadNameMap file s <> Diverge.
Proof. exact (names_terminates file s). Qed.
Theorem c79_split t sep : sep <> [] -> joinT (splitT t sep) sep = t /\ Forall (fun p => containsT p sep = false) (splitT t sep).
Proof. exact (split_spec t sep). Qed.
Example c79_nonvacuous : ReadNameMap (Some (unlines [tx "1 setosa"; tx "2	versicolor x"; tx "1 iris"] (tx "3 lost"), false)) None = Ok (Some [(1, tx "iris"); (2, tx "versicolor"); (1, tx "setosa")]) /\
  ReadNameMap (Some (unlines [tx "1;a"; []] [], true)) (Some (tx ";")) = Ok None /\ ReadNameMap (Some (unlines [tx "1 a"; []] [], true)) None = Panic /\
  ReadNameMap (Some (unlines [tx "1 a"; tx "7"] [], true)) None = Panic /\ ReadNameMap (Some (unlines [tx "one a"; []] [], true)) (Some []) = Ok None /\
  ReadNameMap (Some (unlines [tx "1;a" ++ ["013"%char]] [], true)) (Some (tx ";")) = Ok (Some [(1, tx "a" ++ ["013"%char])]) /\
  ReadNameMap (Some (unlines [tx "1 a" ++ ["013"%char]] [], true)) None = Ok (Some [(1, tx "a")]).
Proof. exact ex_names. Qed.
Print Assumptions c79_names.
Print Assumptions c79_success.
Print Assumptions c79_failures.
Print Assumptions c79_terminates.
Print Assumptions c79_split.

(** C96 *)
Theorem c96_round_trip pf rd D s c t : ParserOk pf -> ReaderOk rd -> sepOf s = [c] -> csvSep c -> CSV (Some D) s = Ok t -> Forall int64 (Labels D) ->
  Forall (csvKey c) (Keys D) \/ hasKeys D = false -> (forall r r', In r (Data D) -> In r' (Data D) -> length r = length r') ->
  exists D', DataBunchFromCSVFile pf rd (Some (t, true)) (hasKeys D) true s = Ok (Some D') /\
  (if hasKeys D then Forall2 unindented (Keys D) (Keys D') else Keys D' = []) /\ printedRows (length (Data D)) D D'.
Proof. exact (csv_round_trip pf rd D s c t). Qed.
Theorem c96_ragged pf rd D s c t : ParserOk pf -> ReaderOk rd -> sepOf s = [c] -> csvSep c -> CSV (Some D) s = Ok t -> Forall int64 (Labels D) ->
  Forall (csvKey c) (Keys D) \/ hasKeys D = false -> (exists r r', In r (Data D) /\ In r' (Data D) /\ length r <> length r') ->
  DataBunchFromCSVFile pf rd (Some (t, true)) (hasKeys D) true s = Ok None.
Proof. exact (csv_ragged pf rd D s c t). Qed.
Example c96_nonvacuous : (ParserOk pf0 /\ ReaderOk csvPlain /\ sepOf None = [","%char] /\ csvSep ","%char /\ CSV (Some exCD) None = Ok exCT /\ Forall int64 (Labels exCD) /\
  Forall (csvKey ","%char) (Keys exCD) /\ hasKeys exCD = true /\ (forall r r', In r (Data exCD) -> In r' (Data exCD) -> length r = length r') /\
  readsAs (DataBunchFromCSVFile pf0 csvPlain (Some (exCT, true)) true true None) (fun D => Nat.eqb (length (Data D)) 2 && forallb (fun p => text_eqb (fst p) (snd p)) (combine (Keys D) [tx "a"; tx "b"])) = true) /\
  (exists r r', In r (Data exRag) /\ In r' (Data exRag) /\ length r <> length r').
Proof. exact (conj ex_csv_hyps (proj1 (proj2 ex_ragged))). Qed.
Print Assumptions c96_round_trip.
Print Assumptions c96_ragged.

(** C97 *)
Theorem c97_empty_data D s : (LibSVM (Some D) = Panic <-> Data D = []) /\ (CSV (Some D) s = Panic <-> Data D = []).
Proof. exact (conj (svm_write D) (csv_write D s)). Qed.
Theorem c97_string OD : exists t, StringDB OD = Ok t.
Proof. exact (string_write OD). Qed.
Example c97_nonvacuous : LibSVM (Some exRD) = Ok exRT /\ LibSVM (Some (MkData [] [] [])) = Panic /\ StringDB (Some (MkData [] [] [])) = Ok (tx "Labels ").
Proof. exact (conj ex_text (conj eq_refl eq_refl)). Qed.
Print Assumptions c97_empty_data.
Print Assumptions c97_string.
