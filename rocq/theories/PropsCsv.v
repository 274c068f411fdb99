(** CSV files with quotes, and keys that need them: C141, C142. *)
From Coq Require Import Ascii String.
From Flocq Require Import IEEE754.BinarySingleNaN.
From Verif Require Import Base F64 Env Utils Text Confu Readers CsvReader SpecReaders ReadersNum ReadersCsv ReadersEx SpecCsv CsvProofs CsvQuote CsvKeys CsvEx.
From Coq Require Import List.
Open Scope Z_scope.

(** C141: the reader *)
Theorem c141_reader : ReaderOk csvRead.
Proof. exact reader_ok. Qed.
Theorem c141_fields sep n recs : goodDelim sep -> Forall (fun rec => length rec = S n /\ joinT (map fst rec) sep <> [] /\ Forall (fun p => cell sep (fst p) (snd p)) rec) recs ->
  csvRead sep (csvFile sep (map (map fst) recs)) true = (map (map snd) recs, true).
Proof. exact (read_same sep n recs). Qed.
Theorem c141_quoted_file sep n recs : goodDelim sep -> Forall (fun rec => length rec = S n /\ Forall noCRLF rec) recs ->
  csvRead sep (csvFile sep (map (map quoteField) recs)) true = (recs, true).
Proof. exact (quoted_file sep n recs). Qed.
Theorem c141_fuel sep eof n m k ls : (length ls < n)%nat -> (length ls < m)%nat -> readRecords n sep k ls eof = readRecords m sep k ls eof.
Proof. exact (records_fuel sep eof n m k ls). Qed.
Theorem c141_fields_fuel sep n m line ls acc : sep <> [] -> (length line + length (concat ls) < n)%nat -> (length line + length (concat ls) < m)%nat ->
  readFields n sep line ls acc = readFields m sep line ls acc.
Proof. intros H. exact (fields_fuel sep H n m line ls acc). Qed.
Example c141_nonvacuous : goodDelim (tx ",") /\ Forall (fun rec => length rec = 2%nat /\ Forall noCRLF rec) exFields /\
  csvFile (tx ",") (map (map quoteField) exFields) = tx """a,b"",""say """"hi""""""" ++ [NL] ++ tx """  x" ++ [NL] ++ tx "y"",""""".
Proof. exact ex_fields. Qed.
Print Assumptions c141_reader.
Print Assumptions c141_fields.
Print Assumptions c141_quoted_file.
Print Assumptions c141_fuel.
Print Assumptions c141_fields_fuel.

(** C142: keys *)
Theorem c142_keys pf D s c t ks : ParserOk pf -> sepOf s = [c] -> csvSep c -> CSV (Some D) s = Ok t -> Forall int64 (Labels D) -> hasKeys D = true ->
  Forall2 (cell [c]) (Keys D) ks -> sameLengths D ->
  exists D', DataBunchFromCSVFile pf csvRead (Some (t, true)) true true s = Ok (Some D') /\ Keys D' = ks /\ printedRows (length (Data D)) D D'.
Proof. exact (keys_cells pf D s c t ks). Qed.
Theorem c142_separator pf D s c t : sepOf s = [c] -> csvSep c -> ~ In [c] whiteSpaces -> CSV (Some D) s = Ok t -> hasKeys D = true ->
  Forall noEscapes (Keys D) -> Exists (In c) (Keys D) -> DataBunchFromCSVFile pf csvRead (Some (t, true)) true true s = Ok None.
Proof. exact (keys_separator pf D s c t). Qed.
Theorem c142_bare_quote pf D s c t pre a b post : sepOf s = [c] -> csvSep c -> CSV (Some D) s = Ok t -> hasKeys D = true -> Keys D = pre ++ (a ++ """"%char :: b) :: post ->
  Forall (csvKey c) pre -> csvKey c a -> ~ blank a -> noCR D -> DataBunchFromCSVFile pf csvRead (Some (t, true)) true true s = Ok None.
Proof. exact (bare_quote pf D s c t pre a b post). Qed.
Theorem c142_open_quote pf D s c t pre b x post : sepOf s = [c] -> csvSep c -> CSV (Some D) s = Ok t -> hasKeys D = true -> Keys D = pre ++ (b ++ """"%char :: x) :: post ->
  Forall (csvKey c) pre -> blank b -> ~ In NL b -> ~ In """"%char x -> Forall (fun k => ~ In """"%char k) post -> noCR D ->
  DataBunchFromCSVFile pf csvRead (Some (t, true)) true true s = Ok None.
Proof. exact (open_quote pf D s c t pre b x post). Qed.
Theorem c142_after_quote pf D s c t pre b v d x post : sepOf s = [c] -> csvSep c -> CSV (Some D) s = Ok t -> hasKeys D = true -> Keys D = pre ++ (b ++ quoteField v ++ d :: x) :: post ->
  Forall (csvKey c) pre -> blank b -> ~ In NL b -> d <> """"%char -> d <> c -> d <> NL -> noCR D ->
  DataBunchFromCSVFile pf csvRead (Some (t, true)) true true s = Ok None.
Proof. exact (junk_quote pf D s c t pre b v d x post). Qed.
Theorem c142_same_text (ks : list text) (k : text) lab v rows labs s : rows <> [] -> (forall r, In r (v :: rows) -> length r = S (length ks)) ->
  let D : DataBunch text := MkData rows (ks ++ [k ++ NL :: rowLine (sepOf s) lab v]) labs in
  CSV (Some D) s = CSV (Some (MkData (v :: rows) (ks ++ [k]) (lab :: labelsOf D))) s.
Proof. exact (same_text ks k lab v rows labs s). Qed.
(** the keys that are read need not be those that were written *)
Theorem c142_keys_kept_refuted : exists D D', hasKeys D = true /\ sameLengths D /\ readBack D = Ok (Some D') /\ Keys D = [tx """a"; tx "b"""; tx "x,y"] /\ Keys D' = [tx "a,b"; tx "x"; tx "y"].
Proof. exact keys_shifted. Qed.
Example c142_nonvacuous : (ParserOk pf0 /\ csvSep ","%char /\ Forall2 (cell (tx ",")) (Keys exQ) [tx "a,b"; tx "c d"] /\ hasKeys exQ = true /\ sameLengths exQ /\ Forall int64 (Labels exQ)) /\
  ((Forall noEscapes [tx "a,b"; tx "c"] /\ Exists (In ","%char) [tx "a,b"; tx "c"] /\ ~ In [","%char] whiteSpaces /\ csvSep ","%char) /\
   (csvKey ","%char (tx "a") /\ ~ blank (tx "a") /\ noCR (exKeys [tx "a""b"; tx "c"])) /\ (tx """a""b" = [] ++ quoteField (tx "a") ++ tx "b") /\ hasKeys (exKeys [tx "a,b"; tx "c"]) = true) /\
  (readBack (exKeys [tx "a,b"; tx "c"]) = Ok None /\ readBack (exKeys [tx "a""b"; tx "c"]) = Ok None /\ readBack (exKeys [tx """a"; tx "c"]) = Ok None /\ readBack (exKeys [tx """a""b"; tx "c"]) = Ok None) /\
  (rowLine (tx ",") 7 [fofZ 1; fofZ 2] = tx "7,1.0000,2.0000" /\
   readsAs (readBack (exKeys [tx "a"; tx "b" ++ [NL] ++ tx "7,1.0000,2.0000"])) (fun D' => keysAre [tx "a"; tx "b"] D' && Nat.eqb (length (Data D')) 3) = true).
Proof.
  exact (conj (conj pf0_ok (conj comma_sep (conj (proj1 ex_wrapped) (conj (proj1 (proj2 ex_wrapped)) (conj (proj1 (proj2 (proj2 ex_wrapped))) (proj1 (proj2 (proj2 (proj2 ex_wrapped)))))))))
    (conj ex_broken_hyps (conj ex_broken ex_injected))).
Qed.
Print Assumptions c142_keys.
Print Assumptions c142_separator.
Print Assumptions c142_bare_quote.
Print Assumptions c142_open_quote.
Print Assumptions c142_after_quote.
Print Assumptions c142_same_text.
Print Assumptions c142_keys_kept_refuted.
