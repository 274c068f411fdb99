(** Concrete cases for the text formats. *)
From Coq Require Import Ascii String Reals.
From Flocq Require Import Core IEEE754.BinarySingleNaN.
From Verif Require Import Base F64 Env F64Lemmas Utils Text Confu Readers SpecReaders ReadersProofs ReadersNum ReadersMore ReadersCsv.
From Coq Require Import List.
Open Scope Z_scope.

Ltac noIn := let H := fresh in cbn; intros H; repeat destruct H as [H|H]; try discriminate; destruct H.
Definition d4 (n : Z) : f64 := fdiv (fofZ n) (fofZ 10000).
Definition exRD : DataBunch text := MkData [[d4 15000; fopp (fdiv (fofZ 1) (fofZ 3))]; [fofZ 1234567; d4 2]] [tx "length"; tx "width"] [4; -7].
Definition exRT : text := tx "Labels 1:length 2:width" ++ [NL] ++ tx "  4   1:1.5000 2:-0.3333" ++ [NL] ++ tx " -7   1:1234567.0000 2:0.0002".
Lemma ex_text : LibSVM (Some exRD) = Ok exRT.
Proof. vm_compute. reflexivity. Qed.
Lemma safe_keys ks : forallb (fun k => forallb (fun c => safeChar c && negb (Ascii.eqb c ":")) k) ks = true -> Forall svmKey ks.
Proof.
  intros H. apply Forall_forall. intros k Hk. rewrite forallb_forall in H. specialize (H k Hk). cbn beta in H. rewrite forallb_forall in H. split.
  - apply solid_safe. intros c Hc. specialize (H c Hc). apply andb_prop in H. tauto.
  - intros Hin. specialize (H _ Hin). discriminate H.
Qed.
Lemma ex_hyps : ParserOk pf0 /\ LibSVM (Some exRD) = Ok exRT /\ Forall int64 (Labels exRD) /\ Forall svmKey (Keys exRD) /\ hasKeys exRD = true /\
  Forall (Forall (fun x => is_finite x = true)) (Data exRD) /\ length (Data exRD) = 2%nat.
Proof.
  split; [apply pf0_ok|]. split; [apply ex_text|]. split; [repeat constructor; unfold int64; lia|]. split; [apply safe_keys; reflexivity|]. split; [reflexivity|]. split; [|reflexivity].
  repeat constructor; vm_compute; reflexivity.
Qed.
(** what is read back, tested on the values *)
Definition readsAs (r : res (option (DataBunch text))) (P : DataBunch text -> bool) : bool := match r with Ok (Some D) => P D | _ => false end.
Definition sameF (a b : f64) : bool := feqb a b.
Definition rowsAre (rs qs : list (list f64)) : bool :=
  Nat.eqb (length rs) (length qs) && forallb (fun p => Nat.eqb (length (fst p)) (length (snd p)) && forallb (fun q => sameF (fst q) (snd q)) (combine (fst p) (snd p))) (combine rs qs).
Lemma ex_read : readsAs (ParseLibSVM pf0 exRT true true) (fun D => rowsAre (Data D) [[d4 15000; d4 (-3333)]] && forallb (fun p => text_eqb (fst p) (snd p)) (combine (Keys D) (Keys exRD)) && (length (Labels D) =? 1)%nat) = true /\
  readsAs (ParseLibSVM pf0 (exRT ++ [NL]) true true) (fun D => rowsAre (Data D) [[d4 15000; d4 (-3333)]; [fofZ 1234567; d4 2]] && (length (Labels D) =? 2)%nat) = true.
Proof. vm_compute. auto. Qed.
Definition exNaN : DataBunch text := MkData [[d4 15000; fnan]; [fofZ 1; d4 2]] [] [4; -7].
Lemma ex_nan : LibSVM (Some exNaN) = Ok (tx "  4   1:1.5000 2:  NaN" ++ [NL] ++ tx " -7   1:1.0000 2:0.0002") /\ hasKeys exNaN = false /\
  Exists (Exists (fun x => is_finite x = false)) (firstn (Nat.pred (length (Data exNaN))) (Data exNaN)) /\ ParseLibSVM pf0 (tx "  4   1:1.5000 2:  NaN" ++ [NL] ++ tx " -7   1:1.0000 2:0.0002") true false = Ok None.
Proof. split; [vm_compute; reflexivity|]. split; [reflexivity|]. split; [cbn; apply Exists_cons_hd, Exists_cons_tl, Exists_cons_hd; reflexivity|vm_compute; reflexivity]. Qed.
(** a blank line in the middle, and one after a malformed line *)
Lemma ex_blank : ParseLibSVM pf0 (unlines [tx "1 1:2.0000"; tx "  "; tx "2 1:3.0000"] []) true false = Panic /\
  ParseLibSVM pf0 (unlines [tx "1 2.0000"; tx "  "] []) true false = Ok None /\
  readsAs (ParseLibSVM pf0 (unlines [tx "1 1:2.0000"; tx "2 1:3.0000"] (tx "  ")) true false) (fun D => rowsAre (Data D) [[fofZ 2]; [fofZ 3]]) = true.
Proof. vm_compute. auto. Qed.
Lemma ex_lines : Forall oneLine [tx "1 1:2.0000"; tx "  "; tx "2 1:3.0000"] /\ blank (tx "  ") /\ (exists D, svmDoc pf0 false [tx "1 1:2.0000"] D).
Proof.
  split; [repeat constructor; noIn|]. split; [apply (blank_spaces 2)|].
  destruct (ParseLibSVM pf0 (unlines [tx "1 1:2.0000"] []) true false) as [[D|]| |] eqn:E.
  - exists D. apply svm_data in E; [tauto| |intros []]. repeat constructor. noIn.
  - exfalso. assert (HX : readsAs (ParseLibSVM pf0 (unlines [tx "1 1:2.0000"] []) true false) (fun _ => true) = true) by (vm_compute; reflexivity). rewrite E in HX. discriminate.
  - exfalso. assert (HX : readsAs (ParseLibSVM pf0 (unlines [tx "1 1:2.0000"] []) true false) (fun _ => true) = true) by (vm_compute; reflexivity). rewrite E in HX. discriminate.
  - exfalso. assert (HX : readsAs (ParseLibSVM pf0 (unlines [tx "1 1:2.0000"] []) true false) (fun _ => true) = true) by (vm_compute; reflexivity). rewrite E in HX. discriminate.
Qed.
(** CSV *)
Lemma ex_csv : readsAs (ParseCSV pf0 [[tx "kind"; tx "a"; tx "b"]; [tx "3"; tx "1.5000"; tx "-0.2500"]; [tx "5"; tx "0.0000"; tx "+Inf"]] true true true)
    (fun D => rowsAre (Data D) [[d4 15000; d4 (-2500)]; [fzero; finf]] && (length (Keys D) =? 2)%nat && (length (Labels D) =? 2)%nat) = true /\
  ParseCSV pf0 [[tx "3"; tx "1.5000"]; [tx "5"; tx "x"]] true false true = Ok None /\ ParseCSV pf0 [[tx "3"; tx "1.5000"]] false false true = Ok None /\
  ParseCSV pf0 [[tx "3"; tx "1.5000"]; []] true false true = Panic /\ ParseCSV pf0 [] true true false = Ok None.
Proof. vm_compute. auto. Qed.
Definition exCD : DataBunch text := MkData [[d4 15000; fnan]; [finf; d4 2]] [tx " a"; tx "b"] [4].
Definition exCT : text := tx "Labels, a,b" ++ [NL] ++ tx "-1,1.5000,  NaN" ++ [NL] ++ tx "-1, +Inf,0.0002".
Lemma plain_reader : ReaderOk csvPlain.
Proof. intros sep t eof _ _. reflexivity. Qed.
Lemma comma_sep : csvSep ","%char.
Proof. unfold csvSep, byteOf. repeat split; try discriminate; noIn. Qed.
Lemma not_white_comma : ~ In [","%char] whiteSpaces.
Proof. cbv [whiteSpaces map app In]. intros H. repeat destruct H as [H|H]; try discriminate; destruct H. Qed.
Lemma ex_csv_hyps : ParserOk pf0 /\ ReaderOk csvPlain /\ sepOf None = [","%char] /\ csvSep ","%char /\ CSV (Some exCD) None = Ok exCT /\ Forall int64 (Labels exCD) /\
  Forall (csvKey ","%char) (Keys exCD) /\ hasKeys exCD = true /\ (forall r r', In r (Data exCD) -> In r' (Data exCD) -> length r = length r') /\
  readsAs (DataBunchFromCSVFile pf0 csvPlain (Some (exCT, true)) true true None) (fun D => Nat.eqb (length (Data D)) 2 && forallb (fun p => text_eqb (fst p) (snd p)) (combine (Keys D) [tx "a"; tx "b"])) = true.
Proof.
  split; [apply pf0_ok|]. split; [apply plain_reader|]. split; [reflexivity|]. split; [apply comma_sep|]. split; [vm_compute; reflexivity|]. split; [repeat constructor; unfold int64; lia|].
  split. { repeat constructor; try noIn; try (intros H; exfalso; exact (not_white_comma H)). }
  split; [reflexivity|]. split; [|vm_compute; reflexivity]. intros r r' [<-|[<-|[]]] [<-|[<-|[]]]; reflexivity.
Qed.
Definition exRag : DataBunch text := MkData [[d4 15000]; [finf; d4 2]] [] [4; 5].
Lemma ex_ragged : CSV (Some exRag) None = Ok (tx "4,1.5000" ++ [NL] ++ tx "5, +Inf,0.0002") /\
  (exists r r', In r (Data exRag) /\ In r' (Data exRag) /\ length r <> length r') /\ DataBunchFromCSVFile pf0 csvPlain (Some (tx "4,1.5000" ++ [NL] ++ tx "5, +Inf,0.0002", true)) false true None = Ok None.
Proof.
  split; [vm_compute; reflexivity|]. split; [|vm_compute; reflexivity]. exists [d4 15000], [finf; d4 2]. split; [left; auto|]. split; [right; left; auto|discriminate].
Qed.
(** name files *)
Lemma ex_names : ReadNameMap (Some (unlines [tx "1 setosa"; tx "2	versicolor x"; tx "1 iris"] (tx "3 lost"), false)) None = Ok (Some [(1, tx "iris"); (2, tx "versicolor"); (1, tx "setosa")]) /\
  ReadNameMap (Some (unlines [tx "1;a"; []] [], true)) (Some (tx ";")) = Ok None /\ ReadNameMap (Some (unlines [tx "1 a"; []] [], true)) None = Panic /\
  ReadNameMap (Some (unlines [tx "1 a"; tx "7"] [], true)) None = Panic /\ ReadNameMap (Some (unlines [tx "one a"; []] [], true)) (Some []) = Ok None /\
  ReadNameMap (Some (unlines [tx "1;a" ++ ["013"%char]] [], true)) (Some (tx ";")) = Ok (Some [(1, tx "a" ++ ["013"%char])]) /\
  ReadNameMap (Some (unlines [tx "1 a" ++ ["013"%char]] [], true)) None = Ok (Some [(1, tx "a")]).
Proof. vm_compute. repeat split. Qed.
Lemma ex_split : splitT (tx "1::ab::") (tx "::") = [tx "1"; tx "ab"; []] /\ fieldsT (tx " a  bc	d ") = [tx "a"; tx "bc"; tx "d"].
Proof. vm_compute. auto. Qed.
