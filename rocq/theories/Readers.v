(** Model of the text formats: utils/libsvm.go, utils/csv.go and ReadNameMap of confu/confu.go. *)
From Coq Require Import Ascii String.
From Flocq Require Import IEEE754.BinarySingleNaN.
From Verif Require Import Base F64 Env Utils Text Confu.
From Coq Require Import List.
Open Scope Z_scope.

(** ** Functions of the Go library on strings *)

Definition byteOf (c : ascii) : Z := Z.of_nat (nat_of_ascii c).
(** bytes of a white-space rune at the start of [t] (unicode.IsSpace, in UTF-8), 0 if there is none *)
Definition spaceLen (t : text) : nat :=
  match t with
  | [] => O
  | c :: t' =>
      let a := byteOf c in
      if ((9 <=? a) && (a <=? 13)) || (a =? 32) then 1%nat
      else match t' with
      | [] => O
      | c2 :: t'' =>
          let b := byteOf c2 in
          if (a =? 194) && ((b =? 133) || (b =? 160)) then 2%nat
          else match t'' with
          | [] => O
          | c3 :: _ =>
              let d := byteOf c3 in
              if ((a =? 225) && (b =? 154) && (d =? 128))
                 || ((a =? 226) && (b =? 128) && (((128 <=? d) && (d <=? 138)) || (d =? 168) || (d =? 169) || (d =? 175)))
                 || ((a =? 226) && (b =? 129) && (d =? 159))
                 || ((a =? 227) && (b =? 128) && (d =? 128)) then 3%nat else O
          end
      end
  end.
(** [strings.Fields]: [skip] bytes of white space are still to be passed, [cur] is the field being read *)
Fixpoint fieldsFrom (skip : nat) (cur : text) (t : text) : list text :=
  match t with
  | [] => match cur with [] => [] | _ => [cur] end
  | c :: t' =>
      match skip with
      | S k => fieldsFrom k cur t'
      | O => match spaceLen t with
             | O => fieldsFrom O (cur ++ [c]) t'
             | S k => match cur with [] => fieldsFrom k [] t' | _ => cur :: fieldsFrom k [] t' end
             end
      end
  end.
Definition fieldsT (t : text) : list text := fieldsFrom 0 [] t.
(** [strings.Split] with a non-empty separator *)
Fixpoint splitFrom (sep : text) (skip : nat) (cur : text) (t : text) : list text :=
  match t with
  | [] => [cur]
  | c :: t' =>
      match skip with
      | S k => splitFrom sep k cur t'
      | O => if hasPrefix t sep then cur :: splitFrom sep (Nat.pred (length sep)) [] t' else splitFrom sep O (cur ++ [c]) t'
      end
  end.
Definition splitT (t sep : text) : list text := splitFrom sep 0 [] t.
(** [strings.Replace(s, "\n", "", -1)] *)
Definition dropNL (t : text) : text := filter (fun c => negb (Ascii.eqb c NL)) t.

(** [strconv.Atoi] on a 64-bit machine: an optional sign and decimal digits, in range *)
Fixpoint digitsVal (t : text) (acc : Z) : option Z :=
  match t with
  | [] => Some acc
  | c :: t' => if isDigit c then digitsVal t' (10 * acc + (byteOf c - 48)) else None
  end.
Definition atoi (t : text) : option Z :=
  let neg := match t with c :: _ => Ascii.eqb c "-" | [] => false end in
  let ds := match t with c :: t' => if Ascii.eqb c "-" || Ascii.eqb c "+" then t' else t | [] => [] end in
  match ds with
  | [] => None
  | _ => match digitsVal ds 0 with
         | None => None
         | Some v => let z := if neg then - v else v in if (- 2 ^ 63 <=? z) && (z <? 2 ^ 63) then Some z else None
         end
  end.

(** [fmt] padding to a width *)
Definition padL (w : nat) (t : text) : text := repeat " "%char (w - length t) ++ t.
(** [a/d] rounded to the nearest integer, ties to even *)
Definition divRNE (a d : Z) : Z :=
  let q := a / d in let r := a mod d in
  if 2 * r <? d then q else if d <? 2 * r then q + 1 else if Z.even q then q else q + 1.
(** the decimal text with four decimals of [n]/10000 *)
Definition fixedText (neg : bool) (n : Z) : text :=
  (if neg then tx "-" else []) ++ decZ (n / 10000) ++ tx "." ++ (let s := decZ (n mod 10000) in repeat "0"%char (4 - length s) ++ s).
(** the absolute value of a finite float times 10000, rounded *)
Definition tenThousands (x : f64) : Z :=
  match x with
  | B754_finite _ m e _ => if 0 <=? e then Z.pos m * 2 ^ e * 10000 else divRNE (Z.pos m * 10000) (2 ^ (- e))
  | _ => 0
  end.
(** [fmt.Sprintf("%5.4f", x)]: strconv rounds the exact decimal value to even *)
Definition fmtF (x : f64) : text :=
  padL 5 (match x with
          | B754_nan => tx "NaN"
          | B754_infinity s => if s then tx "-Inf" else tx "+Inf"
          | _ => fixedText (Bsign x) (tenThousands x)
          end).

(** [strconv.ParseFloat(s, 64)]; [None] is an error *)
Definition parser : Type := text -> option f64.

(** ** utils/libsvm.go *)

(** utils/libsvm.go:35-41 [getithLabel] *)
Definition getithLabel {K} (D : DataBunch K) (i : Z) : res Z :=
  if Nat.eqb (length (Labels D)) (length (Data D)) then idx (Labels D) i else Ok (-1).
Definition sp : text := tx " ".
(** utils/libsvm.go:85-89: the terms of a row from position [j] on *)
Fixpoint svmTerms (j : Z) (v : list f64) : list text :=
  match v with [] => [] | w :: t => (decZ j ++ tx ":" ++ fmtF w) :: svmTerms (j + 1) t end.
(** utils/libsvm.go:75-78 *)
Fixpoint svmKeys (j : Z) (k : list text) : list text :=
  match k with [] => [] | w :: t => (decZ j ++ tx ":" ++ w) :: svmKeys (j + 1) t end.
(** utils/libsvm.go:82-92: [dline] starts with the label and [l] empty strings *)
Fixpoint svmLines (D : DataBunch text) (l : nat) (i : Z) (rows : list (list f64)) : res (list text) :=
  match rows with
  | [] => Ok []
  | v :: t =>
      lab <- getithLabel D i ;;
      rest <- svmLines D l (i + 1) t ;;
      Ok (joinT (padL 3 (decZ lab) :: repeat [] l ++ svmTerms 1 v) sp :: rest)
  end.
(** utils/libsvm.go:66-95 [LibSVM]; [None] is a nil receiver *)
Definition LibSVM (OD : option (DataBunch text)) : res text :=
  match OD with
  | None => Ok []
  | Some D =>
      r0 <- idx (Data D) 0 ;;
      let l := length r0 in
      ls <- svmLines D l 0 (Data D) ;;
      Ok (joinT ((if Nat.eqb (length (Keys D)) l then [joinT (tx "Labels" :: svmKeys 1 (Keys D)) sp] else []) ++ ls) [NL])
  end.
(** utils/libsvm.go:50-59 *)
Fixpoint strLines (D : DataBunch text) (i : Z) (rows : list (list f64)) : res (list text) :=
  match rows with
  | [] => Ok []
  | v :: t =>
      lab <- getithLabel D i ;;
      rest <- strLines D (i + 1) t ;;
      Ok (joinT (padL 3 (decZ lab) :: repeat [] (length v) ++ map fmtF v) sp :: rest)
  end.
(** utils/libsvm.go:44-62 [String] *)
Definition StringDB (OD : option (DataBunch text)) : res text :=
  match OD with
  | None => Ok []
  | Some D => ls <- strLines D 0 (Data D) ;; Ok (joinT ((tx "Labels " ++ joinT (Keys D) sp) :: ls) [NL])
  end.

(** utils/libsvm.go:117-133: the fields after the first; [None] is an error *)
Fixpoint svmFields (pf : parser) (header : bool) (fs : list text) (rets : list text) (retf : list f64) : option (list text * list f64) :=
  match fs with
  | [] => Some (rets, retf)
  | v :: t =>
      match splitT v (tx ":") with
      | [_; feat] =>
          if header then svmFields pf header t (rets ++ [feat]) retf
          else match pf feat with None => None | Some x => svmFields pf header t rets (retf ++ [x]) end
      | _ => None
      end
  end.
(** utils/libsvm.go:99-135 [parseLibSVMLine] with nil buffers (as it is always called), so [rets] and [retf] start
    empty. [fields[0]] and [fields[1:]] panic on a line without fields. *)
Definition parseLibSVMLine (pf : parser) (line : text) (header : bool) : res (option (Z * list text * list f64)) :=
  match fieldsT line with
  | [] => Panic
  | f0 :: fs =>
      match (if header then Some 0 else atoi f0) with
      | None => Ok None
      | Some class => match svmFields pf header fs [] [] with None => Ok None | Some (rets, retf) => Ok (Some (class, rets, retf)) end
      end
  end.
(** utils/libsvm.go:166-197: the loop, on what is left to read. [eof]: the reader ends with EOF, not with another
    error. [fuel] is more than the number of lines. *)
Fixpoint svmLoop (pf : parser) (fuel : nat) (r : text) (eof hasHeader : bool) (cont : Z) (headers : list text) (data : list (list f64)) (labels : list Z)
    : res (option (DataBunch text)) :=
  match fuel with
  | O => Diverge
  | S fuel' =>
      match readLine r with
      | None => if eof then Ok (Some (MkData data headers labels)) else Ok None
      | Some (line, r') =>
          if hasHeader && (cont =? 0) then
            o <- parseLibSVMLine pf line true ;;
            match o with
            | None => Ok None
            | Some (_, hs, _) => svmLoop pf fuel' r' eof hasHeader (cont + 1) hs data labels
            end
          else
            o <- parseLibSVMLine pf line false ;;
            match o with
            | None => Ok None
            | Some (l, _, t) => svmLoop pf fuel' r' eof hasHeader (cont + 1) headers (data ++ [t]) (labels ++ [l])
            end
      end
  end.
(** utils/libsvm.go:158-198 [ParseLibSVMFromReader] *)
Definition ParseLibSVM (pf : parser) (r : text) (eof hasHeader : bool) : res (option (DataBunch text)) :=
  svmLoop pf (S (length r)) r eof hasHeader 0 [] [] [].
(** utils/libsvm.go:144-156 [DataBunchFromLibSVMFile]; [None]: the file cannot be opened *)
Definition DataBunchFromLibSVMFile (pf : parser) (file : option (text * bool)) (hasHeader : option bool) : res (option (DataBunch text)) :=
  match file with
  | None => Ok None
  | Some (r, eof) => ParseLibSVM pf r eof (match hasHeader with Some b => b | None => false end)
  end.

(** ** utils/csv.go *)

(** utils/csv.go:35-44 *)
Fixpoint csvLines (D : DataBunch text) (sep : text) (i : Z) (rows : list (list f64)) : res (list text) :=
  match rows with
  | [] => Ok []
  | v :: t =>
      lab <- getithLabel D i ;;
      rest <- csvLines D sep (i + 1) t ;;
      Ok (joinT (decZ lab :: map fmtF v) sep :: rest)
  end.
(** utils/csv.go:15-47 [CSV] *)
Definition CSV (OD : option (DataBunch text)) (separator : option text) : res text :=
  match OD with
  | None => Ok []
  | Some D =>
      let sep := match separator with Some s => s | None => tx "," end in
      r0 <- idx (Data D) 0 ;;
      let l := length r0 in
      ls <- csvLines D sep 0 (Data D) ;;
      Ok (joinT ((if Nat.eqb (length (Keys D)) l then [joinT (tx "Labels" :: Keys D) sep] else []) ++ ls) [NL])
  end.
(** utils/csv.go:83-90 *)
Fixpoint parseAll (pf : parser) (rs : list text) : option (list f64) :=
  match rs with
  | [] => Some []
  | v :: t => match pf v with None => None | Some x => match parseAll pf t with None => None | Some l => Some (x :: l) end end
  end.
(** utils/csv.go:68-93 [recordsToData]; [fields] is a capacity only *)
Definition recordsToData (pf : parser) (records : list text) (haslab : bool) : res (option (Z * list f64)) :=
  if haslab then
    r0 <- idx records 0 ;;
    match atoi r0 with
    | None => Ok None
    | Some label => match parseAll pf (tl records) with None => Ok None | Some d => Ok (Some (label, d)) end
    end
  else match parseAll pf records with None => Ok None | Some d => Ok (Some (-1, d)) end.
(** utils/csv.go:119-138: the records that csv.Reader still returns before it fails; [eof]: it fails with EOF *)
Fixpoint csvLoop (pf : parser) (recs : list (list text)) (eof hasLabels : bool) (headers : list text) (data : list (list f64)) (labels : list Z)
    : res (option (DataBunch text)) :=
  match recs with
  | [] => if eof then Ok (Some (MkData data headers labels)) else Ok None
  | rec :: t =>
      o <- recordsToData pf rec hasLabels ;;
      match o with
      | None => Ok None
      | Some (l, d) => csvLoop pf t eof hasLabels headers (data ++ [d]) (if hasLabels then labels ++ [l] else labels)
      end
  end.
(** utils/csv.go:95-141 [ParseCSVFromReader] *)
Definition ParseCSV (pf : parser) (recs : list (list text)) (eof hasHeader hasLabels : bool) : res (option (DataBunch text)) :=
  if hasHeader then
    match recs with
    | [] => Ok None
    | h :: t =>
        let ini := if hasLabels then 1%nat else O in
        if Nat.ltb (length h) ini then Panic else csvLoop pf t eof hasLabels (skipn ini h) [] []
    end
  else csvLoop pf recs eof hasLabels [] [] [].

(** [csv.Reader] with TrimLeadingSpace on a text without quotes (encoding/csv, readRecord): empty lines are skipped, a
    carriage return at the end of a line is dropped, white space at the start of each field is dropped, and a record
    whose number of fields differs from the first one's is an error. [sep] is the UTF-8 text of the separator. The last,
    unterminated line counts only if the underlying reader ends with EOF. *)
Fixpoint trimFrom (skip : nat) (t : text) : text :=
  match t with
  | [] => []
  | _ :: t' => match skip with S k => trimFrom k t' | O => match spaceLen t with O => t | S k => trimFrom k t' end end
  end.
(** [bytes.TrimLeftFunc(t, unicode.IsSpace)] *)
Definition trimLeft (t : text) : text := trimFrom 0 t.
(** [bytes.Index]: what precedes the first occurrence of [sep] and what follows it *)
Fixpoint cutAt (sep t : text) : option (text * text) :=
  if hasPrefix t sep then Some ([], skipn (length sep) t)
  else match t with
       | [] => None
       | c :: t' => match cutAt sep t' with Some (a, b) => Some (c :: a, b) | None => None end
       end.
(** the fields of a line; [fuel] is more than its length *)
Fixpoint csvFields (fuel : nat) (sep line : text) : list text :=
  match fuel with
  | O => []
  | S k => let line := trimLeft line in
           match cutAt sep line with
           | Some (f, rest) => f :: csvFields k sep rest
           | None => [line]
           end
  end.
Definition dropCR (line : text) : text :=
  match rev line with c :: t => if Ascii.eqb c "013" then rev t else line | [] => [] end.
(** the lines that are read *)
Fixpoint csvTextLines (cur : text) (t : text) (eof : bool) : list text :=
  match t with
  | [] => if eof then [dropCR cur] else []
  | c :: t' => if Ascii.eqb c NL then dropCR cur :: csvTextLines [] t' eof else csvTextLines (cur ++ [c]) t' eof
  end.
(** the records up to the first one with another number of fields, and whether there is none *)
Fixpoint sameFields (n : option nat) (recs : list (list text)) : list (list text) * bool :=
  match recs with
  | [] => ([], true)
  | r :: t =>
      let go := let '(a, b) := sameFields (Some (length r)) t in (r :: a, b) in
      match n with None => go | Some k => if Nat.eqb (length r) k then go else ([], false) end
  end.
Definition csvPlain (sep t : text) (eof : bool) : list (list text) * bool :=
  let ls := filter (fun l : text => match l with [] => false | _ => true end) (csvTextLines [] t eof) in
  let '(recs, same) := sameFields None (map (fun l => csvFields (S (length l)) sep l) ls) in
  (recs, same && eof).
(** utils/csv.go:55-66, 95-104 [DataBunchFromCSVFile]: [read] is csv.Reader *)
Definition DataBunchFromCSVFile (pf : parser) (read : text -> text -> bool -> list (list text) * bool) (file : option (text * bool))
    (hasHeader hasLabels : bool) (separator : option text) : res (option (DataBunch text)) :=
  match file with
  | None => Ok None
  | Some (t, eof) =>
      let sep := match separator with Some s => s | None => tx "," end in
      let '(recs, atEof) := read sep t eof in
      ParseCSV pf recs atEof hasHeader hasLabels
  end.

(** ** confu/confu.go: ReadNameMap *)

(** confu.go:45-58: the loop. The map is the list of its assignments, last one first; the error variable of line 43 is
    shadowed by the one of the loop, so whatever ends the reading, the function returns no error. *)
Fixpoint nameLoop (fuel : nat) (r sep : text) (m : list (Z * text)) : res (option (list (Z * text))) :=
  match fuel with
  | O => Diverge
  | S fuel' =>
      match readLine r with
      | None => Ok (Some m)
      | Some (line, r') =>
          let s := dropNL line in
          let l := if text_eqb sep sp then fieldsT s else splitT s sep in
          l0 <- idx l 0 ;;
          match atoi l0 with
          | None => Ok None
          | Some num => l1 <- idx l 1 ;; nameLoop fuel' r' sep ((num, l1) :: m)
          end
      end
  end.
(** confu.go:32-64 [ReadNameMap]; [file]: content and whether reading it ends with EOF *)
Definition ReadNameMap (file : option (text * bool)) (separator : option text) : res (option (list (Z * text))) :=
  match file with
  | None => Ok None
  | Some (r, _) =>
      let sep := match separator with Some s => if text_eqb s [] then sp else s | None => sp end in
      nameLoop (S (length r)) r sep []
  end.
