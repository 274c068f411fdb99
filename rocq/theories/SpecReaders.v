(** Specification vocabulary for the text formats. *)
From Coq Require Import Ascii String Reals.
From Flocq Require Import Core IEEE754.BinarySingleNaN.
From Verif Require Import Base F64 Env F64Lemmas Utils Text Confu Readers.
From Coq Require Import List.
Open Scope Z_scope.

(** ** Texts *)

(** the white-space characters of Unicode, in UTF-8 *)
Definition whiteSpaces : list text :=
  map (fun l : list nat => map ascii_of_nat l)
    ([[9]; [10]; [11]; [12]; [13]; [32]; [194; 133]; [194; 160]; [225; 154; 128]]
     ++ map (fun k => [226; 128; k]) [128; 129; 130; 131; 132; 133; 134; 135; 136; 137; 138; 168; 169; 175]
     ++ [[226; 129; 159]; [227; 128; 128]])%nat.
Inductive blank : text -> Prop :=
| blank_nil : blank []
| blank_cons w t : In w whiteSpaces -> blank t -> blank (w ++ t).
(** no white space anywhere in it *)
Definition solid (t : text) : Prop := forall a w b, In w whiteSpaces -> t <> a ++ w ++ b.
Definition startsBlank (t : text) : Prop := t = [] \/ exists w b, In w whiteSpaces /\ t = w ++ b.
(** [fs] are the words of [t] *)
Inductive wordsOf : text -> list text -> Prop :=
| words_nil b : blank b -> wordsOf b []
| words_cons b f rest fs : blank b -> f <> [] -> solid f -> startsBlank rest -> wordsOf rest fs -> wordsOf (b ++ f ++ rest) (f :: fs).

(** the text made of the lines [ls], each with its newline, and an unterminated rest *)
Definition unlines (ls : list text) (last : text) : text := concat (map (fun l => l ++ [NL]) ls) ++ last.
Definition oneLine (t : text) : Prop := ~ In NL t.

(** a 64-bit int *)
Definition int64 (z : Z) : Prop := - 2 ^ 63 <= z < 2 ^ 63.

(** ** Numbers as printed *)

(** the real value of [n]/10000 *)
Definition tenth (s : bool) (n : Z) : R := (IZR (if s then - n else n) / 10000)%R.
(** [x'] is what comes back when [x] is printed with four decimals and read: the nearest float to [x] rounded to four
    decimals (both roundings to even); not-a-number and infinities are themselves *)
Definition asPrinted (x x' : f64) : Prop :=
  if is_finite x then is_finite x' = true /\ B2R x' = rnd (IZR (ZnearestE (B2R x * 10000)) / 10000) /\ Bsign x' = Bsign x
  else x' = x.
(** What is assumed of strconv.ParseFloat: an empty text is an error, texts with four decimals are read with correct
    rounding, and the names of the values that are not finite are understood. *)
Record ParserOk (pf : parser) : Prop := {
  po_empty : pf [] = None;
  po_fixed : forall s n, 0 <= n -> (Rabs (rnd (tenth s n)) < bpow radix2 1024)%R ->
    exists x, pf (fixedText s n) = Some x /\ is_finite x = true /\ B2R x = rnd (tenth s n) /\ Bsign x = s;
  po_nan : pf (tx "NaN") = Some fnan;
  po_pinf : pf (tx "+Inf") = Some finf;
  po_ninf : pf (tx "-Inf") = Some fninf
}.

(** ** LibSVM files *)

(** [f] is a term with value text [v] *)
Definition term (f v : text) : Prop := exists a, f = a ++ tx ":" ++ v /\ ~ In ":"%char a /\ ~ In ":"%char v.
Definition svmHeader (line : text) (keys : list text) : Prop :=
  exists f0 fs, wordsOf line (f0 :: fs) /\ Forall2 term fs keys.
Definition svmRow (pf : parser) (line : text) (lab : Z) (row : list f64) : Prop :=
  exists f0 fs, wordsOf line (f0 :: fs) /\ atoi f0 = Some lab /\ Forall2 (fun f x => exists v, term f v /\ pf v = Some x) fs row.
Definition svmRows (pf : parser) (ls : list text) (D : DataBunch text) : Prop :=
  length (Labels D) = length (Data D) /\ Forall2 (fun l p => svmRow pf l (fst p) (snd p)) ls (combine (Labels D) (Data D)).
(** the lines describe [D] *)
Definition svmDoc (pf : parser) (hasHeader : bool) (ls : list text) (D : DataBunch text) : Prop :=
  if hasHeader then match ls with h :: t => svmHeader h (Keys D) /\ svmRows pf t D | [] => D = MkData [] [] [] end
  else Keys D = [] /\ svmRows pf ls D.

(** ** What comes back *)
Definition labelsOf {K} (D : DataBunch K) : list Z :=
  if Nat.eqb (length (Labels D)) (length (Data D)) then Labels D else repeat (-1) (length (Data D)).
(** the keys are written out *)
Definition hasKeys {K} (D : DataBunch K) : bool := match Data D with r :: _ => Nat.eqb (length (Keys D)) (length r) | [] => false end.
(** [D'] holds the first [n] rows of [D] as printed *)
Definition printedRows (n : nat) (D D' : DataBunch text) : Prop :=
  Labels D' = firstn n (labelsOf D) /\ Forall2 (Forall2 asPrinted) (firstn n (Data D)) (Data D').
Definition svmKey (k : text) : Prop := solid k /\ ~ In ":"%char k.

(** ** CSV records *)
Definition values (pf : parser) (fs : list text) (row : list f64) : Prop := Forall2 (fun f x => pf f = Some x) fs row.
Definition csvRows (pf : parser) (hasLabels : bool) (recs : list (list text)) (D : DataBunch text) : Prop :=
  if hasLabels then
    length (Labels D) = length (Data D) /\
    Forall2 (fun rec p => exists f0 fs, rec = f0 :: fs /\ atoi f0 = Some (fst p) /\ values pf fs (snd p)) recs (combine (Labels D) (Data D))
  else Labels D = [] /\ Forall2 (values pf) recs (Data D).
Definition csvDoc (pf : parser) (hasHeader hasLabels : bool) (recs : list (list text)) (D : DataBunch text) : Prop :=
  if hasHeader then exists h t, recs = h :: t /\ (if hasLabels then exists k, h = k :: Keys D else h = Keys D) /\ csvRows pf hasLabels t D
  else Keys D = [] /\ csvRows pf hasLabels recs D.
(** a one-byte separator that does not occur in printed numbers or in the word that heads the labels *)
Definition csvSep (c : ascii) : Prop :=
  byteOf c < 128 /\ c <> NL /\ c <> "013"%char /\ c <> """"%char /\ isDigit c = false /\ ~ In c (tx " -.+NaInfLabels") /\ c <> "000"%char.
(** a key that can be written: no separator, line end or quote in it; if the separator is white space, something else *)
Definition csvKey (c : ascii) (k : text) : Prop :=
  ~ In c k /\ ~ In NL k /\ ~ In "013"%char k /\ ~ In """"%char k /\ (In [c] whiteSpaces -> ~ blank k).
(** [k'] is [k] without the white space it starts with *)
Definition unindented (k k' : text) : Prop := exists b, blank b /\ k = b ++ k' /\ ~ (exists w r, In w whiteSpaces /\ k' = w ++ r).
(** a separator that csv.Reader accepts; the last text is that of U+FFFD *)
Definition goodDelim (sep : text) : Prop :=
  sep <> [] /\ ~ In NL sep /\ ~ In "013"%char sep /\ ~ In """"%char sep /\ sep <> ["000"%char] /\ sep <> ["239"; "191"; "189"]%char.
(** What is assumed of csv.Reader: on texts without quotes it does what encoding/csv documents. *)
Definition ReaderOk (read : text -> text -> bool -> list (list text) * bool) : Prop :=
  forall sep t eof, goodDelim sep -> ~ In """"%char t -> read sep t eof = csvPlain sep t eof.

(** ** Name files *)
(** the parts of a line *)
Definition nameParts (sep s : text) (ps : list text) : Prop :=
  if text_eqb sep sp then wordsOf s ps else ps = splitT s sep.
Definition nameLine (sep s : text) (num : Z) (name : text) : Prop :=
  exists p0 ps, nameParts sep s (p0 :: name :: ps) /\ atoi p0 = Some num.
(** the value of [k] after the assignments [l], in order *)
Fixpoint lastOf (l : list (Z * text)) (k : Z) : option text :=
  match l with
  | [] => None
  | (n, s) :: t => match lastOf t k with Some s' => Some s' | None => if Z.eqb n k then Some s else None end
  end.
(** the value of [k] in a map *)
Definition lookupZ (m : list (Z * text)) (k : Z) : option text :=
  match find (fun p => Z.eqb (fst p) k) m with Some p => Some (snd p) | None => None end.
Definition sepOf (s : option text) : text := match s with Some t => t | None => tx "," end.
Definition sepName (s : option text) : text := match s with Some t => if text_eqb t [] then sp else t | None => sp end.
(** a line that makes the reader panic: nothing on it, or only a number *)
Definition badLine (sep l : text) : Prop := nameParts sep l [] \/ exists p0 k, nameParts sep l [p0] /\ atoi p0 = Some k.
Definition wrongLine (sep l : text) : Prop := exists p0 ps, nameParts sep l (p0 :: ps) /\ atoi p0 = None.
