(** Model of the library's csv.Reader as utils/csv.go:103-122 uses it: Comma set, TrimLeadingSpace, everything else left at
    its default. The structure is that of [readLine] and [readRecord] of encoding/csv. *)
From Coq Require Import Ascii String.
From Verif Require Import Base F64 Env Utils Text Confu Readers.
From Coq Require Import List.
Open Scope Z_scope.

Definition QT : ascii := """"%char.
(** utils/csv.go:104 (Comma); encoding/csv [validDelim]. The separator is the UTF-8 text of the rune, which for an invalid
    rune is that of U+FFFD. *)
Definition validDelim (sep : text) : bool :=
  negb (existsb (text_eqb sep) [["000"%char]; [QT]; ["013"%char]; [NL]; ["239"; "191"; "189"]%char]).
(** encoding/csv [readLine]: the lines that are read without an error, each with its newline if it has one; a carriage
    return before the newline or at the end of the text is dropped. If the underlying reader fails, the unterminated rest
    comes with an error, and so does the record it belongs to. *)
Fixpoint rawLines (cur t : text) (eof : bool) : list text :=
  match t with
  | [] => if eof then match cur with [] => [] | _ => [dropCR cur] end else []
  | c :: t' => if Ascii.eqb c NL then (dropCR cur ++ [NL]) :: rawLines [] t' eof else rawLines (cur ++ [c]) t' eof
  end.
(** encoding/csv [lengthNL]: the line without its newline *)
Definition chopNL (line : text) : text :=
  match rev line with c :: t => if Ascii.eqb c NL then rev t else line | [] => [] end.
(** what ends a quoted field: a separator, with the rest of the line; the end of the line; something else *)
Inductive quoteRes := QNext (f line : text) (ls : list text) | QEnd (f : text) (ls : list text) | QErr.
(** encoding/csv [readRecord], the loop on a quoted field; [ls] are the lines still to be read *)
Fixpoint quotedField (sep : text) (ls : list text) : text -> text -> quoteRes :=
  fix go (line : text) : text -> quoteRes := fun buf =>
    match line with
    | [] => match ls with [] => QErr | l :: ls' => quotedField sep ls' l buf end
    | c :: line' =>
        if Ascii.eqb c QT then
          match line' with
          | [] => QEnd buf ls
          | d :: line'' =>
              if Ascii.eqb d QT then go line'' (buf ++ [QT])
              else if hasPrefix line' sep then QNext buf (skipn (length sep) line') ls
              else if Ascii.eqb d NL && match line'' with [] => true | _ => false end then QEnd buf ls
              else QErr
          end
        else go line' (buf ++ [c])
    end.
Definition hasQuote (f : text) : bool := existsb (Ascii.eqb QT) f.
(** encoding/csv [readRecord], the loop on the fields: the fields and the lines that are left, or an error. [fuel] is more
    than the number of bytes in the lines. *)
Fixpoint readFields (fuel : nat) (sep line : text) (ls : list text) (acc : list text) : option (list text * list text) :=
  match fuel with
  | O => None
  | S k =>
      let line := trimLeft line in
      let plain :=
        match cutAt sep line with
        | Some (f, rest) => if hasQuote f then None else readFields k sep rest ls (acc ++ [f])
        | None => let f := chopNL line in if hasQuote f then None else Some (acc ++ [f], ls)
        end in
      match line with
      | c :: line' =>
          if Ascii.eqb c QT then
            match quotedField sep ls line' [] with
            | QNext f rest ls' => readFields k sep rest ls' (acc ++ [f])
            | QEnd f ls' => Some (acc ++ [f], ls')
            | QErr => None
            end
          else plain
      | [] => plain
      end
  end.
Definition emptyLine (l : text) : bool := match l with [] => true | [c] => Ascii.eqb c NL | _ => false end.
(** utils/csv.go:107, 119-123 [Read], called until it fails: the records, and whether the error is EOF. The first record
    fixes the number of fields. [fuel] is more than the number of lines. *)
Fixpoint readRecords (fuel : nat) (sep : text) (n : option nat) (ls : list text) (eof : bool) : list (list text) * bool :=
  match fuel with
  | O => ([], false)
  | S k =>
      match ls with
      | [] => ([], eof)
      | l :: ls' =>
          if emptyLine l then readRecords k sep n ls' eof
          else match readFields (S (length (concat ls))) sep l ls' [] with
               | None => ([], false)
               | Some (rec, ls'') =>
                   let go := let '(a, b) := readRecords k sep (Some (length rec)) ls'' eof in (rec :: a, b) in
                   match n with None => go | Some m => if Nat.eqb (length rec) m then go else ([], false) end
               end
      end
  end.
Definition csvRead (sep t : text) (eof : bool) : list (list text) * bool :=
  if validDelim sep then let ls := rawLines [] t eof in readRecords (S (length ls)) sep None ls eof else ([], false).
