(** [encoding/json] (Go 1.22) on the two records that the library saves: the writer and the reader behind utils/json.go:63-68
    (json.Unmarshal of a node), utils/json.go:122 (json.Marshal of a node), xjson.go:46 (json.Unmarshal of the metadata) and
    xjson.go:145 (json.Marshal of the metadata). Texts are lists of bytes. Not modelled: the range of int, the limit of
    10000 on the nesting of values, and the texts of the error messages. *)
From Coq Require Import Ascii String.
From Verif Require Import Base F64 Env Utils Tree Options Train Text Json Readers.
From Coq Require Import List.
Open Scope Z_scope.

Definition DQ : ascii := """"%char.
Definition BS : ascii := "\"%char.
(** a JSON value; a number is kept as its text, a string as what it stands for *)
Inductive jval : Type :=
| JNull : jval
| JBool : bool -> jval
| JNum : text -> jval
| JStr : text -> jval
| JArr : list jval -> jval
| JObj : list (text * jval) -> jval.

(** ** Strings *)
(** unicode/utf8 [DecodeRune]: number of bytes of the well-formed rune at the start of the text, 0 if there is none *)
Definition between (a b : Z) (c : ascii) : bool := (a <=? byteOf c) && (byteOf c <=? b).
Definition contB (c : ascii) : bool := between 128 191 c.
Definition runeLen (t : text) : nat :=
  match t with
  | [] => O
  | a :: t1 =>
      if between 0 127 a then 1%nat
      else match t1 with
      | [] => O
      | b :: t2 =>
          if between 194 223 a && contB b then 2%nat
          else match t2 with
          | [] => O
          | c :: t3 =>
              if (((byteOf a =? 224) && between 160 191 b) || ((byteOf a =? 237) && between 128 159 b) ||
                  ((between 225 236 a || between 238 239 a) && contB b)) && contB c then 3%nat
              else match t3 with
              | [] => O
              | d :: _ =>
                  if (((byteOf a =? 240) && between 144 191 b) || ((byteOf a =? 244) && between 128 143 b) ||
                      (between 241 243 a && contB b)) && contB c && contB d then 4%nat else O
              end
          end
      end
  end.
Definition byteC (z : Z) : ascii := ascii_of_nat (Z.to_nat z).
(** the replacement character U+FFFD in UTF-8 *)
Definition REPL : text := [byteC 239; byteC 191; byteC 189].
(** unicode/utf8 [AppendRune] *)
Definition encodeRune (r : Z) : text :=
  if r <? 0 then REPL
  else if r <? 128 then [byteC r]
  else if r <? 2048 then [byteC (192 + r / 64); byteC (128 + r mod 64)]
  else if (55296 <=? r) && (r <=? 57343) then REPL
  else if r <? 65536 then [byteC (224 + r / 4096); byteC (128 + r / 64 mod 64); byteC (128 + r mod 64)]
  else if r <=? 1114111 then [byteC (240 + r / 262144); byteC (128 + r / 4096 mod 64); byteC (128 + r / 64 mod 64); byteC (128 + r mod 64)]
  else REPL.

Definition hexDigit (n : Z) : ascii := if n <? 10 then byteC (48 + n) else byteC (87 + n).
Definition hexVal (c : ascii) : option Z :=
  if between 48 57 c then Some (byteOf c - 48) else if between 97 102 c then Some (byteOf c - 87)
  else if between 65 70 c then Some (byteOf c - 55) else None.

(** encode.go [appendString] with HTML escaping, without the enclosing quotes: one step on the first character *)
Definition htmlSafe (c : ascii) : bool :=
  between 32 127 c && negb (Ascii.eqb c DQ) && negb (Ascii.eqb c BS) && negb (Ascii.eqb c "<") && negb (Ascii.eqb c ">") && negb (Ascii.eqb c "&").
Definition escByte (c : ascii) : text :=
  if htmlSafe c then [c]
  else if Ascii.eqb c DQ || Ascii.eqb c BS then [BS; c]
  else if byteOf c =? 8 then [BS; "b"%char] else if byteOf c =? 12 then [BS; "f"%char] else if byteOf c =? 10 then [BS; "n"%char]
  else if byteOf c =? 13 then [BS; "r"%char] else if byteOf c =? 9 then [BS; "t"%char]
  else [BS; "u"%char; "0"%char; "0"%char; hexDigit (byteOf c / 16); hexDigit (byteOf c mod 16)].
(** U+2028 and U+2029 are the bytes 226 128 168 and 226 128 169 *)
Definition lineSep (t : text) : option ascii :=
  match t with
  | a :: b :: c :: _ =>
      if (byteOf a =? 226) && (byteOf b =? 128) then (if byteOf c =? 168 then Some "8"%char else if byteOf c =? 169 then Some "9"%char else None) else None
  | _ => None
  end.
Fixpoint quoteN (fuel : nat) (t : text) : text :=
  match fuel, t with
  | S n, c :: t' =>
      if between 0 127 c then escByte c ++ quoteN n t'
      else match runeLen t with
      | O => [BS; "u"%char; "f"%char; "f"%char; "f"%char; "d"%char] ++ quoteN n t'
      | k => match lineSep t with
             | Some h => [BS; "u"%char; "2"%char; "0"%char; "2"%char; h] ++ quoteN n (skipn k t)
             | None => firstn k t ++ quoteN n (skipn k t)
             end
      end
  | _, _ => []
  end.
Definition quote (t : text) : text := quoteN (List.length t) t.

(** scanner.go [stateInString]: what is between the quotes, and what follows the closing one *)
Fixpoint cutStr (t : text) : option (text * text) :=
  let keep (l : text) (r : option (text * text)) := match r with Some (a, b) => Some (l ++ a, b) | None => None end in
  match t with
  | [] => None
  | c :: t' =>
      if Ascii.eqb c DQ then Some ([], t')
      else if Ascii.eqb c BS then
        match t' with
        | e :: t2 =>
            if existsb (Ascii.eqb e) [DQ; BS; "/"%char; "b"%char; "f"%char; "n"%char; "r"%char; "t"%char] then keep [c; e] (cutStr t2)
            else if Ascii.eqb e "u" then
              match t2 with
              | h1 :: h2 :: h3 :: h4 :: t3 =>
                  match hexVal h1, hexVal h2, hexVal h3, hexVal h4 with
                  | Some _, Some _, Some _, Some _ => keep [c; e; h1; h2; h3; h4] (cutStr t3)
                  | _, _, _, _ => None
                  end
              | _ => None
              end
            else None
        | [] => None
        end
      else if byteOf c <? 32 then None
      else keep [c] (cutStr t')
  end.

(** decode.go [getu4]: the value of an escape \uXXXX at the start of the text *)
Definition getu4 (t : text) : option Z :=
  match t with
  | b :: u :: h1 :: h2 :: h3 :: h4 :: _ =>
      if Ascii.eqb b BS && Ascii.eqb u "u" then
        match hexVal h1, hexVal h2, hexVal h3, hexVal h4 with
        | Some a, Some b, Some c, Some d => Some (((a * 16 + b) * 16 + c) * 16 + d)
        | _, _, _, _ => None
        end
      else None
  | _ => None
  end.
(** decode.go [unquoteBytes], on a string that the scanner has accepted (on others the result is of no importance) *)
Definition unescape (c : ascii) : ascii :=
  if Ascii.eqb c "b" then byteC 8 else if Ascii.eqb c "f" then byteC 12 else if Ascii.eqb c "n" then byteC 10
  else if Ascii.eqb c "r" then byteC 13 else if Ascii.eqb c "t" then byteC 9 else c.
Fixpoint unquoteN (fuel : nat) (t : text) : text :=
  match fuel, t with
  | S n, c :: t' =>
      if Ascii.eqb c BS then
        match getu4 t with
        | Some r =>
            let t1 := skipn 6 t in
            if (55296 <=? r) && (r <=? 57343) then
              (* a surrogate: with the second half of a pair after it, one rune; otherwise U+FFFD *)
              match getu4 t1 with
              | Some r2 =>
                  if (r <=? 56319) && (56320 <=? r2) && (r2 <=? 57343)
                  then encodeRune ((r - 55296) * 1024 + (r2 - 56320) + 65536) ++ unquoteN n (skipn 6 t1)
                  else REPL ++ unquoteN n t1
              | None => REPL ++ unquoteN n t1
              end
            else encodeRune r ++ unquoteN n t1
        | None => match t' with e :: t2 => unescape e :: unquoteN n t2 | [] => [] end
        end
      else match runeLen t with
      | O => REPL ++ unquoteN n t'
      | k => firstn k t ++ unquoteN n (skipn k t)
      end
  | _, _ => []
  end.
Definition unquote (t : text) : text := unquoteN (List.length t) t.

(** ** Numbers *)
(** scanner.go, the states of a number: sign, digits of the integer part, of the fraction and of the exponent *)
Fixpoint spanD (t : text) : text * text :=
  match t with
  | c :: t' => if isDigit c then let '(a, b) := spanD t' in (c :: a, b) else ([], t)
  | [] => ([], [])
  end.
Record numParts : Type := MkNum { np_neg : bool; np_int : text; np_frac : option text; np_exp : option (bool * text) }.
Definition readExp (t : text) : option (option (bool * text)) :=
  match t with
  | [] => Some None
  | c :: t1 =>
      if Ascii.eqb c "e" || Ascii.eqb c "E" then
        let '(sg, t2) := match t1 with
                         | s :: t' => if Ascii.eqb s "-" then (true, t') else if Ascii.eqb s "+" then (false, t') else (false, t1)
                         | [] => (false, t1) end in
        match spanD t2 with
        | ((_ :: _) as ds, []) => Some (Some (sg, ds))
        | _ => None
        end
      else None
  end.
Definition readNum (t : text) : option numParts :=
  let '(neg, t1) := match t with c :: t' => if Ascii.eqb c "-" then (true, t') else (false, t) | [] => (false, t) end in
  let '(i, t2) := spanD t1 in
  let iok := match i with [] => false | c :: r => negb (Ascii.eqb c "0") || match r with [] => true | _ => false end end in
  if negb iok then None
  else match t2 with
       | c :: t3 =>
           if Ascii.eqb c "." then
             match spanD t3 with
             | ((_ :: _) as f, t4) => match readExp t4 with Some e => Some (MkNum neg i (Some f) e) | None => None end
             | _ => None
             end
           else match readExp t2 with Some e => Some (MkNum neg i None e) | None => None end
       | [] => Some (MkNum neg i None None)
       end.
Definition numChar (c : ascii) : bool :=
  isDigit c || Ascii.eqb c "-" || Ascii.eqb c "+" || Ascii.eqb c "." || Ascii.eqb c "e" || Ascii.eqb c "E".
Fixpoint spanN (t : text) : text * text :=
  match t with
  | c :: t' => if numChar c then let '(a, b) := spanN t' in (c :: a, b) else ([], t)
  | [] => ([], [])
  end.
(** strconv [ParseInt] and [ParseUint] in base 10, on a text that the scanner has accepted; the range is not modelled *)
Definition parseInt (t : text) : option Z :=
  match readNum t with
  | Some (MkNum s i None None) => match digitsVal i 0 with Some n => Some (if s then - n else n) | None => None end
  | _ => None
  end.
Definition parseUint (t : text) : option Z :=
  match readNum t with
  | Some (MkNum false i None None) => digitsVal i 0
  | _ => None
  end.
(** strconv [ParseFloat], on a text that the scanner has accepted: the nearest float64 of the decimal number, ties to even;
    an overflow is an error *)
Definition quotF (s : bool) (n : Z) (d : positive) : f64 :=
  match n with
  | Zpos p =>
      SF2B (let '(mz, ez, lz) := SpecFloat.SFdiv_core_binary 53 1024 (Zpos p) 0 (Zpos d) 0 in binary_round_aux 53 1024 mode_NE (xorb s false) mz ez lz)
           (proj1 (Bdiv_correct_aux 53 1024 Hprec Hemax mode_NE s p 0 false d 0))
  | _ => B754_zero s
  end.
Definition numExp (p : numParts) : option Z :=
  match np_exp p with
  | None => Some 0
  | Some (sg, ds) => match digitsVal ds 0 with Some e => Some (if sg then - e else e) | None => None end
  end.
Definition fracOf (p : numParts) : text := match np_frac p with Some f => f | None => [] end.
Definition parseFloat (t : text) : option f64 :=
  match readNum t with
  | None => None
  | Some p =>
      match digitsVal (np_int p ++ fracOf p) 0, numExp p with
      | Some n, Some e =>
          let k := e - Z.of_nat (List.length (fracOf p)) in
          let x := if 0 <=? k then quotF (np_neg p) (n * 10 ^ k) 1 else quotF (np_neg p) n (Z.to_pos (10 ^ (- k))) in
          if is_finite x then Some x else None
      | _, _ => None
      end
  end.

(** ** Values *)
Definition isWs (c : ascii) : bool := Ascii.eqb c " " || (byteOf c =? 9) || (byteOf c =? 10) || (byteOf c =? 13).
Fixpoint skipWs (t : text) : text := match t with c :: t' => if isWs c then skipWs t' else t | [] => [] end.
Definition litVal (t : text) : option (jval * text) :=
  if hasPrefix t (tx "null") then Some (JNull, skipn 4 t)
  else if hasPrefix t (tx "true") then Some (JBool true, skipn 4 t)
  else if hasPrefix t (tx "false") then Some (JBool false, skipn 5 t)
  else let '(n, r) := spanN t in match readNum n with Some _ => Some (JNum n, r) | None => None end.
(** scanner.go: the states of values, arrays and objects. [fuel] bounds the recursion; see [parseDoc]. The text of a value
    starts at its first character; the texts of elements and members may start with white space. *)
Fixpoint pVal (fuel : nat) (t : text) : option (jval * text) :=
  match fuel with
  | O => None
  | S n =>
      match t with
      | [] => None
      | c :: t' =>
          if Ascii.eqb c DQ then match cutStr t' with Some (raw, r) => Some (JStr (unquote raw), r) | None => None end
          else if Ascii.eqb c "[" then
            match skipWs t' with
            | d :: r => if Ascii.eqb d "]" then Some (JArr [], r)
                        else match pElems n t' with Some (l, r') => Some (JArr l, r') | None => None end
            | [] => None
            end
          else if Ascii.eqb c "{" then
            match skipWs t' with
            | d :: r => if Ascii.eqb d "}" then Some (JObj [], r)
                        else match pMembers n t' with Some (l, r') => Some (JObj l, r') | None => None end
            | [] => None
            end
          else litVal t
      end
  end
with pElems (fuel : nat) (t : text) : option (list jval * text) :=
  match fuel with
  | O => None
  | S n =>
      match pVal n (skipWs t) with
      | None => None
      | Some (v, r) =>
          match skipWs r with
          | c :: r' =>
              if Ascii.eqb c "]" then Some ([v], r')
              else if Ascii.eqb c "," then match pElems n r' with Some (l, r2) => Some (v :: l, r2) | None => None end
              else None
          | [] => None
          end
      end
  end
with pMembers (fuel : nat) (t : text) : option (list (text * jval) * text) :=
  match fuel with
  | O => None
  | S n =>
      match skipWs t with
      | q :: t1 =>
          if Ascii.eqb q DQ then
            match cutStr t1 with
            | None => None
            | Some (raw, r) =>
                match skipWs r with
                | c :: r1 =>
                    if Ascii.eqb c ":" then
                      match pVal n (skipWs r1) with
                      | None => None
                      | Some (v, r2) =>
                          match skipWs r2 with
                          | d :: r3 =>
                              if Ascii.eqb d "}" then Some ([(unquote raw, v)], r3)
                              else if Ascii.eqb d "," then
                                match pMembers n r3 with Some (l, r4) => Some ((unquote raw, v) :: l, r4) | None => None end
                              else None
                          | [] => None
                          end
                      end
                    else None
                | [] => None
                end
            end
          else None
      | [] => None
      end
  end.
(** a whole text: one value, with white space around it (scanner.go [checkValid]) *)
Definition parseDoc (t : text) : option jval :=
  match pVal (2 * List.length t + 2) (skipWs t) with
  | Some (v, r) => match skipWs r with [] => Some v | _ => None end
  | None => None
  end.

(** ** Records *)
(** fold.go [foldName], as far as the names of the fields are concerned: letter case does not matter, U+212A (the Kelvin
    sign) counts as K and U+017F (long s) as S *)
Definition upC (c : ascii) : ascii := if between 97 122 c then byteC (byteOf c - 32) else c.
Fixpoint foldName (t : text) : text :=
  match t with
  | [] => []
  | a :: t1 =>
      match t1 with
      | b :: t2 =>
          if (byteOf a =? 197) && (byteOf b =? 191) then "S"%char :: foldName t2
          else match t2 with
          | c :: t3 => if (byteOf a =? 226) && (byteOf b =? 132) && (byteOf c =? 170) then "K"%char :: foldName t3 else upC a :: foldName t1
          | [] => upC a :: foldName t1
          end
      | [] => upC a :: foldName t1
      end
  end.
Definition sameKey (k f : text) : bool := text_eqb (foldName k) (foldName f).

(** decode.go [literalStore] and [array]: values for fields of type uint, int, float64, bool, string and []int. An element
    null of an array leaves the element 0 (in Go: what the array of an earlier duplicate of the field had there). *)
Definition toUint (v : jval) : option Z := match v with JNum t => parseUint t | _ => None end.
Definition toInt (v : jval) : option Z := match v with JNum t => parseInt t | _ => None end.
Definition toFloat (v : jval) : option f64 := match v with JNum t => parseFloat t | _ => None end.
Definition toBool (v : jval) : option bool := match v with JBool b => Some b | _ => None end.
Definition toStr (v : jval) : option text := match v with JStr t => Some t | _ => None end.
Fixpoint toIntsL (l : list jval) : option (list Z) :=
  match l with
  | [] => Some []
  | v :: l' =>
      match (match v with JNull => Some 0 | _ => toInt v end), toIntsL l' with
      | Some z, Some zs => Some (z :: zs)
      | _, _ => None
      end
  end.
Definition toInts (v : jval) : option (list Z) := match v with JArr l => toIntsL l | _ => None end.
(** null leaves a number, a bool or a string as it is *)
Definition store {A B} (set : A -> B) (v : jval) (conv : jval -> option A) (same : B) : option B :=
  match v with JNull => Some same | _ => match conv v with Some a => Some (set a) | None => None end end.

Definition zeroNode : JSONNode := MkJ 0 0 None 0 fzero false fzero 0 0 0 fzero false.
(** decode.go [object] for utils/json.go:12-25, one member; an unknown key is skipped. In Go a value of a wrong type does not
    end the decoding, but the error is returned in the end. *)
Definition setNode (j : JSONNode) (kv : text * jval) : option JSONNode :=
  let '(k, v) := kv in
  let '(MkJ id ns sm sf bs lf th le ri br va xg) := j in
  if sameKey k (tx "Id") then store (fun x => MkJ x ns sm sf bs lf th le ri br va xg) v toUint j
  else if sameKey k (tx "Nsamples") then store (fun x => MkJ id x sm sf bs lf th le ri br va xg) v toInt j
  else if sameKey k (tx "Samples") then store (fun x => MkJ id ns (Some x) sf bs lf th le ri br va xg) v toInts (MkJ id ns None sf bs lf th le ri br va xg)
  else if sameKey k (tx "SplitFeatureIndex") then store (fun x => MkJ id ns sm x bs lf th le ri br va xg) v toInt j
  else if sameKey k (tx "BestScoreSoFar") then store (fun x => MkJ id ns sm sf x lf th le ri br va xg) v toFloat j
  else if sameKey k (tx "Leaf") then store (fun x => MkJ id ns sm sf bs x th le ri br va xg) v toBool j
  else if sameKey k (tx "Threshold") then store (fun x => MkJ id ns sm sf bs lf x le ri br va xg) v toFloat j
  else if sameKey k (tx "Leftid") then store (fun x => MkJ id ns sm sf bs lf th x ri br va xg) v toUint j
  else if sameKey k (tx "Rightid") then store (fun x => MkJ id ns sm sf bs lf th le x br va xg) v toUint j
  else if sameKey k (tx "Branches") then store (fun x => MkJ id ns sm sf bs lf th le ri x va xg) v toInt j
  else if sameKey k (tx "Value") then store (fun x => MkJ id ns sm sf bs lf th le ri br x xg) v toFloat j
  else if sameKey k (tx "XGB") then store (fun x => MkJ id ns sm sf bs lf th le ri br va x) v toBool j
  else Some j.
Definition zeroMeta : JSONMeta := MkMeta fzero [] [] fzero.
(** the same for xjson.go:131-136 *)
Definition setMeta (m : JSONMeta) (kv : text * jval) : option JSONMeta :=
  let '(k, v) := kv in
  let '(MkMeta lr cl pn bs) := m in
  if sameKey k (tx "LearningRate") then store (fun x => MkMeta x cl pn bs) v toFloat m
  else if sameKey k (tx "ClassLabels") then store (fun x => MkMeta lr x pn bs) v toInts (MkMeta lr [] pn bs)
  else if sameKey k (tx "ProbTransformName") then store (fun x => MkMeta lr cl x bs) v toStr m
  else if sameKey k (tx "BaseScore") then store (fun x => MkMeta lr cl pn x) v toFloat m
  else Some m.
Definition setAll {A} (set : A -> text * jval -> option A) (kvs : list (text * jval)) (z : A) : option A :=
  fold_left (fun o kv => match o with Some a => set a kv | None => None end) kvs (Some z).
(** decode.go [Unmarshal] into a fresh record: null changes nothing *)
Definition unRec {A} (set : A -> text * jval -> option A) (z : A) (t : text) : option A :=
  match parseDoc t with
  | Some JNull => Some z
  | Some (JObj kvs) => setAll set kvs z
  | _ => None
  end.

(** encode.go: the text of a value. [fmt] is the text of a finite float64 (encode.go [floatEncoder]); of other floats there is
    an error, see [marshalNode]. A nil slice is null; the model does not tell nil labels from none and writes null. *)
Fixpoint joinC (l : list text) : text := match l with [] => [] | [t] => t | t :: r => t ++ ","%char :: joinC r end.
Definition boolText (b : bool) : text := if b then tx "true" else tx "false".
Definition intsText (l : list Z) : text := "["%char :: joinC (map decZ l) ++ tx "]".
Definition memberText (kv : text * text) : text := DQ :: fst kv ++ DQ :: ":"%char :: snd kv.
Definition objText (l : list (text * text)) : text := "{"%char :: joinC (map memberText l) ++ tx "}".
Definition floatText (fmt : f64 -> text) (x : f64) : text := if is_finite x then fmt x else tx "0".
Definition nodeText (fmt : f64 -> text) (j : JSONNode) : text :=
  objText [(tx "Id", decZ (j_id j)); (tx "Nsamples", decZ (j_nsamples j));
           (tx "Samples", match j_samples j with None => tx "null" | Some l => intsText l end);
           (tx "SplitFeatureIndex", decZ (j_split j)); (tx "BestScoreSoFar", floatText fmt (j_best j)); (tx "Leaf", boolText (j_leaf j));
           (tx "Threshold", floatText fmt (j_thr j)); (tx "Leftid", decZ (j_left j)); (tx "Rightid", decZ (j_right j));
           (tx "Branches", decZ (j_branches j)); (tx "Value", floatText fmt (j_value j)); (tx "XGB", boolText (j_xgb j))].
Definition metaText (fmt : f64 -> text) (m : JSONMeta) : text :=
  objText [(tx "LearningRate", floatText fmt (jm_lr m));
           (tx "ClassLabels", match jm_labels m with [] => tx "null" | l => intsText l end);
           (tx "ProbTransformName", DQ :: quote (jm_name m) ++ [DQ]); (tx "BaseScore", floatText fmt (jm_base m))].
Definition goCodec (fmt : f64 -> text) : Codec :=
  MkCodec (nodeText fmt) (unRec setNode zeroNode) (metaText fmt) (unRec setMeta zeroMeta).
