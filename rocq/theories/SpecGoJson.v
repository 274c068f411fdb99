(** Vocabulary for the theorems about the text of model files: the grammar of JSON (RFC 8259) as a relation between values
    and texts, and the meaning of the members of an object for the fields of a record. *)
From Coq Require Import Ascii String Reals.
From Verif Require Import Base F64 Env F64Lemmas Utils Tree Options Train Text Json Readers GoJson.
From Coq Require Import List.
Open Scope Z_scope.

(** ** Numbers *)
Definition digitsT (t : text) : Prop := t <> [] /\ Forall (fun c => isDigit c = true) t.
(** the number that a run of digits stands for *)
Definition valD (t : text) : Z := fold_left (fun a c => 10 * a + (byteOf c - 48)) t 0.
Definition intPart (i : text) : Prop := digitsT i /\ (forall r, i = "0"%char :: r -> r = []).
Inductive fracPart : text -> text -> Prop :=
| fp_none : fracPart [] []
| fp_some f : digitsT f -> fracPart f ("."%char :: f).
Inductive expPart : Z -> text -> Prop :=
| ep_none : expPart 0 []
| ep_plain c d : c = "e"%char \/ c = "E"%char -> digitsT d -> expPart (valD d) (c :: d)
| ep_plus c d : c = "e"%char \/ c = "E"%char -> digitsT d -> expPart (valD d) (c :: "+"%char :: d)
| ep_minus c d : c = "e"%char \/ c = "E"%char -> digitsT d -> expPart (- valD d) (c :: "-"%char :: d).
(** [numIs t neg i f e]: [t] is the number with sign [neg], integer digits [i], fraction digits [f] and exponent [e] *)
Definition numIs (t : text) (neg : bool) (i f : text) (e : Z) : Prop :=
  exists ft et, intPart i /\ fracPart f ft /\ expPart e et /\ t = (if neg then ["-"%char] else []) ++ i ++ ft ++ et.
Definition numText (t : text) : Prop := exists neg i f e, numIs t neg i f e.
Definition numReal (neg : bool) (i f : text) (e : Z) : R :=
  (IZR (if neg then - valD (i ++ f) else valD (i ++ f)) * powerRZ 10 (e - Z.of_nat (List.length f)))%R.
(** a text of an integer: no fraction and no exponent *)
Definition intIs (t : text) (z : Z) : Prop := exists (neg : bool) (i : text), intPart i /\ t = (if neg then ["-"%char] else []) ++ i /\ z = if neg then - valD i else valD i.
Definition uintIs (t : text) (z : Z) : Prop := intPart t /\ z = valD t.

(** ** Strings: what may be between the quotes *)
Definition hexD (c : ascii) : Prop := hexVal c <> None.
Inductive strBody : text -> Prop :=
| sb_nil : strBody []
| sb_char c r : 32 <= byteOf c -> c <> DQ -> c <> BS -> strBody r -> strBody (c :: r)
| sb_esc e r : In e [DQ; BS; "/"%char; "b"%char; "f"%char; "n"%char; "r"%char; "t"%char] -> strBody r -> strBody (BS :: e :: r)
| sb_u a b c d r : hexD a -> hexD b -> hexD c -> hexD d -> strBody r -> strBody (BS :: "u"%char :: a :: b :: c :: d :: r).

(** ** Values *)
Definition wsT (t : text) : Prop := Forall (fun c => In c [" "%char; byteC 9; byteC 10; byteC 13]) t.
Inductive jtext : jval -> text -> Prop :=
| jt_null : jtext JNull (tx "null")
| jt_true : jtext (JBool true) (tx "true")
| jt_false : jtext (JBool false) (tx "false")
| jt_num t : numText t -> jtext (JNum t) t
| jt_str raw : strBody raw -> jtext (JStr (unquote raw)) (DQ :: raw ++ [DQ])
| jt_arr0 w : wsT w -> jtext (JArr []) ("["%char :: w ++ tx "]")
| jt_arr l t : jelems l t -> jtext (JArr l) ("["%char :: t ++ tx "]")
| jt_obj0 w : wsT w -> jtext (JObj []) ("{"%char :: w ++ tx "}")
| jt_obj l t : jmembers l t -> jtext (JObj l) ("{"%char :: t ++ tx "}")
with jelems : list jval -> text -> Prop :=
| je_one v t w1 w2 : wsT w1 -> jtext v t -> wsT w2 -> jelems [v] (w1 ++ t ++ w2)
| je_more v t w1 w2 l r : wsT w1 -> jtext v t -> wsT w2 -> jelems l r -> jelems (v :: l) (w1 ++ t ++ w2 ++ ","%char :: r)
with jmembers : list (text * jval) -> text -> Prop :=
| jm_one raw v t w1 w2 w3 w4 : wsT w1 -> strBody raw -> wsT w2 -> wsT w3 -> jtext v t -> wsT w4 ->
    jmembers [(unquote raw, v)] (w1 ++ DQ :: raw ++ DQ :: w2 ++ ":"%char :: w3 ++ t ++ w4)
| jm_more raw v t w1 w2 w3 w4 l r : wsT w1 -> strBody raw -> wsT w2 -> wsT w3 -> jtext v t -> wsT w4 -> jmembers l r ->
    jmembers ((unquote raw, v) :: l) (w1 ++ DQ :: raw ++ DQ :: w2 ++ ":"%char :: w3 ++ t ++ w4 ++ ","%char :: r).
(** a text that holds one value *)
Definition jdoc (v : jval) (t : text) : Prop := exists w1 b w2, wsT w1 /\ jtext v b /\ wsT w2 /\ t = w1 ++ b ++ w2.

(** ** UTF-8 and escapes *)
Definition codePoint (z : Z) : Prop := 0 <= z <= 1114111 /\ ~ 55296 <= z <= 57343.
(** [strMeans raw s]: between quotes, [raw] stands for [s]; only well-formed texts *)
Inductive strMeans : text -> text -> Prop :=
| sm_nil : strMeans [] []
| sm_rune z r s : codePoint z -> 32 <= z -> z <> 34 -> z <> 92 -> strMeans r s -> strMeans (encodeRune z ++ r) (encodeRune z ++ s)
| sm_esc e x r s : In (e, x) [(DQ, 34); (BS, 92); ("/"%char, 47); ("b"%char, 8); ("f"%char, 12); ("n"%char, 10); ("r"%char, 13); ("t"%char, 9)] ->
    strMeans r s -> strMeans (BS :: e :: r) (byteC x :: s)
| sm_u a b c d va vb vc vd r s : hexVal a = Some va -> hexVal b = Some vb -> hexVal c = Some vc -> hexVal d = Some vd ->
    codePoint (((va * 16 + vb) * 16 + vc) * 16 + vd) -> strMeans r s ->
    strMeans (BS :: "u"%char :: a :: b :: c :: d :: r) (encodeRune (((va * 16 + vb) * 16 + vc) * 16 + vd) ++ s)
| sm_pair a b c d va vb vc vd a' b' c' d' wa wb wc wd r s :
    hexVal a = Some va -> hexVal b = Some vb -> hexVal c = Some vc -> hexVal d = Some vd ->
    hexVal a' = Some wa -> hexVal b' = Some wb -> hexVal c' = Some wc -> hexVal d' = Some wd ->
    let hi := ((va * 16 + vb) * 16 + vc) * 16 + vd in let lo := ((wa * 16 + wb) * 16 + wc) * 16 + wd in
    55296 <= hi <= 56319 -> 56320 <= lo <= 57343 -> strMeans r s ->
    strMeans (BS :: "u"%char :: a :: b :: c :: d :: BS :: "u"%char :: a' :: b' :: c' :: d' :: r)
             (encodeRune (65536 + (hi - 55296) * 1024 + (lo - 56320)) ++ s).
(** texts in UTF-8 *)
Definition utf8T (t : text) : Prop := exists zs, Forall codePoint zs /\ t = concat (map encodeRune zs).

(** ** Fields *)
(** the last value given to a field, other than null *)
Definition isNull (v : jval) : bool := match v with JNull => true | _ => false end.
Definition lastVal (f : text) (kvs : list (text * jval)) : option jval :=
  match rev (filter (fun kv => sameKey (fst kv) f && negb (isNull (snd kv))) kvs) with kv :: _ => Some (snd kv) | [] => None end.
(** the same with null counting as a value *)
Definition lastAny (f : text) (kvs : list (text * jval)) : option jval :=
  match rev (filter (fun kv => sameKey (fst kv) f) kvs) with kv :: _ => Some (snd kv) | [] => None end.
(** [x] is what the field [f] gets: [zero] without a value; every value given to the field has the right type *)
Definition fieldIs {A} (conv : jval -> option A) (zero : A) (f : text) (kvs : list (text * jval)) (x : A) : Prop :=
  (forall k v, In (k, v) kvs -> sameKey k f = true -> v <> JNull -> conv v <> None) /\
  match lastVal f kvs with Some v => conv v = Some x | None => x = zero end.
(** a slice is nil without a value and after null *)
Definition sliceIs (f : text) (kvs : list (text * jval)) (x : option (list Z)) : Prop :=
  (forall k v, In (k, v) kvs -> sameKey k f = true -> v <> JNull -> toInts v <> None) /\
  match lastAny f kvs with
  | Some JNull => x = None
  | Some v => exists l, toInts v = Some l /\ x = Some l
  | None => x = None
  end.
Definition nodeIs (kvs : list (text * jval)) (j : JSONNode) : Prop :=
  fieldIs toUint 0 (tx "Id") kvs (j_id j) /\ fieldIs toInt 0 (tx "Nsamples") kvs (j_nsamples j) /\
  sliceIs (tx "Samples") kvs (j_samples j) /\ fieldIs toInt 0 (tx "SplitFeatureIndex") kvs (j_split j) /\
  fieldIs toFloat fzero (tx "BestScoreSoFar") kvs (j_best j) /\ fieldIs toBool false (tx "Leaf") kvs (j_leaf j) /\
  fieldIs toFloat fzero (tx "Threshold") kvs (j_thr j) /\ fieldIs toUint 0 (tx "Leftid") kvs (j_left j) /\
  fieldIs toUint 0 (tx "Rightid") kvs (j_right j) /\ fieldIs toInt 0 (tx "Branches") kvs (j_branches j) /\
  fieldIs toFloat fzero (tx "Value") kvs (j_value j) /\ fieldIs toBool false (tx "XGB") kvs (j_xgb j).
Definition metaIs (kvs : list (text * jval)) (m : JSONMeta) : Prop :=
  fieldIs toFloat fzero (tx "LearningRate") kvs (jm_lr m) /\
  (exists x, sliceIs (tx "ClassLabels") kvs x /\ jm_labels m = match x with Some l => l | None => [] end) /\
  fieldIs toStr [] (tx "ProbTransformName") kvs (jm_name m) /\ fieldIs toFloat fzero (tx "BaseScore") kvs (jm_base m).
Definition nodeFields : list text :=
  [tx "Id"; tx "Nsamples"; tx "Samples"; tx "SplitFeatureIndex"; tx "BestScoreSoFar"; tx "Leaf"; tx "Threshold"; tx "Leftid"; tx "Rightid";
   tx "Branches"; tx "Value"; tx "XGB"].
Definition metaFields : list text := [tx "LearningRate"; tx "ClassLabels"; tx "ProbTransformName"; tx "BaseScore"].

(** what is assumed of the text of a float64 (strconv.FormatFloat with the smallest number of digits): it is a number of
    JSON and reading it gives the float64 back *)
Definition FmtOk (fmt : f64 -> text) : Prop := forall x, is_finite x = true -> numText (fmt x) /\ parseFloat (fmt x) = Some x.

(** the members that are written for a node and for the metadata *)
Definition intsVal (l : list Z) : jval := JArr (map (fun z => JNum (decZ z)) l).
Definition samplesVal (o : option (list Z)) : jval := match o with None => JNull | Some l => intsVal l end.
Definition nodeMembers (fmt : f64 -> text) (j : JSONNode) : list (text * jval) :=
  [(tx "Id", JNum (decZ (j_id j))); (tx "Nsamples", JNum (decZ (j_nsamples j))); (tx "Samples", samplesVal (j_samples j));
   (tx "SplitFeatureIndex", JNum (decZ (j_split j))); (tx "BestScoreSoFar", JNum (fmt (j_best j))); (tx "Leaf", JBool (j_leaf j));
   (tx "Threshold", JNum (fmt (j_thr j))); (tx "Leftid", JNum (decZ (j_left j))); (tx "Rightid", JNum (decZ (j_right j)));
   (tx "Branches", JNum (decZ (j_branches j))); (tx "Value", JNum (fmt (j_value j))); (tx "XGB", JBool (j_xgb j))].
Definition labelsVal (l : list Z) : jval := match l with [] => JNull | _ => intsVal l end.
Definition metaMembers (fmt : f64 -> text) (m : JSONMeta) : list (text * jval) :=
  [(tx "LearningRate", JNum (fmt (jm_lr m))); (tx "ClassLabels", labelsVal (jm_labels m));
   (tx "ProbTransformName", JStr (jm_name m)); (tx "BaseScore", JNum (fmt (jm_base m)))].
(** the names of the members, without regard to letter case *)
Definition keysOf (kvs : list (text * jval)) : list text := map (fun kv => foldName (fst kv)) kvs.
