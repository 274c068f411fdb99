(** Model of xjson.go and utils/json.go: writing and reading models. *)
From Coq Require Import Ascii String.
From Verif Require Import Base F64 Env Utils Tree Options Train Text.
From Coq Require Import List.
Open Scope Z_scope.

(** utils/json.go:12-25 [JSONNode] *)
Record JSONNode : Type := MkJ {
  j_id : Z;
  j_nsamples : Z;
  j_samples : option (list Z);
  j_split : Z;
  j_best : f64;
  j_leaf : bool;
  j_thr : f64;
  j_left : Z;
  j_right : Z;
  j_branches : Z;
  j_value : f64;
  j_xgb : bool
}.
(** xjson.go:131-136 [JSONMetaData] *)
Record JSONMeta : Type := MkMeta { jm_lr : f64; jm_labels : list Z; jm_name : text; jm_base : f64 }.

(** [encoding/json]: the text of a value, and decoding of a line. Marshal returns an error exactly when a float is
    NaN or infinite (see [marshalNode], [marshalMeta]). *)
Record Codec : Type := MkCodec {
  c_node : JSONNode -> text;
  c_unnode : text -> option JSONNode;
  c_meta : JSONMeta -> text;
  c_unmeta : text -> option JSONMeta
}.
Definition finiteNode (j : JSONNode) : bool := ffinite (j_best j) && ffinite (j_thr j) && ffinite (j_value j).
Definition finiteMeta (m : JSONMeta) : bool := ffinite (jm_lr m) && ffinite (jm_base m).
Definition marshalNode (C : Codec) (j : JSONNode) : option text := if finiteNode j then Some (c_node C j) else None.
Definition marshalMeta (C : Codec) (m : JSONMeta) : option text := if finiteMeta m then Some (c_meta C m) else None.

(** What is assumed of [encoding/json]: values that can be written are read back (the ids of nodes are of type uint;
    strings with invalid UTF-8 come back altered, so of a name only whether it is "softmax" is kept), the text has no newline, and the text of a node
    contains neither ROUND nor CLASS (its field names do not). *)
Record CodecOk (C : Codec) : Prop := {
  ck_node : forall j, finiteNode j = true -> 0 <= j_id j -> 0 <= j_left j -> 0 <= j_right j -> c_unnode C (c_node C j ++ [NL]) = Some j;
  ck_meta : forall m, finiteMeta m = true -> exists m', c_unmeta C (c_meta C m ++ [NL]) = Some m' /\
      jm_lr m' = jm_lr m /\ jm_labels m' = jm_labels m /\ jm_base m' = jm_base m /\
      (jm_name m' = tx "softmax" <-> jm_name m = tx "softmax");
  ck_node_nl : forall j, ~ In NL (c_node C j);
  ck_meta_nl : forall m, ~ In NL (c_meta C m);
  ck_node_round : forall j, containsT (c_node C j) (tx "ROUND") = false;
  ck_node_class : forall j, containsT (c_node C j) (tx "CLASS") = false
}.

(** xjson.go:156, the constant 0.1189998819991197253 *)
Definition leafMark : f64 := flit 8574845187653897 (-56).
(** xjson.go:153-175 [JNode] (samples are never added by JSONTree), with the child ids filled in *)
Definition JNode (d : tdata) (id leftid rightid : Z) : JSONNode :=
  MkJ id (t_nsamples d) None (t_split d) (if t_leaf d && negb (t_xgb d) then leafMark else t_best d) (t_leaf d)
      (t_thr d) leftid rightid (t_branches d) (t_value d) (t_xgb d).

(** utils/json.go:98-133 [JSONTree]; [cur] is the counter of the idGiver. Result: lines and id of the root ([None]: the
    returned error) and the counter. *)
Fixpoint JSONTree (C : Codec) (t : tree) (cur : Z) : res (option (list text * Z) * Z) :=
  match t with
  | Nil => Panic
  | Node d l r =>
      let ID := cur + 1 in
      ' (lres, cur1) <- match l with Nil => Ok (Some ([], 0), ID) | Node _ _ _ => JSONTree C l ID end ;;
      ' (rres, cur2) <- match r with Nil => Ok (Some ([], 0), cur1) | Node _ _ _ => JSONTree C r cur1 end ;;
      let idOf (x : option (list text * Z)) := match x with Some (_, i) => i | None => 0 end in
      match marshalNode C (JNode d ID (idOf lres) (idOf rres)) with
      | None => Ok (None, cur2)
      | Some s =>
          match lres, rres with
          | Some (ll, _), Some (rl, _) => Ok (Some (s :: ll ++ rl, ID), cur2)
          | _, _ => Ok (None, cur2)
          end
      end
  end.

(** xjson.go:198-213 [creator] *)
Definition creator (j : JSONNode) : tdata :=
  MkT (j_samples j) (if j_leaf j && negb (j_xgb j) then finf else j_best j) (j_value j) (j_nsamples j) (j_split j)
      (j_thr j) (j_xgb j) (j_branches j).

(** utils/json.go:62-94 [UnJSONTree]: [str] is the node's line, [r] what is left in the reader. [None] is an error; the
    tree then returned is not used by the caller. [fuel] bounds the recursion: every call reads a line. *)
Fixpoint UnJSONTree (C : Codec) (fuel : nat) (str r : text) : res (option (tree * text)) :=
  match fuel with
  | O => Diverge
  | S n =>
      match c_unnode C str with
      | None => Ok None
      | Some j =>
          let child (id : Z) (r : text) : res (option (tree * text)) :=
            if 0 <? id then
              match readLine r with None => Ok None | Some (s, r1) => UnJSONTree C n s r1 end
            else Ok (Some (Nil, r)) in
          lo <- child (j_left j) r ;;
          match lo with
          | None => Ok None
          | Some (l, r1) =>
              ro <- child (j_right j) r1 ;;
              match ro with
              | None => Ok None
              | Some (rt, r2) => Ok (Some (Node (creator j) l rt, r2))
              end
          end
      end
  end.

(** the writer of xjson.go:15-17: the n-th WriteString succeeds iff [wok n]; what a failed call may have written is not
    recorded *)
Definition wr (wok : nat -> bool) (out : list text) (s : text) : list text * bool :=
  if wok (List.length out) then (out ++ [s], true) else (out, false).

(** [bytes.Join(tree, "\n")] followed by a newline (xjson.go:122) *)
Fixpoint joinNL (ls : list text) : text :=
  match ls with [] => [] | [l] => l | l :: t => l ++ [NL] ++ joinNL t end.
(** xjson.go:109 and 114 *)
Definition roundLine (rn : nat) : text := tx "ROUND " ++ decZ (Z.of_nat rn) ++ [NL].
Definition classLine (cn : nat) (label : Z) : text :=
  tx "CLASS " ++ decZ (Z.of_nat cn) ++ tx ", label: " ++ decZ label ++ tx " " ++ [NL].

(** xjson.go:113-126: the classes of a round, from number [cn] on; result: what has been written and whether no error *)
Fixpoint writeClasses (C : Codec) (wok : nat -> bool) (labels : list Z) (cn : nat) (ts : list tree) (out : list text)
  : res (list text * bool) :=
  match ts with
  | [] => Ok (out, true)
  | t :: rest =>
      lab <- idx labels (Z.of_nat cn) ;;
      let '(out1, ok1) := wr wok out (classLine cn lab) in
      if negb ok1 then Ok (out1, false)
      else
        ' (o, _) <- JSONTree C t 0 ;;
        match o with
        | None => Ok (out1, false)
        | Some (ls, _) =>
            let '(out2, ok2) := wr wok out1 (joinNL ls ++ [NL]) in
            if negb ok2 then Ok (out2, false) else writeClasses C wok labels (S cn) rest out2
        end
  end.
(** xjson.go:108-127 *)
Fixpoint writeRounds (C : Codec) (wok : nat -> bool) (labels : list Z) (rn : nat) (b : list (list tree)) (out : list text)
  : res (list text * bool) :=
  match b with
  | [] => Ok (out, true)
  | ens :: rest =>
      let '(out1, ok1) := wr wok out (roundLine rn) in
      if negb ok1 then Ok (out1, false)
      else
        ' (out2, ok2) <- writeClasses C wok labels 0 ens out1 ;;
        if negb ok2 then Ok (out2, false) else writeRounds C wok labels (S rn) rest out2
  end.
(** xjson.go:99-129 [JSONMultiClass] and 138-151 [MarshalMCMetaData]: what was written, and whether no error is returned *)
Definition JSONMultiClass (C : Codec) (M : MultiClass) (name : text) (wok : nat -> bool) : res (list text * bool) :=
  match marshalMeta C (MkMeta (mc_lr M) (mc_labels M) name (mc_base M)) with
  | None => Ok ([], false)
  | Some j =>
      let '(out1, ok1) := wr wok [] (j ++ [NL]) in
      if negb ok1 then Ok (out1, false) else writeRounds C wok (mc_labels M) 0 (mc_b M) out1
  end.

(** xjson.go:33-35 [ProbTransformMap]; a missing key gives a nil function *)
Definition ProbTransformMap (E : Env) (name : text) : option (dense -> dense -> res dense) :=
  if text_eqb name (tx "softmax") then Some (fun P Q => SoftMaxDense E P (Some Q)) else None.

(** xjson.go:62-87, the reading loop: [trees] and [class] ([None]: nil); [None] result: a tree could not be read *)
Fixpoint unLoop (C : Codec) (fuel : nat) (r : text) (trees : list (list tree)) (class : option (list tree))
  : res (option (list (list tree))) :=
  match fuel with
  | O => Diverge
  | S n =>
      match readLine r with
      | None => Ok (Some trees)
      | Some (s, r') =>
          if containsT s (tx "ROUND") then
            unLoop C n r' (match class with Some c => trees ++ [c] | None => trees end) (Some [])
          else if containsT s (tx "CLASS") then unLoop C n r' trees class
          else
            o <- UnJSONTree C n s r' ;;
            match o with
            | None => Ok None
            | Some (t, r2) => unLoop C n r2 trees (Some (orNil class ++ [t]))
            end
      end
  end.
(** xjson.go:37-94 [UnJSONMultiClass] on a reader holding [r]; [eof]: the error at the end of the text is io.EOF.
    The [xgb] field keeps its zero value. *)
Definition UnJSONMultiClass (C : Codec) (E : Env) (r : text) (eof : bool) : res (option MultiClass) :=
  match readLine r with
  | None => Ok None
  | Some (s, r') =>
      match c_unmeta C s with
      | None => Ok None
      | Some m =>
          o <- unLoop C (S (List.length r')) r' [] None ;;
          match o with
          | None => Ok None
          | Some trees =>
              if eof then Ok (Some (MkMC trees (jm_lr m) (jm_labels m) (ProbTransformMap E (jm_name m)) (jm_base m) false))
              else Ok None
          end
      end
  end.

(** reading one tree from the start of a reader, as the loop does with a line that is not a heading *)
Definition readTree (C : Codec) (r : text) : res (option (tree * text)) :=
  match readLine r with
  | None => Ok None
  | Some (s, r') => UnJSONTree C (S (List.length r')) s r'
  end.
