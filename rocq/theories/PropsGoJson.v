(** Property theorems about the text of model files: C151-C153. [goCodec fmt] is encoding/json with [fmt] as the text of float64
    numbers. *)
From Coq Require Import Ascii String Permutation Reals.
From Verif Require Import Base F64 Env F64Lemmas Utils Tree Options Train SpecTrain Examples TrainEx Text Json SpecJson JsonProofs JsonMore Readers
  GoJson SpecGoJson GoJsonNum GoJsonStr GoJsonVal GoJsonRec GoJsonWrite GoFmt SpecGoFile GoFileProofs GoJsonEx.
From Coq Require Import List.
Open Scope Z_scope.

(** C151 *)
Theorem c151_node fmt t j : c_unnode (goCodec fmt) t = Some j <->
  (jdoc JNull t /\ j = zeroNode) \/ exists kvs, jdoc (JObj kvs) t /\ nodeIs kvs j.
Proof. exact (node_read fmt t j). Qed.
Theorem c151_meta fmt t m : c_unmeta (goCodec fmt) t = Some m <->
  (jdoc JNull t /\ m = zeroMeta) \/ exists kvs, jdoc (JObj kvs) t /\ metaIs kvs m.
Proof. exact (meta_read fmt t m). Qed.
Theorem c151_unique t v v' : jdoc v t -> jdoc v' t -> v = v'.
Proof. exact (doc_unique t v v'). Qed.
Theorem c151_order fmt t t' kvs kvs' : jdoc (JObj kvs) t -> jdoc (JObj kvs') t' -> Permutation kvs kvs' -> NoDup (keysOf kvs) ->
  c_unnode (goCodec fmt) t = c_unnode (goCodec fmt) t' /\ c_unmeta (goCodec fmt) t = c_unmeta (goCodec fmt) t'.
Proof. exact (order_node fmt t t' kvs kvs'). Qed.
Theorem c151_unknown fmt t t' a k v b : jdoc (JObj (a ++ (k, v) :: b)) t -> jdoc (JObj (a ++ b)) t' ->
  ((forall f, In f nodeFields -> sameKey k f = false) -> c_unnode (goCodec fmt) t = c_unnode (goCodec fmt) t') /\
  ((forall f, In f metaFields -> sameKey k f = false) -> c_unmeta (goCodec fmt) t = c_unmeta (goCodec fmt) t').
Proof. exact (unknown_node fmt t t' a k v b). Qed.
Theorem c151_string raw s : strMeans raw s -> strBody raw /\ unquote raw = s.
Proof. exact (strMeans_spec raw s). Qed.
Theorem c151_integer t z : (toInt (JNum t) = Some z <-> intIs t z) /\ (toUint (JNum t) = Some z <-> uintIs t z).
Proof. exact (conj (parseInt_iff t z) (parseUint_iff t z)). Qed.
Theorem c151_float t neg i f e : numIs t neg i f e ->
  if Rlt_bool (Rabs (rnd (numReal neg i f e))) (bpow radix2 1024)
  then exists x, toFloat (JNum t) = Some x /\ is_finite x = true /\ B2R x = rnd (numReal neg i f e) /\ Bsign x = neg
  else toFloat (JNum t) = None.
Proof. exact (parseFloat_spec t neg i f e). Qed.
Theorem c151_negative_id fmt t kvs k n : jdoc (JObj kvs) t -> In (k, JNum n) kvs ->
  sameKey k (tx "Id") = true \/ sameKey k (tx "Leftid") = true \/ sameKey k (tx "Rightid") = true ->
  (exists r, n = "-"%char :: r) -> c_unnode (goCodec fmt) t = None.
Proof. exact (negative_id fmt t kvs k n). Qed.
Example c151_nonvacuous : c_unnode (goCodec goFmt) (exLine ++ [NL]) = Some exNode /\ c_unnode (goCodec goFmt) exLine2 = Some exNode.
Proof. exact (conj ex_line1 ex_line2). Qed.
Example c151_nonvacuous_bad : Forall (fun s => c_unnode (goCodec goFmt) (jl s) = None)
  ["{'Id':-1}"; "{'Id':1.0}"; "{'Id':01}"; "{'Id':1,}"; "{'Id':'1'}"; "{'Leaf':1}"; "{'Value':1e400}"; "{'Value':.5}"; "{'Value':NaN}"; "[1]"; "{'Id':1} {"; ""; "{Id:1}"; "{'Id':1"]%string.
Proof. exact ex_bad. Qed.
Example c151_nonvacuous_keys : sameKey (tx "leaf") (tx "Leaf") = true /\ sameKey (map (fun z => byteC z) [197; 191; 97; 109; 112; 108; 101; 115]) (tx "Samples") = true /\
  sameKey (tx "Le af") (tx "Leaf") = false.
Proof. exact ex_keys. Qed.
Example c151_nonvacuous_string : exists s, strMeans (tx "a\/\u00e9\ud83d\ude00\t") s /\ s = tx "a/" ++ map (fun z => byteC z) [195; 169; 240; 159; 152; 128; 9].
Proof. exact ex_means. Qed.
Print Assumptions c151_node.
Print Assumptions c151_meta.
Print Assumptions c151_unique.
Print Assumptions c151_order.
Print Assumptions c151_unknown.
Print Assumptions c151_string.
Print Assumptions c151_integer.
Print Assumptions c151_float.
Print Assumptions c151_negative_id.

(** C152 *)
Theorem c152_node fmt j : FmtOk fmt -> finiteNode j = true -> 0 <= j_id j -> 0 <= j_left j -> 0 <= j_right j ->
  jtext (JObj (nodeMembers fmt j)) (c_node (goCodec fmt) j) /\ ~ In NL (c_node (goCodec fmt) j) /\ noHeading (c_node (goCodec fmt) j) /\
  c_unnode (goCodec fmt) (c_node (goCodec fmt) j ++ [NL]) = Some j.
Proof. exact (node_line fmt j). Qed.
Theorem c152_meta fmt m : FmtOk fmt -> finiteMeta m = true -> utf8T (jm_name m) ->
  jtext (JObj (metaMembers fmt m)) (c_meta (goCodec fmt) m) /\ ~ In NL (c_meta (goCodec fmt) m) /\
  c_unmeta (goCodec fmt) (c_meta (goCodec fmt) m ++ [NL]) = Some m.
Proof. exact (meta_line fmt m). Qed.
Theorem c152_name s : utf8T s -> strBody (quote s) /\ ~ In NL (quote s) /\ unquote (quote s) = s.
Proof. exact (name_line s). Qed.
(** what the theorems about saving and loading (C41-C47) assume of encoding/json *)
Theorem c152_codec fmt : FmtOk fmt -> CodecOk (goCodec fmt).
Proof. exact (goCodec_ok fmt). Qed.
Theorem c152_formatter : FmtOk goFmt.
Proof. exact goFmt_ok. Qed.
Theorem c152_reload E M name : writable M -> modelFinite M ->
  exists out M', JSONMultiClass (goCodec goFmt) M name (fun _ => true) = Ok (out, true) /\
    UnJSONMultiClass (goCodec goFmt) E (concat out) true = Ok (Some M') /\
    mc_b M' = map (map unsampled) (removelast (mc_b M)) /\ mc_lr M' = mc_lr M /\ mc_labels M' = mc_labels M /\ mc_base M' = mc_base M /\
    (name = tx "softmax" -> mc_pt M = softmaxOf E ->
       forall row bufs, PredictMC M' row bufs = PredictMC (withRounds M (removelast (mc_b M))) row bufs).
Proof. exact (go_reload E M name). Qed.
Example c152_nonvacuous : c_node (goCodec goFmt) exNode = exLine /\ finiteNode exNode = true /\ goFmt leafMark = tx "0.11899988199911972".
Proof. exact (conj ex_line (conj eq_refl (proj2 ex_leafMark))). Qed.
Example c152_nonvacuous_reload : exists tr out, NewMultiClass env0 draws0 exD (mkO true 0 3 2 (fdec 3 10)) = Ok tr /\
  writable (tr_model tr) /\ modelFinite (tr_model tr) /\ JSONMultiClass (goCodec goFmt) (tr_model tr) (tx "softmax") (fun _ => true) = Ok (out, true) /\
  length (mc_b (tr_model tr)) = 3%nat.
Proof. exact ex_json_go. Qed.
Print Assumptions c152_node.
Print Assumptions c152_meta.
Print Assumptions c152_name.
Print Assumptions c152_codec.
Print Assumptions c152_formatter.
Print Assumptions c152_reload.

(** C153 *)
Theorem c153_lines C E f f' eof : sameFile C f f' -> UnJSONMultiClass C E f eof = UnJSONMultiClass C E f' eof.
Proof. exact (load_same C E f f' eof). Qed.
Theorem c153_edit_node fmt E t t' kvs kvs' a b eof : jdoc (JObj kvs) t -> jdoc (JObj kvs') t' -> ~ In NL t -> ~ In NL t' ->
  noHeading t -> noHeading t' -> (forall j, nodeIs kvs j <-> nodeIs kvs' j) ->
  UnJSONMultiClass (goCodec fmt) E (a ++ NL :: t ++ NL :: b) eof = UnJSONMultiClass (goCodec fmt) E (a ++ NL :: t' ++ NL :: b) eof.
Proof. exact (edit_line fmt E t t' kvs kvs' a b eof). Qed.
Theorem c153_edit_meta fmt E t t' kvs kvs' b eof : jdoc (JObj kvs) t -> jdoc (JObj kvs') t' -> ~ In NL t -> ~ In NL t' ->
  (forall m, metaIs kvs m <-> metaIs kvs' m) ->
  UnJSONMultiClass (goCodec fmt) E (t ++ NL :: b) eof = UnJSONMultiClass (goCodec fmt) E (t' ++ NL :: b) eof.
Proof. exact (edit_meta fmt E t t' kvs kvs' b eof). Qed.
Example c153_nonvacuous : exists kvs kvs', jdoc (JObj kvs) (jl exLeaf) /\ jdoc (JObj kvs') (jl exLeaf2) /\ ~ In NL (jl exLeaf) /\ ~ In NL (jl exLeaf2) /\
  noHeading (jl exLeaf) /\ noHeading (jl exLeaf2) /\ (forall j, nodeIs kvs j <-> nodeIs kvs' j) /\ length kvs <> length kvs' /\
  exists M, UnJSONMultiClass (goCodec goFmt) env0 (exHead ++ NL :: jl exLeaf ++ NL :: exTail) true = Ok (Some M) /\ length (concat (mc_b M)) = 2%nat.
Proof. exact ex_file. Qed.
Print Assumptions c153_lines.
Print Assumptions c153_edit_node.
Print Assumptions c153_edit_meta.
