(** Concrete lines and files for C151-C153, and the file-level facts for the codec of GoJson.v (encoding/json behind
    utils/json.go:62-133 and xjson.go:15-150). *)
From Coq Require Import Ascii String Permutation Reals.
From Verif Require Import Base F64 Env F64Lemmas Utils Tree Options Train SpecTrain Examples TrainEx Text Json SpecJson JsonProofs JsonMore Readers
  GoJson SpecGoJson GoJsonNum GoJsonStr GoJsonVal GoJsonRec GoJsonWrite GoFmt SpecGoFile GoFileProofs.
From Coq Require Import List.
Open Scope Z_scope.

(** ** Facts *)
Lemma node_read fmt t j : c_unnode (goCodec fmt) t = Some j <-> (jdoc JNull t /\ j = zeroNode) \/ exists kvs, jdoc (JObj kvs) t /\ nodeIs kvs j.
Proof. cbn [goCodec c_unnode]. rewrite unRec_iff. setoid_rewrite setNode_all. reflexivity. Qed.
Lemma meta_read fmt t m : c_unmeta (goCodec fmt) t = Some m <-> (jdoc JNull t /\ m = zeroMeta) \/ exists kvs, jdoc (JObj kvs) t /\ metaIs kvs m.
Proof. cbn [goCodec c_unmeta]. rewrite unRec_iff. setoid_rewrite setMeta_all. reflexivity. Qed.
Lemma doc_unique t v v' : jdoc v t -> jdoc v' t -> v = v'.
Proof. intros H H'. apply parseDoc_iff in H, H'. congruence. Qed.
Lemma doc_node fmt t kvs j : jdoc (JObj kvs) t -> (c_unnode (goCodec fmt) t = Some j <-> nodeIs kvs j).
Proof.
  intros HT. rewrite node_read. split; [|eauto]. intros [[H _]|(kvs' & H & HN)]; pose proof (doc_unique _ _ _ HT H) as HE; [discriminate|]. injection HE as <-. auto.
Qed.
Lemma doc_meta fmt t kvs m : jdoc (JObj kvs) t -> (c_unmeta (goCodec fmt) t = Some m <-> metaIs kvs m).
Proof.
  intros HT. rewrite meta_read. split; [|eauto]. intros [[H _]|(kvs' & H & HN)]; pose proof (doc_unique _ _ _ HT H) as HE; [discriminate|]. injection HE as <-. auto.
Qed.
Lemma opt_ext {A} (a b : option A) : (forall x, a = Some x <-> b = Some x) -> a = b.
Proof. intros H. destruct a as [x|]; [symmetry; apply H; auto|]. destruct b as [x|]; auto. apply H. auto. Qed.
Lemma order_node fmt t t' kvs kvs' : jdoc (JObj kvs) t -> jdoc (JObj kvs') t' -> Permutation kvs kvs' -> NoDup (keysOf kvs) ->
  c_unnode (goCodec fmt) t = c_unnode (goCodec fmt) t' /\ c_unmeta (goCodec fmt) t = c_unmeta (goCodec fmt) t'.
Proof.
  intros H H' HP HN. assert (HN' : NoDup (keysOf kvs')) by (unfold keysOf in *; eapply Permutation_NoDup; [apply Permutation_map; eauto|auto]).
  split; apply opt_ext; intros x.
  - rewrite !doc_node by eauto. split; apply node_perm; auto using Permutation_sym.
  - rewrite !doc_meta by eauto. split; apply meta_perm; auto using Permutation_sym.
Qed.
Lemma unknown_node fmt t t' a k v b : jdoc (JObj (a ++ (k, v) :: b)) t -> jdoc (JObj (a ++ b)) t' ->
  ((forall f, In f nodeFields -> sameKey k f = false) -> c_unnode (goCodec fmt) t = c_unnode (goCodec fmt) t') /\
  ((forall f, In f metaFields -> sameKey k f = false) -> c_unmeta (goCodec fmt) t = c_unmeta (goCodec fmt) t').
Proof.
  intros H H'. split; intros HK; apply opt_ext; intros x.
  - rewrite (doc_node fmt _ _ _ H), (doc_node fmt _ _ _ H'). apply node_unknown. auto.
  - rewrite (doc_meta fmt _ _ _ H), (doc_meta fmt _ _ _ H'). apply meta_unknown. auto.
Qed.
Lemma doc_nl v t : jdoc v t -> jdoc v (t ++ [NL]).
Proof.
  intros (w1 & b & w2 & H1 & H2 & H3 & ->). exists w1, b, (w2 ++ [NL]). split; auto. split; auto. split; [|rewrite <- !app_assoc; auto].
  apply Forall_app. split; auto. constructor; [|constructor]. right. right. left. reflexivity.
Qed.
Lemma nl_snoc p c t : p <> [] -> ~ In c p -> containsT (t ++ [c]) p = containsT t p.
Proof.
  intros HP HI. apply Bool.eq_true_iff_eq. rewrite !containsT_iff. split.
  - intros (a & b & E). destruct (exists_last HP) as (p' & x & ->).
    destruct b as [|y b]; [|destruct (exists_last (l := y :: b) ltac:(discriminate)) as (b' & z & Eb); rewrite Eb in E].
    + rewrite app_nil_r, app_assoc in E. apply app_inj_tail in E as [_ ->]. exfalso. apply HI. rewrite in_app_iff. cbn. auto.
    + rewrite !app_assoc in E. apply app_inj_tail in E as [E _]. exists a, b'. rewrite <- !app_assoc in *. auto.
  - intros (a & b & ->). exists a, (b ++ [c]). rewrite <- !app_assoc. auto.
Qed.
Lemma edit_line fmt E t t' kvs kvs' a b eof : jdoc (JObj kvs) t -> jdoc (JObj kvs') t' -> ~ In NL t -> ~ In NL t' -> noHeading t -> noHeading t' ->
  (forall j, nodeIs kvs j <-> nodeIs kvs' j) ->
  UnJSONMultiClass (goCodec fmt) E (a ++ NL :: t ++ NL :: b) eof = UnJSONMultiClass (goCodec fmt) E (a ++ NL :: t' ++ NL :: b) eof.
Proof.
  intros H H' HN HN' [R1 R2] [R1' R2'] HM. apply replace_line; auto.
  assert (G : forall s, ~ In NL (tx s) -> tx s <> [] -> forall u, containsT (u ++ [NL]) (tx s) = containsT u (tx s)) by (intros; apply nl_snoc; auto).
  split; [|split].
  - rewrite !G by (try discriminate; intros HI; vm_compute in HI; repeat (destruct HI as [HI|HI]; [discriminate HI|]); destruct HI). congruence.
  - rewrite !G by (try discriminate; intros HI; vm_compute in HI; repeat (destruct HI as [HI|HI]; [discriminate HI|]); destruct HI). congruence.
  - apply opt_ext. intros j. rewrite (doc_node fmt _ _ _ (doc_nl _ _ H)), (doc_node fmt _ _ _ (doc_nl _ _ H')). apply HM.
Qed.
Lemma edit_meta fmt E t t' kvs kvs' b eof : jdoc (JObj kvs) t -> jdoc (JObj kvs') t' -> ~ In NL t -> ~ In NL t' ->
  (forall m, metaIs kvs m <-> metaIs kvs' m) ->
  UnJSONMultiClass (goCodec fmt) E (t ++ NL :: b) eof = UnJSONMultiClass (goCodec fmt) E (t' ++ NL :: b) eof.
Proof.
  intros H H' HN HN' HM. apply replace_meta; auto. apply opt_ext. intros j. rewrite (doc_meta fmt _ _ _ (doc_nl _ _ H)), (doc_meta fmt _ _ _ (doc_nl _ _ H')). apply HM.
Qed.
Lemma node_line fmt j : FmtOk fmt -> finiteNode j = true -> 0 <= j_id j -> 0 <= j_left j -> 0 <= j_right j ->
  jtext (JObj (nodeMembers fmt j)) (c_node (goCodec fmt) j) /\ ~ In NL (c_node (goCodec fmt) j) /\ noHeading (c_node (goCodec fmt) j) /\
  c_unnode (goCodec fmt) (c_node (goCodec fmt) j ++ [NL]) = Some j.
Proof.
  intros HF H1 H2 H3 H4. pose proof (goCodec_ok fmt HF) as HC.
  exact (conj (node_written fmt HF j H1) (conj (ck_node_nl _ HC j) (conj (conj (ck_node_round _ HC j) (ck_node_class _ HC j)) (ck_node _ HC j H1 H2 H3 H4)))).
Qed.
Lemma meta_line fmt m : FmtOk fmt -> finiteMeta m = true -> utf8T (jm_name m) ->
  jtext (JObj (metaMembers fmt m)) (c_meta (goCodec fmt) m) /\ ~ In NL (c_meta (goCodec fmt) m) /\
  c_unmeta (goCodec fmt) (c_meta (goCodec fmt) m ++ [NL]) = Some m.
Proof.
  intros HF H1 H2. pose proof (goCodec_ok fmt HF) as HC. exact (conj (meta_written fmt HF m H1 H2) (conj (ck_meta_nl _ HC m) (meta_back fmt HF m H1 H2))).
Qed.
Lemma name_line s : utf8T s -> strBody (quote s) /\ ~ In NL (quote s) /\ unquote (quote s) = s.
Proof. intros H. destruct (quote_spec s) as (H1 & H2 & H3). rewrite (sanitize_utf8 _ H) in H3. exact (conj H1 (conj H2 H3)). Qed.
Lemma go_reload E M name : writable M -> modelFinite M ->
  exists out M', JSONMultiClass (goCodec goFmt) M name (fun _ => true) = Ok (out, true) /\
    UnJSONMultiClass (goCodec goFmt) E (concat out) true = Ok (Some M') /\
    mc_b M' = map (map unsampled) (removelast (mc_b M)) /\ mc_lr M' = mc_lr M /\ mc_labels M' = mc_labels M /\ mc_base M' = mc_base M /\
    (name = tx "softmax" -> mc_pt M = softmaxOf E ->
       forall row bufs, PredictMC M' row bufs = PredictMC (withRounds M (removelast (mc_b M))) row bufs).
Proof.
  intros HW HM. destruct (c43_lemma (goCodec goFmt) E M name (goCodec_ok goFmt goFmt_ok) HW HM) as (out & M' & H1 & H2 & H3 & H4 & H5 & H6 & _ & H8 & _).
  exists out, M'. exact (conj H1 (conj H2 (conj H3 (conj H4 (conj H5 (conj H6 H8)))))).
Qed.
(** a negative id is an error *)
Lemma negative_id fmt t kvs k n : jdoc (JObj kvs) t -> In (k, JNum n) kvs -> sameKey k (tx "Id") = true \/ sameKey k (tx "Leftid") = true \/ sameKey k (tx "Rightid") = true ->
  (exists r, n = "-"%char :: r) -> c_unnode (goCodec fmt) t = None.
Proof.
  intros H HI HK (r & ->). destruct (c_unnode (goCodec fmt) t) as [j|] eqn:E; auto. exfalso. apply (doc_node fmt _ _ _ H) in E.
  destruct E as (H1 & _ & _ & _ & _ & _ & _ & H8 & H9 & _).
  assert (HU : toUint (JNum ("-"%char :: r)) = None).
  { cbn [toUint]. destruct (parseUint ("-"%char :: r)) as [z|] eqn:EU; auto. apply parseUint_iff in EU as [[[_ HD] _] _]. inversion HD. discriminate. }
  destruct HK as [HK|[HK|HK]]; [apply (proj1 H1 _ _ HI HK)|apply (proj1 H8 _ _ HI HK)|apply (proj1 H9 _ _ HI HK)]; auto; discriminate.
Qed.

(** ** Cases *)
Definition sameNode (a b : JSONNode) : bool :=
  (j_id a =? j_id b) && (j_nsamples a =? j_nsamples b) &&
  (match j_samples a, j_samples b with None, None => true | Some x, Some y => if list_eq_dec Z.eq_dec x y then true else false | _, _ => false end) &&
  (j_split a =? j_split b) && sameF (j_best a) (j_best b) && Bool.eqb (j_leaf a) (j_leaf b) && sameF (j_thr a) (j_thr b) && (j_left a =? j_left b) &&
  (j_right a =? j_right b) && (j_branches a =? j_branches b) && sameF (j_value a) (j_value b) && Bool.eqb (j_xgb a) (j_xgb b).
Lemma sameNode_eq a b : sameNode a b = true -> a = b.
Proof.
  destruct a as [a1 a2 a3 a4 a5 a6 a7 a8 a9 a10 a11 a12], b as [b1 b2 b3 b4 b5 b6 b7 b8 b9 b10 b11 b12]. unfold sameNode. cbn [j_id j_nsamples j_samples j_split j_best j_leaf j_thr j_left j_right j_branches j_value j_xgb]. intros H.
  repeat (apply andb_true_iff in H as [H ?]).
  repeat match goal with
  | [E : (_ =? _) = true |- _] => apply Z.eqb_eq in E; subst
  | [E : sameF _ _ = true |- _] => apply sameF_eq in E; subst
  | [E : Bool.eqb _ _ = true |- _] => apply Bool.eqb_prop in E; subst
  end. destruct a3, b3; try discriminate; [|reflexivity]. destruct (list_eq_dec Z.eq_dec l l0); [subst; auto|discriminate].
Qed.
Definition exNode : JSONNode := MkJ 2 5 None 3 (fdec 1 10) false (fdec (-25) 10) 3 0 2 (fdec 7 1) true.
Definition jl (s : string) : text := map (fun c => if Ascii.eqb c "'" then DQ else c) (list_ascii_of_string s).
Definition exLine : text := jl "{'Id':2,'Nsamples':5,'Samples':null,'SplitFeatureIndex':3,'BestScoreSoFar':0.1,'Leaf':false,'Threshold':-2.5,'Leftid':3,'Rightid':0,'Branches':2,'Value':7,'XGB':true}".
(** the members in another order, other letter case, an unknown member, an escape in a key, white space, other ways to write numbers *)
Definition exLine2 : text := jl " { 'xgb' : true, 'comment':[{'a':1}, 'CLASS', null], 'value':70e-1, 'Branches':2,'rightID':0,'LeftId':3, 'THRESHOLD':-0.25E+1,
  'LE\u0041F':null, 'BestScoreSoFar':0.1000000000000000055511151231257827, 'SplitFeatureIndex':3, 'nsamples':5,'id':1, 'ID':2 } ".
Lemma ex_line : c_node (goCodec goFmt) exNode = exLine.
Proof. vm_compute. reflexivity. Qed.
Lemma ex_read l : match c_unnode (goCodec goFmt) l with Some j => sameNode j exNode | None => false end = true -> c_unnode (goCodec goFmt) l = Some exNode.
Proof. destruct (c_unnode (goCodec goFmt) l); [|discriminate]. intros H. f_equal. apply sameNode_eq; auto. Qed.
Lemma ex_line1 : c_unnode (goCodec goFmt) (exLine ++ [NL]) = Some exNode.
Proof. apply ex_read. vm_compute. reflexivity. Qed.
Lemma ex_line2 : c_unnode (goCodec goFmt) exLine2 = Some exNode.
Proof. apply ex_read. vm_compute. reflexivity. Qed.
(** lines that are not accepted *)
Lemma ex_bad : Forall (fun s => c_unnode (goCodec goFmt) (jl s) = None)
  ["{'Id':-1}"; "{'Id':1.0}"; "{'Id':01}"; "{'Id':1,}"; "{'Id':'1'}"; "{'Leaf':1}"; "{'Value':1e400}"; "{'Value':.5}"; "{'Value':NaN}"; "[1]"; "{'Id':1} {"; ""; "{Id:1}"; "{'Id':1"]%string.
Proof. repeat (constructor; [vm_compute; reflexivity|]). constructor. Qed.
Lemma readsBack_eq x t : readsBack x t = true -> parseFloat t = Some x.
Proof. unfold readsBack. destruct (parseFloat t); [|discriminate]. intros H. apply sameF_eq in H as ->. auto. Qed.
Lemma ex_leafMark : parseFloat (tx "0.1189998819991197253") = Some leafMark /\ goFmt leafMark = tx "0.11899988199911972".
Proof. split; [apply readsBack_eq; vm_compute; reflexivity|vm_compute; reflexivity]. Qed.
(** keys: the Kelvin sign and the long s *)
Lemma ex_keys : sameKey (tx "leaf") (tx "Leaf") = true /\ sameKey (map (fun z => byteC z) [197; 191; 97; 109; 112; 108; 101; 115]) (tx "Samples") = true /\
  sameKey (tx "Le af") (tx "Leaf") = false.
Proof. vm_compute. auto. Qed.
(** escapes: a slash, e with acute accent twice, a pair of surrogates, a tab *)
Lemma ex_means : exists s, strMeans (tx "a\/\u00e9\ud83d\ude00\t") s /\ s = tx "a/" ++ map (fun z => byteC z) [195; 169; 240; 159; 152; 128; 9].
Proof.
  eexists. split.
  - change (tx "a\/\u00e9\ud83d\ude00\t") with (encodeRune 97 ++ tx "\/\u00e9\ud83d\ude00\t"). apply sm_rune; try (unfold codePoint; lia).
    apply (sm_esc "/"%char 47); [cbn; tauto|].
    apply (sm_u "0" "0" "e" "9" 0 0 14 9); try reflexivity; [unfold codePoint; lia|].
    apply (sm_pair "d" "8" "3" "d" 13 8 3 13 "d" "e" "0" "0" 13 14 0 0); try reflexivity; [cbn; lia|cbn; lia|].
    apply (sm_esc "t"%char 9); [cbn; tauto|]. constructor.
  - vm_compute. reflexivity.
Qed.
(** a trained model through the text of encoding/json *)
Lemma ex_json_go : exists tr out, NewMultiClass env0 draws0 exD (mkO true 0 3 2 (fdec 3 10)) = Ok tr /\
  writable (tr_model tr) /\ modelFinite (tr_model tr) /\ JSONMultiClass (goCodec goFmt) (tr_model tr) (tx "softmax") (fun _ => true) = Ok (out, true) /\
  length (mc_b (tr_model tr)) = 3%nat.
Proof.
  destruct ex_json as (tr & _ & H1 & H2 & H3 & _ & H5 & _).
  destruct (c44_lemma (goCodec goFmt) (tr_model tr) (tx "softmax") (fun _ => true) H2) as (out & ok & HJ & _ & HI). destruct (proj2 (HI (fun _ => eq_refl)) H3).
  exists tr, out. split; [exact H1|]. split; [exact H2|]. split; [exact H3|]. split; [|exact H5]. exact HJ.
Qed.
(** a file and an edited copy *)
Definition exMeta : string := "{'LearningRate':0.1,'ClassLabels':[1,2],'ProbTransformName':'softmax','BaseScore':0.5}".
Definition exLeaf : string := "{'Id':1,'Nsamples':5,'Samples':null,'SplitFeatureIndex':0,'BestScoreSoFar':1,'Leaf':true,'Threshold':0,'Leftid':0,'Rightid':0,'Branches':1,'Value':0.25,'XGB':true}".
Definition exLeaf2 : string := " {'XGB':true,'value':2.5e-1, 'id':1, 'Nsamples':5, 'note':'edited', 'Leaf':true, 'BestScoreSoFar':1.0,'Branches':1} ".
Definition exHead : text := jl exMeta ++ NL :: jl "ROUND 0" ++ NL :: jl "CLASS 0 1".
Definition exTail : text := jl "CLASS 1 2" ++ NL :: jl exLeaf ++ NL :: jl "ROUND 1" ++ [NL].
Definition membersOf (t : text) : list (text * jval) := match parseDoc t with Some (JObj kvs) => kvs | _ => [] end.
Lemma membersOf_doc t : match parseDoc t with Some (JObj _) => true | _ => false end = true -> jdoc (JObj (membersOf t)) t.
Proof. intros H. apply parseDoc_iff. unfold membersOf. destruct (parseDoc t) as [[]|]; try discriminate. auto. Qed.
Lemma nodeIs_dec t j : match setAll setNode (membersOf t) zeroNode with Some x => sameNode x j | None => false end = true -> nodeIs (membersOf t) j.
Proof. intros H. apply setNode_all. destruct (setAll setNode (membersOf t) zeroNode); [|discriminate]. f_equal. apply sameNode_eq. auto. Qed.
Lemma nodeIs_fun kvs j j' : nodeIs kvs j -> nodeIs kvs j' -> j = j'.
Proof. intros H H'. apply setNode_all in H, H'. congruence. Qed.
Definition exLeafNode : JSONNode := MkJ 1 5 None 0 (fdec 1 1) true fzero 0 0 1 (fdec 1 4) true.
Lemma ex_file : exists kvs kvs', jdoc (JObj kvs) (jl exLeaf) /\ jdoc (JObj kvs') (jl exLeaf2) /\ ~ In NL (jl exLeaf) /\ ~ In NL (jl exLeaf2) /\
  noHeading (jl exLeaf) /\ noHeading (jl exLeaf2) /\ (forall j, nodeIs kvs j <-> nodeIs kvs' j) /\ length kvs <> length kvs' /\
  exists M, UnJSONMultiClass (goCodec goFmt) env0 (exHead ++ NL :: jl exLeaf ++ NL :: exTail) true = Ok (Some M) /\ length (concat (mc_b M)) = 2%nat.
Proof.
  exists (membersOf (jl exLeaf)), (membersOf (jl exLeaf2)).
  assert (HNL : forall t, forallb (fun c => negb (Ascii.eqb c NL)) t = true -> ~ In NL t).
  { intros t H HI. rewrite forallb_forall in H. apply H in HI. rewrite Ascii.eqb_refl in HI. discriminate. }
  split; [apply membersOf_doc; vm_compute; reflexivity|]. split; [apply membersOf_doc; vm_compute; reflexivity|].
  split; [apply HNL; vm_compute; reflexivity|]. split; [apply HNL; vm_compute; reflexivity|].
  split; [split; vm_compute; reflexivity|]. split; [split; vm_compute; reflexivity|].
  assert (H1 : nodeIs (membersOf (jl exLeaf)) exLeafNode) by (apply nodeIs_dec; vm_compute; reflexivity).
  assert (H2 : nodeIs (membersOf (jl exLeaf2)) exLeafNode) by (apply nodeIs_dec; vm_compute; reflexivity).
  split. { intros j. split; intros H; [rewrite (nodeIs_fun _ _ _ H H1)|rewrite (nodeIs_fun _ _ _ H H2)]; auto. }
  split; [vm_compute; discriminate|].
  assert (HB : match UnJSONMultiClass (goCodec goFmt) env0 (exHead ++ NL :: jl exLeaf ++ NL :: exTail) true with
    Ok (Some M) => (length (concat (mc_b M)) =? 2)%nat | _ => false end = true) by (vm_compute; reflexivity).
  destruct (UnJSONMultiClass (goCodec goFmt) env0 (exHead ++ NL :: jl exLeaf ++ NL :: exTail) true) as [[M|]| |]; try discriminate.
  exists M. split; auto. apply Nat.eqb_eq. auto.
Qed.
