(** Support for the theorems about JSON: what the writer writes is read back; [goCodec] satisfies [CodecOk]. *)
From Coq Require Import Ascii String Reals Lra.
From Verif Require Import Base F64 Env F64Lemmas Utils Tree Options Train Text Json Readers GoJson SpecGoJson GoJsonNum GoJsonStr GoJsonVal GoJsonRec.
From Coq Require Import List.
Open Scope Z_scope.

Lemma joinC_cons t l : l <> [] -> joinC (t :: l) = t ++ ","%char :: joinC l.
Proof. destruct l; [congruence|reflexivity]. Qed.
Definition memOk (m : text * jval * text) : Prop := strBody (fst (fst m)) /\ jtext (snd (fst m)) (snd m).
Lemma memOk_intro raw v t : strBody raw -> jtext v t -> memOk (raw, v, t).
Proof. intros; split; auto. Qed.
Definition memKV (m : text * jval * text) : text * jval := (unquote (fst (fst m)), snd (fst m)).
Definition memTx (m : text * jval * text) : text * text := (fst (fst m), snd m).
Lemma members_join l : l <> [] -> Forall memOk l -> jmembers (map memKV l) (joinC (map memberText (map memTx l))).
Proof.
  induction l as [|[[raw v] t] l IH]; [congruence|]. intros _ HF. inversion HF as [|? ? [HB HT] HF']; subst. cbn [fst snd] in HB, HT.
  destruct l as [|m l].
  - cbn [map joinC]. unfold memberText, memTx, memKV. cbn [fst snd].
    pose proof (jm_one raw v t [] [] [] [] (Forall_nil _) HB (Forall_nil _) (Forall_nil _) HT (Forall_nil _)) as H. cbn [app] in H. rewrite app_nil_r in H. exact H.
  - cbn [map]. rewrite joinC_cons by discriminate. 
    pose proof (jm_more raw v t [] [] [] [] _ _ (Forall_nil _) HB (Forall_nil _) (Forall_nil _) HT (Forall_nil _) (IH ltac:(discriminate) HF')) as H. cbn [app] in H.
    unfold memberText at 1, memTx at 1, memKV at 1. cbn [fst snd]. cbn [app]. rewrite <- !app_assoc. cbn [app]. exact H.
Qed.
Lemma obj_text l : l <> [] -> Forall memOk l -> jtext (JObj (map memKV l)) (objText (map memTx l)).
Proof. intros H1 H2. apply jt_obj. apply members_join; auto. Qed.
Lemma elems_join l : l <> [] -> jelems (map (fun z => JNum (decZ z)) l) (joinC (map decZ l)).
Proof.
  assert (HJ : forall z, jtext (JNum (decZ z)) (decZ z)) by (intros z; constructor; apply (intIs_num _ z), dec_intIs).
  induction l as [|z l IH]; [congruence|]. intros _. destruct l as [|z2 l].
  - pose proof (je_one _ _ [] [] (Forall_nil _) (HJ z) (Forall_nil _)) as H. cbn [app] in H. rewrite app_nil_r in H. exact H.
  - cbn [map]. rewrite joinC_cons by discriminate. apply (je_more _ _ [] [] _ _ (Forall_nil _) (HJ z) (Forall_nil _)). apply IH. discriminate.
Qed.
Lemma ints_text l : jtext (JArr (map (fun z => JNum (decZ z)) l)) (intsText l).
Proof.
  destruct l as [|z l]; [apply (jt_arr0 []); constructor|]. apply jt_arr. apply elems_join. discriminate.
Qed.
Lemma toInt_dec z : toInt (JNum (decZ z)) = Some z.
Proof. apply parseInt_iff, dec_intIs. Qed.
Lemma toUint_dec z : 0 <= z -> toUint (JNum (decZ z)) = Some z.
Proof. intros H. apply parseUint_iff. destruct (dec_intPart z H) as [H1 H2]. split; auto. Qed.
Lemma toInts_dec l : toInts (JArr (map (fun z => JNum (decZ z)) l)) = Some l.
Proof.
  cbn [toInts]. induction l as [|z l IH]; [reflexivity|]. cbn [map toIntsL]. rewrite toInt_dec, IH. auto.
Qed.
Lemma num_dec z : jtext (JNum (decZ z)) (decZ z).
Proof. constructor. apply (intIs_num _ z), dec_intIs. Qed.
Lemma bool_text b : jtext (JBool b) (boolText b).
Proof. destruct b; constructor. Qed.
Lemma setAll_cons {A} (set : A -> text * jval -> option A) kv kvs z :
  setAll set (kv :: kvs) z = match set z kv with Some a => setAll set kvs a | None => None end.
Proof.
  unfold setAll. cbn [fold_left]. destruct (set z kv); [auto|]. induction kvs as [|kv2 kvs IH]; auto.
Qed.
Ltac keys := repeat match goal with |- context [sameKey (tx ?a) (tx ?b)] => let v := eval vm_compute in (sameKey (tx a) (tx b)) in change (sameKey (tx a) (tx b)) with v end; cbv iota.
Ltac unq := repeat match goal with |- context [unquote (tx ?a)] => change (unquote (tx a)) with (tx a) end.
Lemma plain_body s : forallb (fun c => between 65 122 c && negb (Ascii.eqb c BS)) (tx s) = true -> strBody (tx s).
Proof.
  induction (tx s) as [|c t IH]; intros H; [constructor|]. cbn [forallb] in H. apply andb_true_iff in H as [H1 H2]. apply andb_true_iff in H1 as [H1 H3].
  apply betweenT in H1. apply negb_true_iff, Ascii.eqb_neq in H3. apply sb_char; auto; [lia|]. intros ->. vm_compute in H1. destruct H1; congruence.
Qed.

Section Fmt.
Context (fmt : f64 -> text) (HF : FmtOk fmt).
Lemma float_text x : jtext (JNum (floatText fmt x)) (floatText fmt x).
Proof.
  constructor. unfold floatText. destruct (is_finite x) eqn:E; [apply HF; auto|]. apply (intIs_num _ 0). apply (dec_intIs 0).
Qed.
Lemma toFloat_text x : is_finite x = true -> toFloat (JNum (floatText fmt x)) = Some x.
Proof. intros E. unfold floatText. rewrite E. apply HF. auto. Qed.

Lemma samples_text o : jtext (samplesVal o) (match o with None => tx "null" | Some l => intsText l end).
Proof. destruct o; [exact (ints_text l)|constructor]. Qed.
Lemma node_text j : jtext (JObj (nodeMembers (floatText fmt) j)) (nodeText fmt j).
Proof.
  set (l := [(tx "Id", JNum (decZ (j_id j)), decZ (j_id j)); (tx "Nsamples", JNum (decZ (j_nsamples j)), decZ (j_nsamples j));
    (tx "Samples", samplesVal (j_samples j), match j_samples j with None => tx "null" | Some l => intsText l end);
    (tx "SplitFeatureIndex", JNum (decZ (j_split j)), decZ (j_split j)); (tx "BestScoreSoFar", JNum (floatText fmt (j_best j)), floatText fmt (j_best j));
    (tx "Leaf", JBool (j_leaf j), boolText (j_leaf j)); (tx "Threshold", JNum (floatText fmt (j_thr j)), floatText fmt (j_thr j));
    (tx "Leftid", JNum (decZ (j_left j)), decZ (j_left j)); (tx "Rightid", JNum (decZ (j_right j)), decZ (j_right j));
    (tx "Branches", JNum (decZ (j_branches j)), decZ (j_branches j)); (tx "Value", JNum (floatText fmt (j_value j)), floatText fmt (j_value j));
    (tx "XGB", JBool (j_xgb j), boolText (j_xgb j))]).
  assert (H : jtext (JObj (map memKV l)) (objText (map memTx l))).
  { apply obj_text; [discriminate|]. unfold l.
    repeat (apply Forall_cons; [split; cbn [fst snd]; [apply plain_body; reflexivity|first [apply num_dec|apply float_text|apply bool_text|apply samples_text]]|]). constructor. }
  exact H.
Qed.
Lemma node_set j : finiteNode j = true -> 0 <= j_id j -> 0 <= j_left j -> 0 <= j_right j -> setAll setNode (nodeMembers (floatText fmt) j) zeroNode = Some j.
Proof.
  intros HFin H1 H2 H3. unfold finiteNode, ffinite in HFin. apply andb_true_iff in HFin as [HFin F3]. apply andb_true_iff in HFin as [F1 F2].
  destruct j as [id ns sm sf bs lf th le ri br va xg]. cbn [j_id j_nsamples j_samples j_split j_best j_leaf j_thr j_left j_right j_branches j_value j_xgb] in *.
  unfold nodeMembers, zeroNode. cbn [j_id j_nsamples j_samples j_split j_best j_leaf j_thr j_left j_right j_branches j_value j_xgb].
  rewrite setAll_cons. unfold setNode at 1. keys. unfold store at 1. rewrite toUint_dec by auto.
  rewrite setAll_cons. unfold setNode at 1. keys. unfold store at 1. rewrite toInt_dec.
  rewrite setAll_cons. unfold setNode at 1. keys.
  assert (HS : store (fun x => MkJ id ns (Some x) 0 fzero false fzero 0 0 0 fzero false) (samplesVal sm) toInts (MkJ id ns None 0 fzero false fzero 0 0 0 fzero false)
    = Some (MkJ id ns sm 0 fzero false fzero 0 0 0 fzero false)) by (unfold store; destruct sm; cbn [samplesVal]; unfold intsVal; [rewrite toInts_dec|]; reflexivity).
  rewrite HS.
  rewrite setAll_cons. unfold setNode at 1. keys. unfold store at 1. rewrite toInt_dec.
  rewrite setAll_cons. unfold setNode at 1. keys. unfold store at 1. rewrite toFloat_text by auto.
  rewrite setAll_cons. unfold setNode at 1. keys. unfold store at 1. cbn [toBool].
  rewrite setAll_cons. unfold setNode at 1. keys. unfold store at 1. rewrite toFloat_text by auto.
  rewrite setAll_cons. unfold setNode at 1. keys. unfold store at 1. rewrite toUint_dec by auto.
  rewrite setAll_cons. unfold setNode at 1. keys. unfold store at 1. rewrite toUint_dec by auto.
  rewrite setAll_cons. unfold setNode at 1. keys. unfold store at 1. rewrite toInt_dec.
  rewrite setAll_cons. unfold setNode at 1. keys. unfold store at 1. rewrite toFloat_text by auto.
  rewrite setAll_cons. unfold setNode at 1. keys. unfold store at 1. cbn [toBool]. reflexivity.
Qed.
Lemma labels_text l : jtext (labelsVal l) (match l with [] => tx "null" | z :: l' => intsText (z :: l') end).
Proof. destruct l; [constructor|exact (ints_text (z :: l))]. Qed.
Lemma name_text t : jtext (JStr (sanitize t)) (DQ :: quote t ++ [DQ]).
Proof. destruct (quote_spec t) as (H1 & _ & <-). constructor. auto. Qed.
Lemma meta_text m : jtext (JObj (metaMembers (floatText fmt) (MkMeta (jm_lr m) (jm_labels m) (sanitize (jm_name m)) (jm_base m)))) (metaText fmt m).
Proof.
  set (l := [(tx "LearningRate", JNum (floatText fmt (jm_lr m)), floatText fmt (jm_lr m));
    (tx "ClassLabels", labelsVal (jm_labels m), match jm_labels m with [] => tx "null" | l => intsText l end);
    (tx "ProbTransformName", JStr (sanitize (jm_name m)), DQ :: quote (jm_name m) ++ [DQ]); (tx "BaseScore", JNum (floatText fmt (jm_base m)), floatText fmt (jm_base m))]).
  assert (H : jtext (JObj (map memKV l)) (objText (map memTx l))).
  { apply obj_text; [discriminate|]. unfold l.
    apply Forall_cons; [apply memOk_intro; [apply plain_body; reflexivity|apply float_text]|].
    apply Forall_cons; [apply memOk_intro; [apply plain_body; reflexivity|apply labels_text]|].
    apply Forall_cons; [apply memOk_intro; [apply plain_body; reflexivity|apply name_text]|].
    apply Forall_cons; [apply memOk_intro; [apply plain_body; reflexivity|apply float_text]|constructor]. }
  exact H.
Qed.
Lemma meta_set m : finiteMeta m = true -> setAll setMeta (metaMembers (floatText fmt) (MkMeta (jm_lr m) (jm_labels m) (sanitize (jm_name m)) (jm_base m))) zeroMeta = Some (MkMeta (jm_lr m) (jm_labels m) (sanitize (jm_name m)) (jm_base m)).
Proof.
  intros HFin. unfold finiteMeta, ffinite in HFin. apply andb_true_iff in HFin as [F1 F2]. destruct m as [lr cl pn bs]. cbn [jm_lr jm_labels jm_name jm_base] in *.
  unfold metaMembers, zeroMeta. cbn [jm_lr jm_labels jm_name jm_base].
  rewrite setAll_cons. unfold setMeta at 1. keys. unfold store at 1. rewrite toFloat_text by auto.
  rewrite setAll_cons. unfold setMeta at 1. keys.
  assert (HS : store (fun x => MkMeta lr x [] fzero) (labelsVal cl) toInts (MkMeta lr [] [] fzero) = Some (MkMeta lr cl [] fzero)).
  { unfold store. destruct cl as [|z cl]; cbn [labelsVal]; [reflexivity|]. unfold intsVal. rewrite toInts_dec. reflexivity. }
  rewrite HS.
  rewrite setAll_cons. unfold setMeta at 1. keys. unfold store at 1. cbn [toStr].
  rewrite setAll_cons. unfold setMeta at 1. keys. unfold store at 1. rewrite toFloat_text by auto. reflexivity.
Qed.

(** ** Characters that do not occur *)
Definition plainCh (c : ascii) : Prop := numChar c = true \/ In c (tx "truefalsn[],") \/ In c (concat nodeFields) \/ In c [DQ; ":"%char; "{"%char; "}"%char].
Lemma dec_ch z c : In c (decZ z) -> plainCh c.
Proof. intros H. left. eapply numText_chars; [|exact H]. apply (intIs_num _ z), dec_intIs. Qed.
Lemma join_ch l c : In c (joinC l) -> c = ","%char \/ exists t, In t l /\ In c t.
Proof.
  induction l as [|t l IH]; [intros []|]. destruct l as [|t2 l].
  - intros H. right. exists t. split; [left; auto|auto].
  - rewrite joinC_cons by discriminate. intros H. apply in_app_iff in H as [H|[H|H]]; [right; exists t; split; [left; auto|auto]|auto|].
    apply IH in H as [H|(t' & H1 & H2)]; [auto|right; exists t'; split; [right; auto|auto]].
Qed.
Lemma float_ch x c : In c (floatText fmt x) -> plainCh c.
Proof. intros H. left. eapply numText_chars; [|exact H]. pose proof (float_text x) as J. inversion J; auto. Qed.
Lemma bool_ch b c : In c (boolText b) -> plainCh c.
Proof. intros H. right. left. destruct b; cbn in H; repeat (destruct H as [<-|H]; [cbn; tauto|]); destruct H. Qed.
Lemma samples_ch o c : In c (match o with None => tx "null" | Some l => intsText l end) -> plainCh c.
Proof.
  destruct o as [l|].
  - intros H. destruct H as [<-|H]; [right; left; cbn; tauto|]. apply in_app_iff in H as [H|[<-|[]]]; [|right; left; cbn; tauto].
    apply join_ch in H as [->|(t & H1 & H2)]; [right; left; cbn; tauto|]. apply in_map_iff in H1 as (z & <- & _). eapply dec_ch; eauto.
  - intros H. right. left. cbn in H; repeat (destruct H as [<-|H]; [cbn; tauto|]); destruct H.
Qed.
Lemma node_ch j c : In c (nodeText fmt j) -> plainCh c.
Proof.
  unfold nodeText, objText. intros [<-|H]; [right; right; right; cbn; tauto|]. apply in_app_iff in H as [H|[<-|[]]]; [|right; right; right; cbn; tauto].
  apply join_ch in H as [->|(t & H1 & H2)]; [right; left; cbn; tauto|]. apply in_map_iff in H1 as ((k & v) & <- & H1). unfold memberText in H2. cbn [fst snd] in H2.
  assert (HK : In k nodeFields /\ forall x, In x v -> plainCh x).
  { repeat (destruct H1 as [H1|H1]; [injection H1 as <- <-; split; [unfold nodeFields; repeat (first [left; reflexivity|right])|intros x; first [apply dec_ch|apply float_ch|apply bool_ch|apply samples_ch]]|]). destruct H1. }
  destruct HK as [HK HV]. destruct H2 as [<-|H2]; [right; right; right; cbn; tauto|]. apply in_app_iff in H2 as [H2|[<-|[<-|H2]]].
  - right. right. left. apply in_concat. eauto.
  - right; right; right; cbn; tauto.
  - right; right; right; cbn; tauto.
  - auto.
Qed.
Lemma absent c : forallb (fun d => negb (Ascii.eqb c d)) (tx "truefalsn[]," ++ concat nodeFields ++ [DQ; ":"%char; "{"%char; "}"%char]) = true -> numChar c = false -> forall j, ~ In c (nodeText fmt j).
Proof.
  intros H HN j HI. apply node_ch in HI. rewrite forallb_forall in H.
  assert (G : In c (tx "truefalsn[]," ++ concat nodeFields ++ [DQ; ":"%char; "{"%char; "}"%char]) -> False).
  { intros HI'. apply H in HI'. rewrite Ascii.eqb_refl in HI'. discriminate HI'. }
  destruct HI as [HI|HI]; [congruence|]. apply G. rewrite !in_app_iff. tauto.
Qed.
Lemma contains_absent s p c : In c p -> ~ In c s -> containsT s p = false.
Proof.
  intros Hp Hs. destruct (containsT s p) eqn:E; auto. apply containsT_iff in E as (a & b & ->). exfalso. apply Hs. rewrite !in_app_iff. auto.
Qed.
Lemma meta_nl m : ~ In NL (metaText fmt m).
Proof.
  unfold metaText, objText. intros [E|H]; [discriminate E|]. apply in_app_iff in H as [H|[E|[]]]; [|discriminate E].
  apply join_ch in H as [E|(t & H1 & H2)]; [discriminate E|]. apply in_map_iff in H1 as ((k & v) & <- & H1). unfold memberText in H2. cbn [fst snd] in H2.
  assert (HK : ~ In NL k /\ ~ In NL v).
  { assert (HP : forall v, (forall x, In x v -> plainCh x) -> ~ In NL v).
    { intros v' Hv HI. apply Hv in HI. destruct HI as [HI|[HI|[HI|HI]]]; [discriminate HI|..]; vm_compute in HI; repeat (destruct HI as [HI|HI]; [discriminate HI|]); destruct HI. }
    assert (HKk : forall f, In f metaFields -> ~ In NL f).
    { intros f Hf HI. repeat (destruct Hf as [<-|Hf]; [vm_compute in HI; repeat (destruct HI as [HI|HI]; [discriminate HI|]); destruct HI|]). destruct Hf. }
    destruct H1 as [H1|[H1|[H1|[H1|[]]]]]; injection H1 as <- <-; (split; [apply HKk; unfold metaFields; repeat (first [left; reflexivity|right])|]).
    - apply HP. apply float_ch.
    - apply HP. intros x Hx. apply (samples_ch (match jm_labels m with [] => None | l => Some l end)). destruct (jm_labels m); exact Hx.
    - intros [E|HI]; [discriminate E|]. apply in_app_iff in HI as [HI|[E|[]]]; [|discriminate E]. apply (quote_spec (jm_name m)). exact HI.
    - apply HP. apply float_ch. }
  destruct HK as [HK HV]. destruct H2 as [E|H2]; [discriminate E|]. apply in_app_iff in H2 as [H2|[E|[E|H2]]]; try discriminate E; auto.
Qed.
Lemma nl_doc v t : jtext v t -> jdoc v (t ++ [NL]).
Proof. intros H. exists [], t, [NL]. split; [constructor|]. split; auto. split; [|reflexivity]. constructor; [|constructor]. right. right. left. reflexivity. Qed.
Lemma goCodec_ok : CodecOk (goCodec fmt).
Proof.
  constructor; cbn [goCodec c_node c_unnode c_meta c_unmeta].
  - intros j H1 H2 H3 H4. apply unRec_iff. right. exists (nodeMembers (floatText fmt) j). split; [apply nl_doc, node_text|apply node_set; auto].
  - intros m H. exists (MkMeta (jm_lr m) (jm_labels m) (sanitize (jm_name m)) (jm_base m)). split.
    + apply unRec_iff. right. exists (metaMembers (floatText fmt) (MkMeta (jm_lr m) (jm_labels m) (sanitize (jm_name m)) (jm_base m))). split; [apply nl_doc, meta_text|apply meta_set; auto].
    + cbn [jm_lr jm_labels jm_name jm_base]. repeat split; auto; apply sanitize_is_ascii; repeat (constructor; [reflexivity|]); constructor.
  - apply absent; reflexivity.
  - apply meta_nl.
  - intros j. apply (contains_absent _ _ "U"%char); [cbn; tauto|apply absent; reflexivity].
  - intros j. apply (contains_absent _ _ "A"%char); [cbn; tauto|apply absent; reflexivity].
Qed.
Lemma node_members_fin j : finiteNode j = true -> nodeMembers (floatText fmt) j = nodeMembers fmt j.
Proof.
  unfold finiteNode, ffinite. intros H. apply andb_true_iff in H as [H F3]. apply andb_true_iff in H as [F1 F2]. unfold nodeMembers, floatText. rewrite F1, F2, F3. auto.
Qed.
Lemma meta_members_fin m : finiteMeta m = true -> metaMembers (floatText fmt) m = metaMembers fmt m.
Proof. unfold finiteMeta, ffinite. intros H. apply andb_true_iff in H as [F1 F2]. unfold metaMembers, floatText. rewrite F1, F2. auto. Qed.
Lemma node_written j : finiteNode j = true -> jtext (JObj (nodeMembers fmt j)) (c_node (goCodec fmt) j).
Proof. intros H. rewrite <- node_members_fin by auto. apply node_text. Qed.
Lemma meta_written m : finiteMeta m = true -> utf8T (jm_name m) -> jtext (JObj (metaMembers fmt m)) (c_meta (goCodec fmt) m).
Proof.
  intros H HU. pose proof (meta_text m) as HT. rewrite (sanitize_utf8 _ HU) in HT. rewrite <- meta_members_fin by auto. destruct m; exact HT.
Qed.
Lemma meta_back m : finiteMeta m = true -> utf8T (jm_name m) -> c_unmeta (goCodec fmt) (c_meta (goCodec fmt) m ++ [NL]) = Some m.
Proof.
  intros H HU. apply unRec_iff. right. eexists. split; [apply nl_doc, meta_text|]. rewrite meta_set by auto. rewrite (sanitize_utf8 _ HU). destruct m; reflexivity.
Qed.
End Fmt.
