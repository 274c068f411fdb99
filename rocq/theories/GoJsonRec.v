(** Support for the theorems about JSON: the records, and [goCodec] is a codec. *)
From Coq Require Import Ascii String Reals Lra Permutation.
From Verif Require Import Base F64 Env F64Lemmas Utils Tree Options Train Text Json Readers GoJson SpecGoJson GoJsonNum GoJsonStr GoJsonVal.
From Coq Require Import List.
Open Scope Z_scope.

(** ** Fields one member at a time *)
Lemma sameKey_iff k f : sameKey k f = true <-> foldName k = foldName f.
Proof. unfold sameKey. apply text_eqb_iff. Qed.
Definition fstep {A} (conv : jval -> option A) (f : text) (x : A) (kv : text * jval) : option A :=
  if sameKey (fst kv) f then store (fun a => a) (snd kv) conv x else Some x.
Definition sstep (f : text) (x : option (list Z)) (kv : text * jval) : option (option (list Z)) :=
  if sameKey (fst kv) f then store Some (snd kv) toInts None else Some x.
Lemma lastVal_snoc f kvs k v : lastVal f (kvs ++ [(k, v)]) = if sameKey k f && negb (isNull v) then Some v else lastVal f kvs.
Proof. unfold lastVal. rewrite filter_app. cbn [filter fst snd]. destruct (_ && _); [rewrite rev_app_distr; reflexivity|rewrite app_nil_r; auto]. Qed.
Lemma lastAny_snoc f kvs k v : lastAny f (kvs ++ [(k, v)]) = if sameKey k f then Some v else lastAny f kvs.
Proof. unfold lastAny. rewrite filter_app. cbn [filter fst snd]. destruct (sameKey k f); [rewrite rev_app_distr; reflexivity|rewrite app_nil_r; auto]. Qed.
Lemma lastVal_in f kvs v : lastVal f kvs = Some v -> exists k, In (k, v) kvs /\ sameKey k f = true /\ v <> JNull.
Proof.
  unfold lastVal. destruct (rev _) as [|[k w] l] eqn:E; [discriminate|]. cbn. intros [= <-]. exists k.
  assert (H : In (k, w) (rev (filter (fun kv => sameKey (fst kv) f && negb (isNull (snd kv))) kvs))) by (rewrite E; left; auto).
  apply in_rev, filter_In in H as [H1 H2]. cbn in H2. apply andb_true_iff in H2 as [H2 H3]. repeat split; auto. intros ->. discriminate H3.
Qed.
Lemma lastAny_in f kvs v : lastAny f kvs = Some v -> exists k, In (k, v) kvs /\ sameKey k f = true.
Proof.
  unfold lastAny. destruct (rev _) as [|[k w] l] eqn:E; [discriminate|]. cbn. intros [= <-]. exists k.
  assert (H : In (k, w) (rev (filter (fun kv => sameKey (fst kv) f) kvs))) by (rewrite E; left; auto).
  apply in_rev, filter_In in H as [H1 H2]. auto.
Qed.
Lemma fieldIs_snoc {A} (conv : jval -> option A) zero f kvs kv x' :
  fieldIs conv zero f (kvs ++ [kv]) x' <-> exists x, fieldIs conv zero f kvs x /\ fstep conv f x kv = Some x'.
Proof.
  destruct kv as [k v]. unfold fieldIs, fstep. rewrite lastVal_snoc. cbn [fst snd]. split.
  - intros [HT HL].
    assert (HT' : forall k0 v0, In (k0, v0) kvs -> sameKey k0 f = true -> v0 <> JNull -> conv v0 <> None) by (intros; eapply HT; eauto; apply in_app_iff; auto).
    assert (HX : exists x, match lastVal f kvs with Some w => conv w = Some x | None => x = zero end).
    { destruct (lastVal f kvs) as [w|] eqn:EL; [|eauto]. apply lastVal_in in EL as (k0 & H1 & H2 & H3). specialize (HT' _ _ H1 H2 H3). destruct (conv w); [eauto|congruence]. }
    destruct (sameKey k f) eqn:EK; cbn [andb] in HL.
    + destruct v; cbn [isNull negb] in HL; unfold store; try (destruct HX as (x & HX); exists x; rewrite HL; auto; fail); exists x'; auto.
    + exists x'. auto.
  - intros (x & [HT HL] & HS). destruct (sameKey k f) eqn:EK; cbn [andb].
    + split.
      * intros k0 v0 Hin Hk Hv. apply in_app_iff in Hin as [Hin|[Hin|[]]]; [eauto|]. injection Hin as <- <-. unfold store in HS.
        destruct v; try congruence; match goal with |- conv ?w <> None => destruct (conv w); discriminate || (discriminate HS) end.
      * unfold store in HS. destruct v; cbn [isNull negb]; try (match goal with |- conv ?w = _ => destruct (conv w); [injection HS as ->; auto|discriminate HS] end). injection HS as <-. auto.
    + injection HS as <-. split; auto. intros k0 v0 Hin Hk Hv. apply in_app_iff in Hin as [Hin|[Hin|[]]]; [eauto|]. injection Hin as <- <-. congruence.
Qed.
Lemma sliceIs_snoc f kvs kv x' : sliceIs f (kvs ++ [kv]) x' <-> exists x, sliceIs f kvs x /\ sstep f x kv = Some x'.
Proof.
  destruct kv as [k v]. unfold sliceIs, sstep. rewrite lastAny_snoc. cbn [fst snd]. split.
  - intros [HT HL].
    assert (HT' : forall k0 v0, In (k0, v0) kvs -> sameKey k0 f = true -> v0 <> JNull -> toInts v0 <> None) by (intros; eapply HT; eauto; apply in_app_iff; auto).
    assert (HX : exists x, match lastAny f kvs with Some JNull => x = None | Some w => exists l, toInts w = Some l /\ x = Some l | None => x = None end).
    { destruct (lastAny f kvs) as [w|] eqn:EL; [|eauto]. apply lastAny_in in EL as (k0 & H1 & H2).
      destruct w; try (eauto; fail); match goal with |- exists x, exists l, toInts ?w = _ /\ _ => assert (H3 : w <> JNull) by discriminate; specialize (HT' _ _ H1 H2 H3); destruct (toInts w); [eauto|congruence] end. }
    destruct HX as (x & HX). destruct (sameKey k f) eqn:EK.
    + exists x. split; auto. unfold store. destruct v; try (destruct HL as (l0 & E0 & ->); cbn in E0 |- *; solve [discriminate E0|rewrite E0; reflexivity]). subst x'. auto.
    + exists x'. auto.
  - intros (x & [HT HL] & HS). destruct (sameKey k f) eqn:EK.
    + split.
      * intros k0 v0 Hin Hk Hv. apply in_app_iff in Hin as [Hin|[Hin|[]]]; [eauto|]. injection Hin as <- <-. unfold store in HS.
        destruct v; try congruence; match goal with |- toInts ?w <> None => destruct (toInts w); discriminate || (discriminate HS) end.
      * unfold store in HS. destruct v; try (match goal with |- exists l, toInts ?w = _ /\ _ => destruct (toInts w); [injection HS as <-; eauto|discriminate HS] end). injection HS as <-. auto.
    + injection HS as <-. split; auto. intros k0 v0 Hin Hk Hv. apply in_app_iff in Hin as [Hin|[Hin|[]]]; [eauto|]. injection Hin as <- <-. congruence.
Qed.
Definition nodeSteps (j j' : JSONNode) (kv : text * jval) : Prop :=
  fstep toUint (tx "Id") (j_id j) kv = Some (j_id j') /\ fstep toInt (tx "Nsamples") (j_nsamples j) kv = Some (j_nsamples j') /\
  sstep (tx "Samples") (j_samples j) kv = Some (j_samples j') /\ fstep toInt (tx "SplitFeatureIndex") (j_split j) kv = Some (j_split j') /\
  fstep toFloat (tx "BestScoreSoFar") (j_best j) kv = Some (j_best j') /\ fstep toBool (tx "Leaf") (j_leaf j) kv = Some (j_leaf j') /\
  fstep toFloat (tx "Threshold") (j_thr j) kv = Some (j_thr j') /\ fstep toUint (tx "Leftid") (j_left j) kv = Some (j_left j') /\
  fstep toUint (tx "Rightid") (j_right j) kv = Some (j_right j') /\ fstep toInt (tx "Branches") (j_branches j) kv = Some (j_branches j') /\
  fstep toFloat (tx "Value") (j_value j) kv = Some (j_value j') /\ fstep toBool (tx "XGB") (j_xgb j) kv = Some (j_xgb j').
Lemma key_excl k f g : sameKey k f = true -> foldName f <> foldName g -> sameKey k g = false.
Proof. intros H N. destruct (sameKey k g) eqn:E; auto. apply sameKey_iff in H, E. congruence. Qed.
Lemma store_map {A B} (set : A -> B) v conv same (b : B) :
  store set v conv same = Some b <-> (v = JNull /\ same = b) \/ (v <> JNull /\ exists a, conv v = Some a /\ set a = b).
Proof.
  unfold store. split.
  - destruct v; try (match goal with |- context [conv ?w] => destruct (conv w) eqn:E end; [intros [= <-]; right; split; [discriminate|eauto]|discriminate]). intros [= <-]. auto.
  - intros [[-> ->]|[HN (a & HA & <-)]]; auto. destruct v; try congruence; rewrite HA; auto.
Qed.
Ltac onKey k name := destruct (sameKey k (tx name)) eqn:?E.
Ltac exclAll E := repeat match goal with |- context [sameKey ?k (tx ?g)] => rewrite (key_excl k _ (tx g) E) by (intros ?X; discriminate) end.
Ltac finStore :=
  rewrite !store_map; split;
  [ intros [[-> HQ]|[HN (a & HA & HQ)]]; [injection HQ as <-|injection HQ as <-]; subst; repeat split; auto; (left; auto; fail) || (right; split; [auto|eauto])
  | intros HC; repeat match goal with H : _ /\ _ |- _ => destruct H end;
    repeat match goal with H : Some _ = Some _ |- _ => injection H as H; subst end;
    match goal with H : (_ /\ _) \/ _ |- _ => destruct H as [[-> ?X]|[?HN (?a & ?HA & ?X)]]; subst; [left; auto|right; split; [auto|eauto]] end ].
Lemma setNode_steps j kv j' : setNode j kv = Some j' <-> nodeSteps j j' kv.
Proof.
  destruct kv as [k v]. destruct j as [id ns sm sf bs lf th le ri br va xg]. destruct j' as [id' ns' sm' sf' bs' lf' th' le' ri' br' va' xg'].
  unfold nodeSteps, fstep, sstep, setNode. cbn [fst snd j_id j_nsamples j_samples j_split j_best j_leaf j_thr j_left j_right j_branches j_value j_xgb].
  onKey k "Id"%string; [exclAll E; finStore|].
  onKey k "Nsamples"%string; [exclAll E0; finStore|].
  onKey k "Samples"%string; [exclAll E1; finStore|].
  onKey k "SplitFeatureIndex"%string; [exclAll E2; finStore|].
  onKey k "BestScoreSoFar"%string; [exclAll E3; finStore|].
  onKey k "Leaf"%string; [exclAll E4; finStore|].
  onKey k "Threshold"%string; [exclAll E5; finStore|].
  onKey k "Leftid"%string; [exclAll E6; finStore|].
  onKey k "Rightid"%string; [exclAll E7; finStore|].
  onKey k "Branches"%string; [exclAll E8; finStore|].
  onKey k "Value"%string; [exclAll E9; finStore|].
  onKey k "XGB"%string; [finStore|].
  split; [intros [= <- <- <- <- <- <- <- <- <- <- <- <-]; repeat split|]. intros HC.
  repeat match goal with H : _ /\ _ |- _ => destruct H end. congruence.
Qed.
Definition metaSteps (m m' : JSONMeta) (kv : text * jval) (x x' : option (list Z)) : Prop :=
  fstep toFloat (tx "LearningRate") (jm_lr m) kv = Some (jm_lr m') /\ sstep (tx "ClassLabels") x kv = Some x' /\
  fstep toStr (tx "ProbTransformName") (jm_name m) kv = Some (jm_name m') /\ fstep toFloat (tx "BaseScore") (jm_base m) kv = Some (jm_base m').
Definition labelsOf (x : option (list Z)) : list Z := match x with Some l => l | None => [] end.
Lemma setMeta_steps m kv m' x : jm_labels m = labelsOf x -> (setMeta m kv = Some m' <-> exists x', metaSteps m m' kv x x' /\ jm_labels m' = labelsOf x').
Proof.
  destruct kv as [k v]. destruct m as [lr cl pn bs]. destruct m' as [lr' cl' pn' bs']. cbn [jm_labels]. intros Hx.
  unfold metaSteps, fstep, sstep, setMeta. cbn [fst snd jm_lr jm_labels jm_name jm_base].
  onKey k "LearningRate"%string.
  { exclAll E. rewrite !store_map. split.
    - intros [[-> HQ]|[HN (a & HA & HQ)]]; injection HQ as <- <- <- <-; exists x; (split; [|auto]); (split; [|auto]); apply store_map; [left; auto|right; split; [auto|exists a; auto]].
    - intros (x' & (H1 & H2 & H3 & H4) & H5). injection H2 as <-. injection H3 as <-. injection H4 as <-. apply store_map in H1. rewrite <- Hx in H5. subst cl'.
      destruct H1 as [[-> <-]|[HN (a & HA & <-)]]; [left; auto|right; split; [auto|exists a; auto]]. }
  onKey k "ClassLabels"%string.
  { exclAll E0. rewrite !store_map. split.
    - intros [[-> HQ]|[HN (a & HA & HQ)]]; injection HQ as <- <- <- <-; [exists None|exists (Some a)]; (split; [|auto]); (split; [auto|]); (split; [|auto]); apply store_map; [left; auto|right; split; [auto|exists a; auto]].
    - intros (x' & (H1 & H2 & H3 & H4) & H5). injection H1 as <-. injection H3 as <-. injection H4 as <-. apply store_map in H2. subst cl'.
      destruct H2 as [[-> <-]|[HN (a & HA & <-)]]; [left; auto|right; split; [auto|exists a; auto]]. }
  onKey k "ProbTransformName"%string.
  { exclAll E1. rewrite !store_map. split.
    - intros [[-> HQ]|[HN (a & HA & HQ)]]; injection HQ as <- <- <- <-; exists x; (split; [|auto]); (split; [auto|]); (split; [auto|]); (split; [|auto]); apply store_map; [left; auto|right; split; [auto|exists a; auto]].
    - intros (x' & (H1 & H2 & H3 & H4) & H5). injection H1 as <-. injection H2 as <-. injection H4 as <-. apply store_map in H3. rewrite <- Hx in H5. subst cl'.
      destruct H3 as [[-> <-]|[HN (a & HA & <-)]]; [left; auto|right; split; [auto|exists a; auto]]. }
  onKey k "BaseScore"%string.
  { rewrite !store_map. split.
    - intros [[-> HQ]|[HN (a & HA & HQ)]]; injection HQ as <- <- <- <-; exists x; (split; [|auto]); (split; [auto|]); (split; [auto|]); (split; [auto|]); apply store_map; [left; auto|right; split; [auto|exists a; auto]].
    - intros (x' & (H1 & H2 & H3 & H4) & H5). injection H1 as <-. injection H2 as <-. injection H3 as <-. apply store_map in H4. rewrite <- Hx in H5. subst cl'.
      destruct H4 as [[-> <-]|[HN (a & HA & <-)]]; [left; auto|right; split; [auto|exists a; auto]]. }
  split.
  - intros [= <- <- <- <-]. exists x. auto.
  - intros (x' & (H1 & H2 & H3 & H4) & H5). congruence.
Qed.
Lemma setAll_snoc {A} (set : A -> text * jval -> option A) kvs kv z :
  setAll set (kvs ++ [kv]) z = match setAll set kvs z with Some a => set a kv | None => None end.
Proof. unfold setAll. rewrite fold_left_app. reflexivity. Qed.
Lemma fieldIs_nil {A} (conv : jval -> option A) zero f x : fieldIs conv zero f [] x <-> x = zero.
Proof. unfold fieldIs. cbn. split; [tauto|]. intros ->. split; auto. Qed.
Lemma sliceIs_nil f x : sliceIs f [] x <-> x = None.
Proof. unfold sliceIs. cbn. split; [tauto|]. intros ->. split; auto. Qed.
Lemma setNode_all kvs : forall j, setAll setNode kvs zeroNode = Some j <-> nodeIs kvs j.
Proof.
  induction kvs as [|kv kvs IH] using rev_ind; intros j'.
  - unfold nodeIs. rewrite !fieldIs_nil, sliceIs_nil. cbn [setAll fold_left]. split; [intros [= <-]; repeat split|].
    intros (H1 & H2 & H3 & H4 & H5 & H6 & H7 & H8 & H9 & H10 & H11 & H12). destruct j'; cbn in *. subst. reflexivity.
  - rewrite setAll_snoc. unfold nodeIs. rewrite !fieldIs_snoc, sliceIs_snoc. split.
    + destruct (setAll setNode kvs zeroNode) as [j|]; [|discriminate]. intros HS. apply setNode_steps in HS. destruct (proj1 (IH j) eq_refl) as (H1 & H2 & H3 & H4 & H5 & H6 & H7 & H8 & H9 & H10 & H11 & H12).
      destruct HS as (S1 & S2 & S3 & S4 & S5 & S6 & S7 & S8 & S9 & S10 & S11 & S12). exact (conj (ex_intro _ _ (conj H1 S1)) (conj (ex_intro _ _ (conj H2 S2)) (conj (ex_intro _ _ (conj H3 S3)) (conj (ex_intro _ _ (conj H4 S4)) (conj (ex_intro _ _ (conj H5 S5)) (conj (ex_intro _ _ (conj H6 S6)) (conj (ex_intro _ _ (conj H7 S7)) (conj (ex_intro _ _ (conj H8 S8)) (conj (ex_intro _ _ (conj H9 S9)) (conj (ex_intro _ _ (conj H10 S10)) (conj (ex_intro _ _ (conj H11 S11)) (ex_intro _ _ (conj H12 S12))))))))))))).
    + intros ((x1 & H1 & S1) & (x2 & H2 & S2) & (x3 & H3 & S3) & (x4 & H4 & S4) & (x5 & H5 & S5) & (x6 & H6 & S6) & (x7 & H7 & S7) & (x8 & H8 & S8) & (x9 & H9 & S9) & (x10 & H10 & S10) & (x11 & H11 & S11) & (x12 & H12 & S12)).
      rewrite (proj2 (IH (MkJ x1 x2 x3 x4 x5 x6 x7 x8 x9 x10 x11 x12))) by exact (conj H1 (conj H2 (conj H3 (conj H4 (conj H5 (conj H6 (conj H7 (conj H8 (conj H9 (conj H10 (conj H11 H12))))))))))).
      apply setNode_steps. exact (conj S1 (conj S2 (conj S3 (conj S4 (conj S5 (conj S6 (conj S7 (conj S8 (conj S9 (conj S10 (conj S11 S12))))))))))).
Qed.
Lemma sliceIs_fun f kvs x y : sliceIs f kvs x -> sliceIs f kvs y -> x = y.
Proof.
  intros [_ H1] [_ H2]. destruct (lastAny f kvs) as [v|]; [|congruence].
  destruct v; try congruence; destruct H1 as (la & E1 & ->), H2 as (lb & E2 & ->); congruence.
Qed.
Lemma setMeta_all kvs : forall m, setAll setMeta kvs zeroMeta = Some m <-> metaIs kvs m.
Proof.
  induction kvs as [|kv kvs IH] using rev_ind; intros m'.
  - unfold metaIs. rewrite !fieldIs_nil. cbn [setAll fold_left]. split.
    + intros [= <-]. repeat split. exists None. split; [apply sliceIs_nil; auto|reflexivity].
    + intros (H1 & (x & Hx & H2) & H3 & H4). apply sliceIs_nil in Hx as ->. destruct m'; cbn in *. subst. reflexivity.
  - rewrite setAll_snoc. unfold metaIs. rewrite !fieldIs_snoc. split.
    + destruct (setAll setMeta kvs zeroMeta) as [m|]; [|discriminate]. intros HS. destruct (proj1 (IH m) eq_refl) as (H1 & (x & Hx & H2) & H3 & H4).
      apply (setMeta_steps m kv m' x H2) in HS as (x' & (S1 & S2 & S3 & S4) & S5). split; [exact (ex_intro _ _ (conj H1 S1))|]. split; [|exact (conj (ex_intro _ _ (conj H3 S3)) (ex_intro _ _ (conj H4 S4)))].
      exists x'. split; [|exact S5]. apply sliceIs_snoc. exact (ex_intro _ _ (conj Hx S2)).
    + intros ((x1 & H1 & S1) & (x' & Hx & S5) & (x3 & H3 & S3) & (x4 & H4 & S4)). apply sliceIs_snoc in Hx as (x & Hx & S2).
      rewrite (proj2 (IH (MkMeta x1 (labelsOf x) x3 x4))) by exact (conj H1 (conj (ex_intro _ x (conj Hx eq_refl)) (conj H3 H4))).
      apply (setMeta_steps _ _ _ x); [reflexivity|]. exists x'. exact (conj (conj S1 (conj S2 (conj S3 S4))) S5).
Qed.
Lemma unRec_iff {A} (set : A -> text * jval -> option A) z t a :
  unRec set z t = Some a <-> (jdoc JNull t /\ a = z) \/ exists kvs, jdoc (JObj kvs) t /\ setAll set kvs z = Some a.
Proof.
  unfold unRec. split.
  - destruct (parseDoc t) as [v|] eqn:E; [|discriminate]. apply parseDoc_iff in E. destruct v; try discriminate; [intros [= <-]; auto|eauto].
  - intros [[H ->]|(kvs & H & HS)]; apply parseDoc_iff in H; rewrite H; auto.
Qed.

(** ** Order of the members and unknown members *)
Lemma filter_split {A} (p : A -> bool) l1 x l2 : p x = false -> filter p (l1 ++ x :: l2) = filter p (l1 ++ l2).
Proof. intros H. rewrite !filter_app. cbn. rewrite H. auto. Qed.
Lemma fieldIs_unknown {A} (conv : jval -> option A) zero f a k v b x : sameKey k f = false ->
  (fieldIs conv zero f (a ++ (k, v) :: b) x <-> fieldIs conv zero f (a ++ b) x).
Proof.
  intros H. unfold fieldIs, lastVal. rewrite (filter_split _ a (k, v) b) by (cbn; rewrite H; auto).
  split; intros [HT HL]; (split; [|exact HL]); intros k0 v0 Hin Hk Hv; apply (HT k0 v0); auto; apply in_app_iff in Hin; apply in_app_iff.
  - destruct Hin; auto. right; right; auto.
  - destruct Hin as [|[E|]]; auto. injection E as <- <-. congruence.
Qed.
Lemma sliceIs_unknown f a k v b x : sameKey k f = false -> (sliceIs f (a ++ (k, v) :: b) x <-> sliceIs f (a ++ b) x).
Proof.
  intros H. unfold sliceIs, lastAny. rewrite (filter_split _ a (k, v) b) by (cbn; rewrite H; auto).
  split; intros [HT HL]; (split; [|exact HL]); intros k0 v0 Hin Hk Hv; apply (HT k0 v0); auto; apply in_app_iff in Hin; apply in_app_iff.
  - destruct Hin; auto. right; right; auto.
  - destruct Hin as [|[E|]]; auto. injection E as <- <-. congruence.
Qed.
Lemma node_unknown a k v b j : (forall f, In f nodeFields -> sameKey k f = false) -> (nodeIs (a ++ (k, v) :: b) j <-> nodeIs (a ++ b) j).
Proof.
  intros H. unfold nodeIs. rewrite !fieldIs_unknown, sliceIs_unknown by (apply H; unfold nodeFields; repeat (first [left; reflexivity|right])). reflexivity.
Qed.
Lemma meta_unknown a k v b m : (forall f, In f metaFields -> sameKey k f = false) -> (metaIs (a ++ (k, v) :: b) m <-> metaIs (a ++ b) m).
Proof.
  intros H. unfold metaIs. rewrite !fieldIs_unknown by (apply H; unfold metaFields; repeat (first [left; reflexivity|right])). setoid_rewrite sliceIs_unknown; [reflexivity|]. apply H. right; left; reflexivity.
Qed.
Lemma filter_key_one (p : text * jval -> bool) f kvs : NoDup (keysOf kvs) -> (forall kv, p kv = true -> sameKey (fst kv) f = true) ->
  (length (filter p kvs) <= 1)%nat.
Proof.
  intros HN Hp. induction kvs as [|kv kvs IH]; [cbn; lia|]. cbn [keysOf map] in HN. inversion HN as [|? ? Hnot HN']; subst. cbn [filter].
  destruct (p kv) eqn:E; [|auto]. assert (HZ : filter p kvs = []); [|rewrite HZ; cbn; lia].
  destruct (filter p kvs) as [|kv2 r] eqn:EF; auto. exfalso. apply Hnot.
  assert (Hin : In kv2 (filter p kvs)) by (rewrite EF; left; auto). apply filter_In in Hin as [Hin H2].
  apply Hp, sameKey_iff in E. apply Hp, sameKey_iff in H2. rewrite E, <- H2. apply in_map_iff. exists kv2. auto.
Qed.
Lemma perm_filter {A} (p : A -> bool) l l' : Permutation l l' -> Permutation (filter p l) (filter p l').
Proof.
  induction 1; cbn; auto.
  - destruct (p x); auto.
  - destruct (p x), (p y); auto. apply perm_swap.
  - etransitivity; eauto.
Qed.
Lemma perm_short {A} (l l' : list A) : Permutation l l' -> (length l <= 1)%nat -> l = l'.
Proof.
  intros HP HL. destruct l as [|x [|y l]]; [apply Permutation_nil in HP; auto|apply Permutation_length_1_inv in HP; auto|cbn in HL; lia].
Qed.
Lemma lastVal_perm f kvs kvs' : Permutation kvs kvs' -> NoDup (keysOf kvs) -> lastVal f kvs = lastVal f kvs'.
Proof.
  intros HP HN. unfold lastVal.
  rewrite (perm_short (filter (fun kv => sameKey (fst kv) f && negb (isNull (snd kv))) kvs) (filter (fun kv => sameKey (fst kv) f && negb (isNull (snd kv))) kvs')); auto.
  - apply perm_filter; auto.
  - apply (filter_key_one _ f); auto. intros kv H. apply andb_true_iff in H; tauto.
Qed.
Lemma lastAny_perm f kvs kvs' : Permutation kvs kvs' -> NoDup (keysOf kvs) -> lastAny f kvs = lastAny f kvs'.
Proof.
  intros HP HN. unfold lastAny.
  rewrite (perm_short (filter (fun kv => sameKey (fst kv) f) kvs) (filter (fun kv => sameKey (fst kv) f) kvs')); auto.
  - apply perm_filter; auto.
  - apply (filter_key_one _ f); auto.
Qed.
Lemma fieldIs_perm {A} (conv : jval -> option A) zero f kvs kvs' x : Permutation kvs kvs' -> NoDup (keysOf kvs) -> fieldIs conv zero f kvs x -> fieldIs conv zero f kvs' x.
Proof.
  intros HP HN [HT HL]. split; [|rewrite <- (lastVal_perm f kvs kvs'); auto].
  intros k v Hin. apply HT. eapply Permutation_in; [apply Permutation_sym; exact HP|auto].
Qed.
Lemma sliceIs_perm f kvs kvs' x : Permutation kvs kvs' -> NoDup (keysOf kvs) -> sliceIs f kvs x -> sliceIs f kvs' x.
Proof.
  intros HP HN [HT HL]. split; [|rewrite <- (lastAny_perm f kvs kvs'); auto].
  intros k v Hin. apply HT. eapply Permutation_in; [apply Permutation_sym; exact HP|auto].
Qed.
Lemma node_perm kvs kvs' j : Permutation kvs kvs' -> NoDup (keysOf kvs) -> nodeIs kvs j -> nodeIs kvs' j.
Proof.
  intros HP HN (H1 & H2 & H3 & H4 & H5 & H6 & H7 & H8 & H9 & H10 & H11 & H12).
  exact (conj (fieldIs_perm _ _ _ _ _ _ HP HN H1) (conj (fieldIs_perm _ _ _ _ _ _ HP HN H2) (conj (sliceIs_perm _ _ _ _ HP HN H3) (conj (fieldIs_perm _ _ _ _ _ _ HP HN H4)
    (conj (fieldIs_perm _ _ _ _ _ _ HP HN H5) (conj (fieldIs_perm _ _ _ _ _ _ HP HN H6) (conj (fieldIs_perm _ _ _ _ _ _ HP HN H7) (conj (fieldIs_perm _ _ _ _ _ _ HP HN H8)
    (conj (fieldIs_perm _ _ _ _ _ _ HP HN H9) (conj (fieldIs_perm _ _ _ _ _ _ HP HN H10) (conj (fieldIs_perm _ _ _ _ _ _ HP HN H11) (fieldIs_perm _ _ _ _ _ _ HP HN H12)))))))))))).
Qed.
Lemma meta_perm kvs kvs' m : Permutation kvs kvs' -> NoDup (keysOf kvs) -> metaIs kvs m -> metaIs kvs' m.
Proof.
  intros HP HN (H1 & (x & Hx & H2) & H3 & H4). exact (conj (fieldIs_perm _ _ _ _ _ _ HP HN H1) (conj (ex_intro _ x (conj (sliceIs_perm _ _ _ _ HP HN Hx) H2)) (conj (fieldIs_perm _ _ _ _ _ _ HP HN H3) (fieldIs_perm _ _ _ _ _ _ HP HN H4)))).
Qed.
