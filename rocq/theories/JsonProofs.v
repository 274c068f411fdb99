(** Proofs about saving and loading (C41-C46, C83). *)
From Coq Require Import Ascii String.
From Verif Require Import Base F64 F64Lemmas Env Utils Tree Options Train Spec UtilsThms Text Json SpecJson.
From Coq Require Import List.
Open Scope Z_scope.

(** *** the writer of one tree *)
Definition nodeFin (d : tdata) : bool := finiteNode (JNode d 0 0 0).
Fixpoint finTree (t : tree) : bool := match t with Nil => true | Node d l r => nodeFin d && finTree l && finTree r end.
Definition childId (t : tree) (id : Z) : Z := match t with Nil => 0 | Node _ _ _ => id end.
Fixpoint jnodes (t : tree) (cur : Z) : list JSONNode :=
  match t with
  | Nil => []
  | Node d l r => JNode d (cur + 1) (childId l (cur + 2)) (childId r (cur + 2 + nodes l)) ::
                  jnodes l (cur + 1) ++ jnodes r (cur + 1 + nodes l)
  end.
Lemma nodes_nonneg t : 0 <= nodes t.
Proof. induction t; cbn [nodes]; lia. Qed.

Lemma JSONTree_spec C t : forall cur, t <> Nil ->
  JSONTree C t cur = Ok (if finTree t then Some (map (c_node C) (jnodes t cur), cur + 1) else None, cur + nodes t).
Proof.
  induction t as [|d l IHl r IHr]; intros cur HN; [congruence|]. clear HN.
  assert (HL : (match l with Nil => Ok (Some ([], 0), cur + 1) | Node _ _ _ => JSONTree C l (cur + 1) end) =
    Ok (if finTree l then Some (map (c_node C) (jnodes l (cur + 1)), childId l (cur + 2)) else None, cur + 1 + nodes l)).
  { destruct l as [|dl ll lr]; [simpl nodes; replace (cur + 1 + 0) with (cur + 1) by lia; reflexivity|].
    rewrite IHl by discriminate. replace (cur + 1 + 1) with (cur + 2) by lia. reflexivity. }
  assert (HR : (match r with Nil => Ok (Some ([], 0), cur + 1 + nodes l) | Node _ _ _ => JSONTree C r (cur + 1 + nodes l) end) =
    Ok (if finTree r then Some (map (c_node C) (jnodes r (cur + 1 + nodes l)), childId r (cur + 2 + nodes l)) else None, cur + 1 + nodes l + nodes r)).
  { destruct r as [|dl ll lr]; [simpl nodes; replace (cur + 1 + nodes l + 0) with (cur + 1 + nodes l) by lia; reflexivity|].
    rewrite IHr by discriminate. replace (cur + 1 + nodes l + 1) with (cur + 2 + nodes l) by lia. reflexivity. }
  cbn [JSONTree]. rewrite HL. cbn [bind]. rewrite HR. cbn [bind finTree nodes jnodes map].
  replace (cur + 1 + nodes l + nodes r) with (cur + (1 + nodes l + nodes r)) by lia.
  unfold marshalNode. set (j := JNode d (cur + 1) _ _).
  assert (HF : finiteNode j = nodeFin d) by reflexivity. rewrite HF.
  destruct (nodeFin d); [|reflexivity]. destruct (finTree l); [|reflexivity]. destruct (finTree r); [|reflexivity].
  cbn [andb]. rewrite map_app. reflexivity.
Qed.

Lemma finTree_iff t : finTree t = true <-> treeFinite t.
Proof.
  assert (HD : forall d, nodeFin d = true <-> writtenFinite d).
  { intros d. unfold nodeFin, finiteNode, writtenFinite. cbn [JNode j_best j_thr j_value]. rewrite !andb_true_iff.
    destruct (t_leaf d && negb (t_xgb d)) eqn:E.
    - apply andb_true_iff in E as [E1 E2]. unfold t_leaf, leafScore in E1. destruct (t_xgb d); [discriminate E2|].
      assert (t_best d = finf). { unfold fisposinf in E1. unfold finf. destruct (t_best d) as [|[|]| |]; try discriminate E1. reflexivity. }
      assert (ffinite leafMark = true) by (vm_compute; reflexivity). intuition.
    - split; [tauto|]. intros (H1 & H2 & [H3|[H3 H4]]); [tauto|].
      unfold t_leaf, leafScore in E. rewrite H3, H4 in E. discriminate E. }
  unfold treeFinite. induction t as [|d l IHl r IHr]; cbn [finTree].
  - split; auto. intros _ d l r H. inversion H.
  - rewrite !andb_true_iff, HD, IHl, IHr. split.
    + intros [[H1 H2] H3] d' l' r' Hs. inversion Hs; subst; eauto.
    + intros H. split; [split|]; [eapply H; constructor|..]; intros d' l' r' Hs; eapply H; [apply sub_l|apply sub_r]; eauto.
Qed.

(** *** C42 *)
Lemma jnodes_length t : forall cur, length (jnodes t cur) = length (preorder t).
Proof. induction t as [|d l IHl r IHr]; intros cur; cbn [jnodes preorder length]; auto. rewrite !app_length, IHl, IHr. auto. Qed.
Lemma preorder_nodes t : Z.of_nat (length (preorder t)) = nodes t.
Proof. induction t as [|d l IHl r IHr]; cbn [preorder nodes length]; auto. rewrite app_length. lia. Qed.
Lemma preorder_hd t : t <> Nil -> nth_error (preorder t) 0 = Some t.
Proof. destruct t; [congruence|reflexivity]. Qed.

Lemma jnodes_nth t : forall cur i s, nth_error (preorder t) i = Some s ->
  exists d l r lid rid, s = Node d l r /\ nth_error (jnodes t cur) i = Some (JNode d (cur + 1 + Z.of_nat i) lid rid) /\
    (l = Nil -> lid = 0) /\ (l <> Nil -> exists p, nth_error (preorder t) p = Some l /\ lid = cur + 1 + Z.of_nat p) /\
    (r = Nil -> rid = 0) /\ (r <> Nil -> exists p, nth_error (preorder t) p = Some r /\ rid = cur + 1 + Z.of_nat p).
Proof.
  induction t as [|d l IHl r IHr]; intros cur i s Hi; cbn [preorder jnodes] in *.
  - destruct i; discriminate Hi.
  - destruct i as [|i]; simpl in Hi.
    + injection Hi as <-. exists d, l, r, (childId l (cur + 2)), (childId r (cur + 2 + nodes l)).
      split; [auto|]. split; [simpl; do 2 f_equal; lia|]. split; [intros ->; auto|]. split; [|split; [intros ->; auto|]].
      * intros HN. exists 1%nat. split; [|destruct l; [congruence|simpl; lia]].
        change (nth_error (preorder l ++ preorder r) 0 = Some l).
        rewrite nth_error_app1; [apply preorder_hd; auto|]. destruct l; [congruence|simpl; lia].
      * intros HN. exists (1 + length (preorder l))%nat. split.
        -- change (nth_error (preorder l ++ preorder r) (length (preorder l)) = Some r).
           rewrite nth_error_app2 by lia. rewrite Nat.sub_diag. apply preorder_hd; auto.
        -- rewrite <- preorder_nodes. destruct r; [congruence|simpl; lia].
    + destruct (Nat.lt_ge_cases i (length (preorder l))) as [Hlt|Hge].
      * rewrite nth_error_app1 in Hi by auto. destruct (IHl (cur + 1) i s Hi) as (d' & l' & r' & lid & rid & -> & Hj & H1 & H2 & H3 & H4).
        exists d', l', r', lid, rid. split; [auto|]. split.
        -- simpl nth_error. rewrite nth_error_app1 by (rewrite jnodes_length; auto). rewrite Hj. do 2 f_equal; lia.
        -- split; [auto|]. split; [|split; [auto|]]; intros HN; [destruct (H2 HN) as (p & Hp & E)|destruct (H4 HN) as (p & Hp & E)];
             exists (S p); (split; [simpl; rewrite nth_error_app1; [auto|apply nth_error_Some; congruence]|lia]).
      * rewrite nth_error_app2 in Hi by auto. destruct (IHr (cur + 1 + nodes l) _ s Hi) as (d' & l' & r' & lid & rid & -> & Hj & H1 & H2 & H3 & H4).
        rewrite <- preorder_nodes in Hj, H2, H4.
        exists d', l', r', lid, rid. split; [auto|]. split.
        -- simpl nth_error. rewrite nth_error_app2 by (rewrite jnodes_length; auto). rewrite jnodes_length. rewrite <- preorder_nodes. rewrite Hj. do 2 f_equal; lia.
        -- split; [auto|]. split; [|split; [auto|]]; intros HN; [destruct (H2 HN) as (p & Hp & E)|destruct (H4 HN) as (p & Hp & E)];
             exists (S (length (preorder l) + p)); (split; [simpl; rewrite nth_error_app2 by lia; rewrite <- Hp; f_equal; lia|lia]).
Qed.

Lemma c42_lemma C t lines id cur : JSONTree C t 0 = Ok (Some (lines, id), cur) ->
  exists js, lines = map (c_node C) js /\ length js = length (preorder t) /\ id = 1 /\
  forall i d l r, nth_error (preorder t) i = Some (Node d l r) -> exists j,
    nth_error js i = Some j /\ j_id j = Z.of_nat i + 1 /\
    (j_nsamples j, j_split j, j_leaf j, j_thr j, j_branches j, j_value j, j_xgb j) =
    (t_nsamples d, t_split d, t_leaf d, t_thr d, t_branches d, t_value d, t_xgb d) /\ j_samples j = None /\
    (l = Nil -> j_left j = 0) /\ (l <> Nil -> 0 < j_left j /\ nth_error (preorder t) (Z.to_nat (j_left j - 1)) = Some l) /\
    (r = Nil -> j_right j = 0) /\ (r <> Nil -> 0 < j_right j /\ nth_error (preorder t) (Z.to_nat (j_right j - 1)) = Some r).
Proof.
  intros H. assert (HN : t <> Nil) by (intros ->; discriminate H). rewrite JSONTree_spec in H by auto.
  destruct (finTree t); [|discriminate H]. injection H as <- <- _. exists (jnodes t 0). split; [auto|]. split; [apply jnodes_length|]. split; [auto|].
  intros i d l r Hi. destruct (jnodes_nth t 0 i _ Hi) as (d' & l' & r' & lid & rid & [= <- <- <-] & Hj & H1 & H2 & H3 & H4).
  eexists. split; [exact Hj|]. cbn [JNode j_id j_nsamples j_split j_leaf j_thr j_branches j_value j_xgb j_samples j_left j_right].
  split; [lia|]. split; [auto|]. split; [auto|]. split; [auto|]. split; [|split; [auto|]].
  - intros HNl. destruct (H2 HNl) as (p & Hp & ->). split; [lia|]. rewrite <- Hp. f_equal. lia.
  - intros HNl. destruct (H4 HNl) as (p & Hp & ->). split; [lia|]. rewrite <- Hp. f_equal. lia.
Qed.

(** *** C41 *)
Lemma unlines_cons l ls : unlines (l :: ls) = l ++ NL :: unlines ls.
Proof. unfold unlines. simpl. rewrite <- app_assoc. auto. Qed.
Lemma unlines_app a b : unlines (a ++ b) = unlines a ++ unlines b.
Proof. unfold unlines. rewrite map_app, concat_app. auto. Qed.
Lemma creator_JNode d i l r : creator (JNode d i l r) = MkT None (t_best d) (t_value d) (t_nsamples d) (t_split d) (t_thr d) (t_xgb d) (t_branches d).
Proof.
  unfold creator. cbn. f_equal. destruct (t_leaf d && negb (t_xgb d)) eqn:E; auto.
  apply andb_true_iff in E as [E1 E2]. unfold t_leaf, leafScore in E1. destruct (t_xgb d); [discriminate E2|].
  unfold fisposinf in E1. unfold finf. destruct (t_best d) as [|[|]| |]; try discriminate E1. reflexivity.
Qed.

(** rewrite the head of a bind, up to conversion *)
Ltac rwbind HL := match type of HL with _ = ?b => match goal with |- bind ?x _ = _ =>
  let H := fresh in assert (H : x = b) by exact HL; rewrite H; clear H end end; cbn [bind].

Section Read.
Context (C : Codec) (HC : CodecOk C).

Lemma childId_pos t id : 0 < id -> (0 <? childId t id) = match t with Nil => false | Node _ _ _ => true end.
Proof. intros H. destruct t; simpl; auto. apply Z.ltb_lt; auto. Qed.

Lemma UnJSON_spec t : finTree t = true -> forall cur fuel j js rest, 0 <= cur -> (length (preorder t) <= fuel)%nat ->
  jnodes t cur = j :: js ->
  UnJSONTree C fuel (c_node C j ++ [NL]) (unlines (map (c_node C) js) ++ rest) = Ok (Some (unsampled t, rest)).
Proof.
  induction t as [|d l IHl r IHr]; intros HF cur fuel j js rest Hcur Hfuel HJ; [discriminate HJ|].
  cbn [finTree] in HF. apply andb_true_iff in HF as [HF HFr]. apply andb_true_iff in HF as [HFd HFl].
  cbn [jnodes] in HJ. injection HJ as <- <-.
  destruct fuel as [|fuel]; [simpl in Hfuel; lia|]. cbn [UnJSONTree].
  pose proof (nodes_nonneg l). assert (HCid : forall u id, 0 <= id -> 0 <= childId u id) by (intros [|] id Hid; simpl; lia).
  rewrite (ck_node C HC); [|exact HFd|cbn; lia|apply HCid; lia|apply HCid; lia]. cbn [JNode j_left j_right].
  rewrite !childId_pos by lia. cbn [preorder length] in Hfuel. rewrite app_length in Hfuel.
  rewrite map_app, unlines_app, <- app_assoc.
  assert (HL : (if match l with Nil => false | Node _ _ _ => true end
    then match readLine (unlines (map (c_node C) (jnodes l (cur + 1))) ++ unlines (map (c_node C) (jnodes r (cur + 1 + nodes l))) ++ rest) with
         | Some (s, r1) => UnJSONTree C fuel s r1 | None => Ok None end
    else Ok (Some (Nil, unlines (map (c_node C) (jnodes l (cur + 1))) ++ unlines (map (c_node C) (jnodes r (cur + 1 + nodes l))) ++ rest))) =
    Ok (Some (unsampled l, unlines (map (c_node C) (jnodes r (cur + 1 + nodes l))) ++ rest))).
  { destruct l as [|dl ll lr]; [reflexivity|]. destruct (jnodes (Node dl ll lr) (cur + 1)) as [|jl jls] eqn:EJ; [discriminate EJ|].
    cbn [map]. rewrite unlines_cons. rewrite <- app_assoc. simpl app at 2. rewrite readLine_app by apply (ck_node_nl C HC).
    apply (IHl HFl (cur + 1)); [lia|lia|exact EJ]. }
  rwbind HL.
  assert (HR : (if match r with Nil => false | Node _ _ _ => true end
    then match readLine (unlines (map (c_node C) (jnodes r (cur + 1 + nodes l))) ++ rest) with
         | Some (s, r1) => UnJSONTree C fuel s r1 | None => Ok None end
    else Ok (Some (Nil, unlines (map (c_node C) (jnodes r (cur + 1 + nodes l))) ++ rest))) =
    Ok (Some (unsampled r, rest))).
  { destruct r as [|dl ll lr]; [reflexivity|]. destruct (jnodes (Node dl ll lr) (cur + 1 + nodes l)) as [|jl jls] eqn:EJ; [discriminate EJ|].
    cbn [map]. rewrite unlines_cons. rewrite <- app_assoc. simpl app at 2. rewrite readLine_app by apply (ck_node_nl C HC).
    apply (IHr HFr (cur + 1 + nodes l)); [lia|lia|exact EJ]. }
  rwbind HR. rewrite creator_JNode. reflexivity.
Qed.

Lemma unlines_length ls : (length ls <= length (unlines ls))%nat.
Proof. induction ls as [|l ls IH]; [auto|]. rewrite unlines_cons, app_length. simpl. lia. Qed.

Lemma read_written t lines id cur rest : JSONTree C t 0 = Ok (Some (lines, id), cur) ->
  readTree C (unlines lines ++ rest) = Ok (Some (unsampled t, rest)).
Proof.
  intros H. assert (HN : t <> Nil) by (intros ->; discriminate H). rewrite JSONTree_spec in H by auto.
  destruct (finTree t) eqn:EF; [|discriminate H]. injection H as <- <- _.
  unfold readTree. pose proof (jnodes_length t 0) as HLn. destruct (jnodes t 0) as [|j js] eqn:EJ; [destruct t; [congruence|discriminate EJ]|].
  cbn [map]. rewrite unlines_cons, <- app_assoc. simpl app at 2. rewrite readLine_app by apply (ck_node_nl C HC).
  apply (UnJSON_spec t EF 0); [lia| |exact EJ]. rewrite <- HLn. rewrite app_length. pose proof (unlines_length (map (c_node C) js)). rewrite map_length in *. simpl. lia.
Qed.
End Read.

Lemma unsampled_leaf d : t_leaf (MkT None (t_best d) (t_value d) (t_nsamples d) (t_split d) (t_thr d) (t_xgb d) (t_branches d)) = t_leaf d.
Proof. reflexivity. Qed.
Lemma unsampled_predict t row : PredictSingle (unsampled t) row = PredictSingle t row.
Proof.
  induction t as [|d l IHl r IHr]; cbn [unsampled PredictSingle]; auto. rewrite unsampled_leaf. cbn [t_value t_split t_thr]. rewrite IHl, IHr. reflexivity.
Qed.

(** *** the reader in general: fuel, totality, truncation *)
Section Any.
Context (C : Codec).
Lemma UnJSON_total fuel : forall s r, (length r < fuel)%nat ->
  exists o, UnJSONTree C fuel s r = Ok o /\ (forall t r2, o = Some (t, r2) -> (length r2 <= length r)%nat) /\
    forall fuel', (length r < fuel')%nat -> UnJSONTree C fuel' s r = Ok o.
Proof.
  induction fuel as [|fuel IH]; intros s r HL; [lia|]. cbn [UnJSONTree].
  destruct (c_unnode C s) as [j|] eqn:Ej.
  2: { exists None. split; [auto|]. split; [discriminate|]. intros [|f'] Hf'; [lia|]. cbn [UnJSONTree]. rewrite Ej. auto. }
  set (child := fun id r0 => if 0 <? id then match readLine r0 with Some (s0, r1) => UnJSONTree C fuel s0 r1 | None => Ok None end else Ok (Some (Nil, r0))).
  assert (HCh : forall id r0, (length r0 <= length r)%nat -> exists o, child id r0 = Ok o /\
     (forall t r2, o = Some (t, r2) -> (length r2 <= length r0)%nat) /\
     forall f', (length r <= f')%nat -> (if 0 <? id then match readLine r0 with Some (s0, r1) => UnJSONTree C f' s0 r1 | None => Ok None end else Ok (Some (Nil, r0))) = Ok o).
  { intros id r0 Hr0. unfold child. destruct (0 <? id).
    - destruct (readLine r0) as [[s0 r1]|] eqn:ER.
      + pose proof (readLine_shorter _ _ _ ER). destruct (IH s0 r1) as (o & Ho & Ho2 & Ho3); [lia|]. exists o. split; [auto|]. split.
        * intros t r2 Ht. specialize (Ho2 t r2 Ht). lia.
        * intros f' Hf'. apply Ho3. lia.
      + exists None. split; [auto|]. split; [discriminate|auto].
    - exists (Some (Nil, r0)). split; [auto|]. split; [intros t r2 [= _ <-]; lia|auto]. }
  change (exists o, bind (child (j_left j) r) (fun lo => match lo with None => Ok None | Some (l, r1) =>
     bind (child (j_right j) r1) (fun ro => match ro with None => Ok None | Some (rt, r2) => Ok (Some (Node (creator j) l rt, r2)) end) end) = Ok o /\
     (forall t r2, o = Some (t, r2) -> (length r2 <= length r)%nat) /\
     forall fuel', (length r < fuel')%nat -> UnJSONTree C fuel' s r = Ok o).
  destruct (HCh (j_left j) r) as (lo & Hlo & Hlo2 & Hlo3); [lia|]. rewrite Hlo. cbn [bind].
  destruct lo as [[l r1]|].
  - specialize (Hlo2 l r1 eq_refl). destruct (HCh (j_right j) r1) as (ro & Hro & Hro2 & Hro3); [lia|]. rewrite Hro. cbn [bind].
    destruct ro as [[rt r2]|].
    + specialize (Hro2 rt r2 eq_refl). eexists. split; [reflexivity|]. split; [intros t r3 [= _ <-]; lia|].
      intros [|f'] Hf'; [lia|]. cbn [UnJSONTree]. rewrite Ej, Hlo3 by lia. cbn [bind]. rewrite Hro3 by lia. reflexivity.
    + exists None. split; [auto|]. split; [discriminate|].
      intros [|f'] Hf'; [lia|]. cbn [UnJSONTree]. rewrite Ej, Hlo3 by lia. cbn [bind]. rewrite Hro3 by lia. reflexivity.
  - exists None. split; [auto|]. split; [discriminate|].
    intros [|f'] Hf'; [lia|]. cbn [UnJSONTree]. rewrite Ej, Hlo3 by lia. reflexivity.
Qed.

Lemma unLoop_total fuel : forall r trees class, (length r < fuel)%nat ->
  exists o, unLoop C fuel r trees class = Ok o /\ (forall T, o = Some T -> isPrefix trees T) /\
    forall fuel', (length r < fuel')%nat -> unLoop C fuel' r trees class = Ok o.
Proof.
  induction fuel as [|fuel IH]; intros r trees class HL; [lia|]. cbn [unLoop].
  destruct (readLine r) as [[s r']|] eqn:ER.
  2: { exists (Some trees). split; [auto|]. split; [intros T [= <-]; exists []; rewrite app_nil_r; auto|].
       intros [|f'] Hf'; [lia|]. cbn [unLoop]. rewrite ER. auto. }
  pose proof (readLine_shorter _ _ _ ER).
  destruct (containsT s (tx "ROUND")) eqn:E1; [|destruct (containsT s (tx "CLASS")) eqn:E2].
  - destruct (IH r' (match class with Some c => trees ++ [c] | None => trees end) (Some [])) as (o & Ho & Ho2 & Ho3); [lia|].
    exists o. split; [auto|]. split.
    + intros T HT. destruct (Ho2 T HT) as [q Hq]. destruct class as [c|]; [|exists q; auto]. exists (c :: q). rewrite Hq, <- app_assoc. auto.
    + intros [|f'] Hf'; [lia|]. cbn [unLoop]. rewrite ER, E1. apply Ho3. lia.
  - destruct (IH r' trees class) as (o & Ho & Ho2 & Ho3); [lia|]. exists o. split; [auto|]. split; [auto|].
    intros [|f'] Hf'; [lia|]. cbn [unLoop]. rewrite ER, E1, E2. apply Ho3. lia.
  - destruct (UnJSON_total fuel s r') as (o & Ho & Ho2 & Ho3); [lia|]. rewrite Ho. cbn [bind]. destruct o as [[t r2]|].
    + specialize (Ho2 t r2 eq_refl). destruct (IH r2 trees (Some (orNil class ++ [t]))) as (o' & Hp & Hp2 & Hp3); [lia|].
      exists o'. split; [auto|]. split; [auto|]. intros [|f'] Hf'; [lia|]. cbn [unLoop]. rewrite ER, E1, E2, Ho3 by lia. cbn [bind]. apply Hp3. lia.
    + exists None. split; [auto|]. split; [discriminate|]. intros [|f'] Hf'; [lia|]. cbn [unLoop]. rewrite ER, E1, E2, Ho3 by lia. reflexivity.
Qed.

(** the loop without fuel *)
Definition unRead (r : text) (trees : list (list tree)) (class : option (list tree)) : res (option (list (list tree))) :=
  unLoop C (S (length r)) r trees class.
Lemma unRead_fuel fuel r trees class : (length r < fuel)%nat -> unLoop C fuel r trees class = unRead r trees class.
Proof.
  intros H. unfold unRead. destruct (unLoop_total (S (length r)) r trees class) as (o & Ho & _ & H3); [lia|]. rewrite Ho. apply H3; auto.
Qed.
Lemma unRead_eq r trees class : unRead r trees class =
  match readLine r with
  | None => Ok (Some trees)
  | Some (s, r') =>
      if containsT s (tx "ROUND") then unRead r' (match class with Some c => trees ++ [c] | None => trees end) (Some [])
      else if containsT s (tx "CLASS") then unRead r' trees class
      else o <- UnJSONTree C (S (length r')) s r' ;;
           match o with None => Ok None | Some (t, r2) => unRead r2 trees (Some (orNil class ++ [t])) end
  end.
Proof.
  unfold unRead at 1. cbn [unLoop]. destruct (readLine r) as [[s r']|] eqn:ER; auto. pose proof (readLine_shorter _ _ _ ER).
  rewrite !unRead_fuel by auto. destruct (containsT s (tx "ROUND")); auto. destruct (containsT s (tx "CLASS")); auto.
  destruct (UnJSON_total (S (length r')) s r') as (o & Ho & Ho2 & Ho3); [lia|]. rewrite Ho, (Ho3 (length r)) by lia. cbn [bind].
  destruct o as [[t r2]|]; auto. specialize (Ho2 t r2 eq_refl). apply unRead_fuel. lia.
Qed.

(** truncation *)
Lemma readLine_prefix p q s p' : readLine p = Some (s, p') -> readLine (p ++ q) = Some (s, p' ++ q).
Proof. intros H. apply readLine_Some in H as (l & -> & Hn & ->). rewrite <- app_assoc. simpl. apply readLine_app. auto. Qed.
Lemma UnJSON_prefix fuel : forall s p q t p2, UnJSONTree C fuel s p = Ok (Some (t, p2)) -> UnJSONTree C fuel s (p ++ q) = Ok (Some (t, p2 ++ q)).
Proof.
  induction fuel as [|fuel IH]; intros s p q t p2 H; [discriminate H|]. cbn [UnJSONTree] in *.
  destruct (c_unnode C s) as [j|]; [|discriminate H].
  set (child := fun id r0 => if 0 <? id then match readLine r0 with Some (s0, r1) => UnJSONTree C fuel s0 r1 | None => Ok None end else Ok (Some (Nil, r0))).
  assert (HCh : forall id p0 t0 p1, child id p0 = Ok (Some (t0, p1)) -> child id (p0 ++ q) = Ok (Some (t0, p1 ++ q))).
  { intros id p0 t0 p1. unfold child. destruct (0 <? id); [|intros [= <- <-]; auto].
    destruct (readLine p0) as [[s0 r1]|] eqn:ER; [|discriminate]. rewrite (readLine_prefix _ q _ _ ER). apply IH. }
  change (bind (child (j_left j) p) (fun lo => match lo with None => Ok None | Some (l, r1) =>
     bind (child (j_right j) r1) (fun ro => match ro with None => Ok None | Some (rt, r2) => Ok (Some (Node (creator j) l rt, r2)) end) end) = Ok (Some (t, p2))) in H.
  change (bind (child (j_left j) (p ++ q)) (fun lo => match lo with None => Ok None | Some (l, r1) =>
     bind (child (j_right j) r1) (fun ro => match ro with None => Ok None | Some (rt, r2) => Ok (Some (Node (creator j) l rt, r2)) end) end) = Ok (Some (t, p2 ++ q))).
  apply bind_Ok in H as ([[l r1]|] & H1 & H); [|discriminate H]. apply bind_Ok in H as ([[rt r2]|] & H2 & H); [|discriminate H]. injection H as <- <-.
  rewrite (HCh _ _ _ _ H1). cbn [bind]. rewrite (HCh _ _ _ _ H2). reflexivity.
Qed.

Lemma prefix_refl {A} (l : list A) : isPrefix l l.
Proof. exists []. rewrite app_nil_r. auto. Qed.
Lemma unRead_prefix n : forall p q trees class, (length p <= n)%nat ->
  unRead p trees class = Ok None \/
  exists T, unRead p trees class = Ok (Some T) /\
    (unRead (p ++ q) trees class = Ok None \/ exists T', unRead (p ++ q) trees class = Ok (Some T') /\ isPrefix T T').
Proof.
  induction n as [|n IH]; intros p q trees class HL.
  - destruct p; [|simpl in HL; lia]. right. exists trees. split; [reflexivity|]. simpl app. unfold unRead.
    destruct (unLoop_total (S (length q)) q trees class) as ([T|] & Ho & H2 & _); [lia| |]; rewrite Ho; eauto.
  - destruct (readLine p) as [[s p']|] eqn:ER.
    2: { right. exists trees. rewrite (unRead_eq p), ER. split; [auto|]. unfold unRead.
         destruct (unLoop_total (S (length (p ++ q))) (p ++ q) trees class) as ([T|] & Ho & H2 & _); [lia| |]; rewrite Ho; eauto. }
    pose proof (readLine_shorter _ _ _ ER). rewrite (unRead_eq p), (unRead_eq (p ++ q)), ER, (readLine_prefix _ q _ _ ER).
    destruct (containsT s (tx "ROUND")); [apply IH; lia|]. destruct (containsT s (tx "CLASS")); [apply IH; lia|].
    destruct (UnJSON_total (S (length p')) s p') as (o & Ho & Ho2 & _); [lia|]. rewrite Ho. cbn [bind].
    destruct o as [[t p2]|]; [|auto]. specialize (Ho2 t p2 eq_refl).
    pose proof (UnJSON_prefix _ _ _ q _ _ Ho) as Hq.
    destruct (UnJSON_total (S (length (p' ++ q))) s (p' ++ q)) as (o' & Ho' & _ & Ho3'); [lia|].
    assert (o' = Some (t, p2 ++ q)).
    { destruct (UnJSON_total (S (length p' + length q)) s p') as (o2 & Hx & _ & Hx3); [lia|].
      assert (o2 = Some (t, p2)) by (assert (HH : Ok o2 = Ok (Some (t, p2))) by (rewrite <- (Hx3 (S (length p'))) by lia; auto); congruence). subst o2.
      apply (UnJSON_prefix _ _ _ q) in Hx. rewrite app_length in Ho'. congruence. }
    subst o'. rewrite Ho'. cbn [bind]. apply IH. lia.
Qed.
End Any.

Lemma load_total C E r eof : UnJSONMultiClass C E r eof <> Panic /\ UnJSONMultiClass C E r eof <> Diverge.
Proof.
  unfold UnJSONMultiClass. destruct (readLine r) as [[s r']|]; [|split; discriminate]. destruct (c_unmeta C s) as [m|]; [|split; discriminate].
  destruct (unLoop_total C (S (length r')) r' [] None) as (o & -> & _); [lia|]. cbn [bind]. destruct o; [destruct eof|]; split; discriminate.
Qed.

(** *** writing a model *)
Section Write.
Context (C : Codec).
Lemma joinNL_unlines ls : ls <> [] -> joinNL ls ++ [NL] = unlines ls.
Proof.
  induction ls as [|l ls IH]; [congruence|]. intros _. rewrite unlines_cons. destruct ls as [|l2 ls].
  - reflexivity.
  - change (joinNL (l :: l2 :: ls)) with (l ++ [NL] ++ joinNL (l2 :: ls)). rewrite <- IH by discriminate. rewrite <- !app_assoc. reflexivity.
Qed.
Lemma treeItem_spec t : t <> Nil -> treeItem C t = if finTree t then Some (unlines (map (c_node C) (jnodes t 0))) else None.
Proof. intros HN. unfold treeItem. rewrite JSONTree_spec by auto. destruct (finTree t); reflexivity. Qed.

(** what a sequence of writes leaves behind *)
Definition wrote (wok : nat -> bool) (out : list text) (items : list (option text)) (out' : list text) (ok : bool) : Prop :=
  exists rest, map Some out ++ items = map Some out' ++ rest /\ (ok = true -> rest = []) /\
    (ok = false -> exists x rest', rest = x :: rest' /\ (x = None \/ wok (length out') = false)).
Lemma wrote_nil wok out : wrote wok out [] out true.
Proof. exists []. split; [auto|]. split; [auto|discriminate]. Qed.
Lemma wrote_app wok out a b out1 out2 ok : wrote wok out a out1 true -> wrote wok out1 b out2 ok -> wrote wok out (a ++ b) out2 ok.
Proof.
  intros (r1 & E1 & H1 & _) (r2 & E2 & H2 & H2'). rewrite (H1 eq_refl), app_nil_r in E1. exists r2. split; [|auto].
  rewrite app_assoc, E1. auto.
Qed.
Lemma wrote_stop wok out a b out1 : wrote wok out a out1 false -> wrote wok out (a ++ b) out1 false.
Proof.
  intros (r1 & E1 & _ & H1). exists (r1 ++ b). split; [rewrite app_assoc, E1, app_assoc; auto|]. split; [discriminate|].
  intros _. destruct (H1 eq_refl) as (x & r & -> & Hx). exists x, (r ++ b). auto.
Qed.
Lemma wrote_one wok out s : wrote wok out [Some s] (fst (wr wok out s)) (snd (wr wok out s)).
Proof.
  unfold wr. destruct (wok (length out)) eqn:E; simpl.
  - exists []. rewrite map_app, app_nil_r. split; [auto|]. split; [auto|discriminate].
  - exists [Some s]. split; [auto|]. split; [discriminate|]. intros _. eauto.
Qed.
Lemma wrote_fail wok out : wrote wok out [None] out false.
Proof. exists [None]. split; [auto|]. split; [discriminate|]. eauto. Qed.

Lemma writeClasses_spec wok labels ts : forall cn out, (cn + length ts <= length labels)%nat -> (forall t, In t ts -> t <> Nil) ->
  exists out' ok, writeClasses C wok labels cn ts out = Ok (out', ok) /\ wrote wok out (classItems C labels cn ts) out' ok.
Proof.
  induction ts as [|t ts IH]; intros cn out HL HN; cbn [writeClasses classItems].
  - exists out, true. split; [auto|apply wrote_nil].
  - simpl in HL. destruct (nth_error labels cn) as [lab|] eqn:El; [|apply nth_error_None in El; lia].
    rewrite (proj2 (idx_of_nat _ _ _) El). cbn [bind]. rewrite (nth_error_nth _ _ 0 El).
    pose proof (wrote_one wok out (classLine cn lab)) as W1. destruct (wr wok out (classLine cn lab)) as [out1 ok1]. cbn [fst snd] in W1.
    destruct ok1; cbn [negb].
    2: { exists out1, false. split; [auto|]. apply (wrote_stop _ _ _ (treeItem C t :: classItems C labels (S cn) ts)) in W1. exact W1. }
    assert (HNt : t <> Nil) by (apply HN; left; auto). rewrite JSONTree_spec by auto. cbn [bind].
    rewrite (treeItem_spec t HNt). destruct (finTree t).
    2: { exists out1, false. split; [auto|]. apply (wrote_app _ _ [_] _ _ _ _ W1). apply (wrote_stop _ _ [None]). apply wrote_fail. }
    rewrite joinNL_unlines by (destruct t; [congruence|discriminate]).
    set (s := unlines (map (c_node C) (jnodes t 0))).
    pose proof (wrote_one wok out1 s) as W2. destruct (wr wok out1 s) as [out2 ok2]. cbn [fst snd] in W2.
    destruct ok2; cbn [negb].
    2: { exists out2, false. split; [auto|]. apply (wrote_app _ _ [_] _ _ _ _ W1). apply (wrote_stop _ _ [_]). exact W2. }
    destruct (IH (S cn) out2) as (out3 & ok3 & HW & W3); [lia|intros; apply HN; right; auto|].
    exists out3, ok3. split; [auto|]. apply (wrote_app _ _ [_] _ _ _ _ W1). apply (wrote_app _ _ [_] _ _ _ _ W2). exact W3.
Qed.
Lemma writeRounds_spec wok labels b : forall rn out, (forall ens, In ens b -> (length ens <= length labels)%nat /\ forall t, In t ens -> t <> Nil) ->
  exists out' ok, writeRounds C wok labels rn b out = Ok (out', ok) /\ wrote wok out (roundItems C labels rn b) out' ok.
Proof.
  induction b as [|ens b IH]; intros rn out HB; cbn [writeRounds roundItems].
  - exists out, true. split; [auto|apply wrote_nil].
  - pose proof (wrote_one wok out (roundLine rn)) as W1. destruct (wr wok out (roundLine rn)) as [out1 ok1]. cbn [fst snd] in W1.
    destruct ok1; cbn [negb].
    2: { exists out1, false. split; [auto|]. apply (wrote_stop _ _ [_]). exact W1. }
    destruct (HB ens ltac:(left; auto)) as [HL HN].
    destruct (writeClasses_spec wok labels ens 0 out1) as (out2 & ok2 & -> & W2); [simpl; auto|auto|]. cbn [bind].
    destruct ok2; cbn [negb].
    2: { exists out2, false. split; [auto|]. apply (wrote_app _ _ [_] _ _ _ _ W1). apply wrote_stop. exact W2. }
    destruct (IH (S rn) out2) as (out3 & ok3 & HW & W3); [intros; apply HB; right; auto|].
    exists out3, ok3. split; [auto|]. apply (wrote_app _ _ [_] _ _ _ _ W1). eapply wrote_app; eauto.
Qed.
Lemma JSONMultiClass_spec M name wok : writable M ->
  exists out ok, JSONMultiClass C M name wok = Ok (out, ok) /\ wrote wok [] (modelItems C M name) out ok.
Proof.
  intros HW. unfold JSONMultiClass, modelItems. destruct (marshalMeta C _) as [j|].
  - pose proof (wrote_one wok [] (j ++ [NL])) as W1. destruct (wr wok [] (j ++ [NL])) as [out1 ok1]. cbn [fst snd] in W1.
    destruct ok1; cbn [negb].
    2: { exists out1, false. split; [auto|]. apply (wrote_stop _ _ [_]). exact W1. }
    destruct (writeRounds_spec wok (mc_labels M) (mc_b M) 0 out1 HW) as (out2 & ok2 & HWr & W2).
    exists out2, ok2. split; [auto|]. apply (wrote_app _ _ [_] _ _ _ _ W1). exact W2.
  - exists [], false. split; [auto|]. apply (wrote_stop _ _ [None]). apply wrote_fail.
Qed.

Lemma classItems_fin labels ts : forall cn, (forall t, In t ts -> t <> Nil) ->
  ((forall x, In x (classItems C labels cn ts) -> x <> None) <-> forall t, In t ts -> finTree t = true).
Proof.
  induction ts as [|t ts IH]; intros cn HN; cbn [classItems].
  - split; simpl; tauto.
  - assert (HNt : t <> Nil) by (apply HN; left; auto). specialize (IH (S cn) ltac:(intros; apply HN; right; auto)).
    rewrite (treeItem_spec t HNt). split.
    + intros H u [<-|Hu].
      * destruct (finTree t) eqn:E; auto. exfalso. eapply H; [right; left; reflexivity|auto].
      * apply IH; auto. intros x Hx. apply H. simpl. auto.
    + intros H x [<-|[<-|Hx]]; [discriminate|rewrite H by (left; auto); discriminate|]. apply (proj2 IH); auto. intros; apply H; right; auto.
Qed.
Lemma roundItems_fin labels b : forall rn, (forall ens, In ens b -> forall t, In t ens -> t <> Nil) ->
  ((forall x, In x (roundItems C labels rn b) -> x <> None) <-> forall t, In t (concat b) -> finTree t = true).
Proof.
  induction b as [|ens b IH]; intros rn HN; cbn [roundItems concat].
  - split; simpl; tauto.
  - specialize (IH (S rn) ltac:(intros; eapply HN; [right; eauto|auto])).
    pose proof (classItems_fin labels ens 0 (HN ens ltac:(left; auto))) as HC. split.
    + intros H t Ht. apply in_app_iff in Ht as [Ht|Ht].
      * apply (proj1 HC); auto. intros x Hx. apply H. right. apply in_app_iff. auto.
      * apply (proj1 IH); auto. intros x Hx. apply H. right. apply in_app_iff. auto.
    + intros H x [<-|Hx]; [discriminate|]. apply in_app_iff in Hx as [Hx|Hx].
      * apply (proj2 HC); auto. intros; apply H. apply in_app_iff. auto.
      * apply (proj2 IH); auto. intros; apply H. apply in_app_iff. auto.
Qed.

Lemma items_finite M name : writable M -> ((forall x, In x (modelItems C M name) -> x <> None) <-> modelFinite M).
Proof.
  intros HW. unfold modelItems, modelFinite.
  pose proof (roundItems_fin (mc_labels M) (mc_b M) 0 (fun ens He => proj2 (HW ens He))) as HR.
  unfold marshalMeta, finiteMeta. cbn [jm_lr jm_base].
  assert (HT : (forall t, In t (concat (mc_b M)) -> treeFinite t) <-> forall t, In t (concat (mc_b M)) -> finTree t = true).
  { split; intros H t Ht; apply finTree_iff; auto. }
  rewrite HT, <- HR. split.
  - intros H. assert (HM : ffinite (mc_lr M) && ffinite (mc_base M) = true).
    { destruct (ffinite (mc_lr M) && ffinite (mc_base M)) eqn:E; auto. exfalso. eapply H; [left; reflexivity|auto]. }
    apply andb_true_iff in HM as [-> ->]. split; [auto|]. split; [auto|]. intros x Hx. apply H. simpl. auto.
  - intros (-> & -> & H) x [<-|Hx]; [discriminate|auto].
Qed.

Lemma c44_lemma M name wok : writable M -> exists out ok, JSONMultiClass C M name wok = Ok (out, ok) /\
  (exists rest, modelItems C M name = map Some out ++ rest /\ (ok = true <-> rest = [])) /\
  ((forall n, wok n = true) -> (ok = true <-> modelFinite M)).
Proof.
  intros HW. destruct (JSONMultiClass_spec M name wok HW) as (out & ok & HJ & rest & HE & H1 & H2). exists out, ok. split; [auto|].
  simpl in HE. split.
  - exists rest. split; [auto|]. split; [auto|]. intros ->. destruct ok; auto. destruct (H2 eq_refl) as (x & r & [=] & _).
  - intros Hok. rewrite <- items_finite with (name := name) by auto. rewrite HE. split.
    + intros ->. rewrite H1 by auto. rewrite app_nil_r. intros x Hx. apply in_map_iff in Hx as (y & <- & _). discriminate.
    + intros H. destruct ok; auto. destruct (H2 eq_refl) as (x & r & -> & [ -> | Hx ]); [|rewrite Hok in Hx; discriminate Hx].
      exfalso. apply (H None); auto. apply in_app_iff. simpl. auto.
Qed.
End Write.

(** *** reading a saved model *)
Section Reload.
Context (C : Codec) (HC : CodecOk C) (E : Env).
Lemma unRead_tree t ls rest trees class : treeItem C t = Some ls ->
  unRead C (ls ++ rest) trees class = unRead C rest trees (Some (orNil class ++ [unsampled t])).
Proof.
  intros H. assert (HN : t <> Nil) by (intros ->; discriminate H). rewrite treeItem_spec in H by auto. destruct (finTree t) eqn:EF; [|discriminate H].
  injection H as <-. pose proof (JSONTree_spec C t 0 HN) as HJ. rewrite EF in HJ.
  pose proof (read_written C HC t _ _ _ rest HJ) as HR. unfold readTree in HR. rewrite unRead_eq.
  destruct (jnodes t 0) as [|j js] eqn:EJ; [destruct t; [congruence|discriminate EJ]|].
  cbn [map] in *. rewrite unlines_cons, <- app_assoc in *. simpl app in HR at 2. simpl app at 2. rewrite readLine_app in HR |- * by apply (ck_node_nl C HC).
  rewrite !containsT_snoc, (ck_node_round C HC), (ck_node_class C HC); try discriminate.
  - rewrite HR. reflexivity.
  - intros HI. simpl in HI. repeat (destruct HI as [HI|HI]; [discriminate HI|]). destruct HI.
  - intros HI. simpl in HI. repeat (destruct HI as [HI|HI]; [discriminate HI|]). destruct HI.
Qed.
Lemma digits_not c z : In c (decZ z) -> c <> NL /\ c <> "R"%char /\ c <> "O"%char /\ c <> "C"%char.
Proof.
  intros H. apply decZ_chars in H as [H|H]; [|subst c; repeat split; discriminate].
  repeat split; intros ->; discriminate H.
Qed.
Lemma lit_in c s : In c (tx s) <-> existsb (Ascii.eqb c) (tx s) = true.
Proof.
  rewrite existsb_exists. split.
  - intros H. exists c. split; [auto|apply Ascii.eqb_refl].
  - intros (x & Hx & E1). apply Ascii.eqb_eq in E1. congruence.
Qed.
Lemma unRead_round rn rest trees class :
  unRead C (roundLine rn ++ rest) trees class = unRead C rest (match class with Some c => trees ++ [c] | None => trees end) (Some []).
Proof.
  rewrite unRead_eq. unfold roundLine.
  replace ((tx "ROUND " ++ decZ (Z.of_nat rn) ++ [NL]) ++ rest) with ((tx "ROUND " ++ decZ (Z.of_nat rn)) ++ NL :: rest)
    by (rewrite <- !app_assoc; reflexivity).
  rewrite readLine_app.
  - replace (containsT _ (tx "ROUND")) with true; [reflexivity|]. symmetry. apply containsT_iff. exists [], (tx " " ++ decZ (Z.of_nat rn) ++ [NL]).
    rewrite <- app_assoc. reflexivity.
  - intros HI. apply in_app_iff in HI as [HI|HI]; [apply lit_in in HI; discriminate HI|]. apply digits_not in HI. tauto.
Qed.
Lemma unRead_class cn lab rest trees class : unRead C (classLine cn lab ++ rest) trees class = unRead C rest trees class.
Proof.
  rewrite unRead_eq. unfold classLine. rewrite <- !app_assoc.
  set (s := tx "CLASS " ++ decZ (Z.of_nat cn) ++ tx ", label: " ++ decZ lab ++ tx " ").
  replace (tx "CLASS " ++ decZ (Z.of_nat cn) ++ tx ", label: " ++ decZ lab ++ tx " " ++ [NL] ++ rest) with (s ++ NL :: rest)
    by (unfold s; rewrite <- !app_assoc; reflexivity).
  assert (HI : forall c, In c s -> c <> NL /\ c <> "R"%char).
  { intros c Hc. unfold s in Hc. repeat rewrite in_app_iff in Hc.
    destruct Hc as [Hc|[Hc|[Hc|[Hc|Hc]]]]; try (apply digits_not in Hc; tauto); split; intros ->; apply lit_in in Hc; discriminate Hc. }
  rewrite readLine_app by (intros H; apply HI in H; tauto).
  change (tx "ROUND") with ("R"%char :: tx "OUND"). rewrite containsT_no.
  2: { intros H. apply in_app_iff in H as [H|[H|[]]]; [apply HI in H; tauto|discriminate H]. }
  replace (containsT _ (tx "CLASS")) with true; [reflexivity|]. symmetry. apply containsT_iff. exists [], (tx " " ++ decZ (Z.of_nat cn) ++ tx ", label: " ++ decZ lab ++ tx " " ++ [NL]).
  unfold s. rewrite <- !app_assoc. reflexivity.
Qed.

Lemma unRead_classes labels ts : forall cn outs rest trees c, map Some outs = classItems C labels cn ts ->
  unRead C (concat outs ++ rest) trees (Some c) = unRead C rest trees (Some (c ++ map unsampled ts)).
Proof.
  induction ts as [|t ts IH]; intros cn outs rest trees c HO; cbn [classItems] in HO.
  - destruct outs; [|discriminate HO]. simpl. rewrite app_nil_r. auto.
  - destruct outs as [|o1 [|o2 outs]]; try discriminate HO. cbn [map] in HO. injection HO as -> Ht HO. cbn [concat]. rewrite <- !app_assoc.
    rewrite unRead_class, (unRead_tree t o2) by auto. cbn [orNil]. rewrite (IH (S cn)) by auto. cbn [map]. rewrite <- app_assoc. reflexivity.
Qed.
Lemma map_Some_app {A} (l : list A) : forall a b, map Some l = a ++ b -> exists l1 l2, l = l1 ++ l2 /\ map Some l1 = a /\ map Some l2 = b.
Proof.
  intros a; revert l; induction a as [|x a IH]; intros l b H; simpl in H; [exists [], l; auto|].
  destruct l as [|y l]; [discriminate H|]. injection H as <- H. destruct (IH l b H) as (l1 & l2 & -> & <- & <-). exists (y :: l1), l2. auto.
Qed.
Lemma unRead_rounds labels b : forall rn outs trees class, map Some outs = roundItems C labels rn b ->
  unRead C (concat outs) trees class = Ok (Some (removelast (trees ++ match class with Some c => [c] | None => [] end ++ map (map unsampled) b ++
     match b, class with [], None => [[]] | _, _ => [] end))).
Proof.
  induction b as [|ens b IH]; intros rn outs trees class HO; cbn [roundItems] in HO.
  - destruct outs; [|discriminate HO]. simpl. rewrite unRead_eq. cbn [readLine]. destruct class as [c|]; simpl; rewrite removelast_last; auto.
  - destruct outs as [|o1 outs]; [discriminate HO|]. cbn [map] in HO. injection HO as -> HO. cbn [concat].
    apply map_Some_app in HO as (outs1 & outs2 & -> & H1 & H2). rewrite concat_app, unRead_round.
    rewrite (unRead_classes labels ens 0) by auto. rewrite (IH (S rn)) by auto. f_equal. f_equal. f_equal. cbn [map app].
    destruct class as [c|]; destruct b; rewrite ?app_nil_r, <- ?app_assoc; reflexivity.
Qed.

Lemma reload_lemma M name out wok : writable M -> JSONMultiClass C M name wok = Ok (out, true) ->
  exists M', UnJSONMultiClass C E (concat out) true = Ok (Some M') /\
    mc_b M' = removelast (map (map unsampled) (mc_b M)) /\ mc_lr M' = mc_lr M /\ mc_labels M' = mc_labels M /\
    mc_base M' = mc_base M /\ mc_xgb M' = false /\
    mc_pt M' = (if text_eqb name (tx "softmax") then Some (fun P Q => SoftMaxDense E P (Some Q)) else None).
Proof.
  intros HW HJ. destruct (JSONMultiClass_spec C M name wok HW) as (out' & ok & HJ' & rest & HE & H1 & _).
  assert (out' = out /\ ok = true) by (split; congruence). destruct H as [-> ->]. rewrite (H1 eq_refl), app_nil_r in HE. simpl app in HE.
  unfold modelItems in HE. destruct out as [|o outs]; [discriminate HE|]. cbn [map] in HE. injection HE as Ho HE.
  unfold marshalMeta in Ho. destruct (finiteMeta _) eqn:EF; [|discriminate Ho]. injection Ho as <-.
  destruct (ck_meta C HC _ EF) as (m' & Hm & A1 & A2 & A3 & A4). cbn [jm_lr jm_labels jm_base jm_name] in *.
  unfold UnJSONMultiClass. cbn [concat]. rewrite <- app_assoc. simpl app at 2. rewrite readLine_app by apply (ck_meta_nl C HC). rewrite Hm.
  change (unLoop C (S (length (concat outs))) (concat outs) [] None) with (unRead C (concat outs) [] None).
  rewrite (unRead_rounds (mc_labels M) (mc_b M) 0) by auto. cbn [bind app]. eexists. split; [reflexivity|]. cbn [mc_b mc_lr mc_labels mc_base mc_xgb mc_pt].
  split.
  { destruct (mc_b M); simpl; [auto|]. rewrite app_nil_r. auto. }
  split; [auto|]. split; [auto|]. split; [auto|]. split; [auto|]. unfold ProbTransformMap.
  destruct (text_eqb name (tx "softmax")) eqn:EN.
  - apply text_eqb_iff in EN. rewrite (proj2 (text_eqb_iff _ _) (proj2 A4 EN)). auto.
  - destruct (text_eqb (jm_name m') (tx "softmax")) eqn:EN2; auto. apply text_eqb_iff, A4, text_eqb_iff in EN2. congruence.
Qed.

Lemma truncated_lemma p q M : UnJSONMultiClass C E (p ++ q) true = Ok (Some M) ->
  UnJSONMultiClass C E p true = Ok None \/
  exists M', UnJSONMultiClass C E p true = Ok (Some M') /\ isPrefix (mc_b M') (mc_b M) /\ mc_lr M' = mc_lr M /\ mc_labels M' = mc_labels M /\
    mc_base M' = mc_base M /\ mc_pt M' = mc_pt M.
Proof.
  unfold UnJSONMultiClass. intros H. destruct (readLine p) as [[s p']|] eqn:ER; [|auto].
  rewrite (readLine_prefix _ q _ _ ER) in H. destruct (c_unmeta C s) as [m|]; [|discriminate H].
  change (unLoop C (S (length (p' ++ q))) (p' ++ q) [] None) with (unRead C (p' ++ q) [] None) in H.
  change (unLoop C (S (length p')) p' [] None) with (unRead C p' [] None).
  destruct (unRead_prefix C (length p') p' q [] None) as [HN|(T & HT & HQ)]; [lia|rewrite HN; auto|].
  rewrite HT. cbn [bind]. right. destruct HQ as [HQ|(T' & HQ & HP)]; [rewrite HQ in H; discriminate H|]. rewrite HQ in H. cbn [bind] in H. injection H as <-.
  eexists. split; [reflexivity|]. cbn. auto.
Qed.
End Reload.

Lemma rawScores_map M b' row : mc_b M = map (map unsampled) b' ->
  rawScores M row = rawScores (MkMC b' (mc_lr M) (mc_labels M) (mc_pt M) (mc_base M) (mc_xgb M)) row.
Proof.
  intros HB. unfold rawScores. cbn [mc_b mc_base mc_lr]. rewrite HB.
  assert (HI : idx (map (map unsampled) b') 0 = match idx b' 0 with Ok b0 => Ok (map unsampled b0) | Panic => Panic | Diverge => Diverge end).
  { unfold idx. simpl. destruct b'; reflexivity. }
  rewrite HI. destruct (idx b' 0) as [b0| |]; cbn [bind]; auto. rewrite map_length. generalize (repeat (mc_base M) (length b0)). clear HB HI.
  assert (HA : forall ens c tmp, addTrees (mc_lr M) row c (map unsampled ens) tmp = addTrees (mc_lr M) row c ens tmp).
  { induction ens as [|t ens IH]; intros c tmp; cbn [map addTrees]; auto. rewrite unsampled_predict.
    destruct (PredictSingle t row); cbn [bind]; auto. destruct (idx tmp c); cbn [bind]; auto. destruct (upd tmp c _); cbn [bind]; auto. }
  induction b' as [|ens b' IH]; intros tmp; cbn [map foldM]; auto. rewrite HA. destruct (addTrees (mc_lr M) row 0 ens tmp); cbn [bind]; auto.
Qed.

Lemma addTrees_nd lr row ens : forall c tmp, addTrees lr row c ens tmp <> Diverge.
Proof.
  induction ens as [|t ens IH]; intros c tmp; cbn [addTrees]; [discriminate|].
  assert (HP : forall t, PredictSingle t row <> Diverge).
  { induction t0 as [|d l IHl r IHr]; cbn [PredictSingle]; [discriminate|]. destruct (t_leaf d); [discriminate|].
    pose proof (idx_not_Diverge row (t_split d)). destruct (idx row (t_split d)); cbn [bind]; try congruence. destruct (fleb _ _); auto. }
  specialize (HP t). destruct (PredictSingle t row); cbn [bind]; try congruence.
  pose proof (idx_not_Diverge tmp c). destruct (idx tmp c); cbn [bind]; try congruence.
  unfold upd. destruct (_ || _); cbn [bind]; [discriminate|]. apply IH.
Qed.
Lemma rawScores_nd M row : rawScores M row <> Diverge.
Proof.
  unfold rawScores. pose proof (idx_not_Diverge (mc_b M) 0). destruct (idx (mc_b M) 0); cbn [bind]; try congruence.
  generalize (repeat (mc_base M) (length a)). induction (mc_b M) as [|ens b IH]; intros tmp; cbn [foldM]; [discriminate|].
  pose proof (addTrees_nd (mc_lr M) row ens 0 tmp). destruct (addTrees (mc_lr M) row 0 ens tmp); cbn [bind]; try congruence; auto.
Qed.
Lemma no_transform M row bufs : mc_pt M = None -> PredictMC M row bufs = Panic.
Proof.
  intros H. unfold PredictMC. pose proof (rawScores_nd M row). destruct (rawScores M row) as [tmp| |]; cbn [bind]; try congruence.
  rewrite H. unfold NewDense.
  repeat match goal with |- context [if ?c then _ else _] => destruct c; cbn [bind]; try reflexivity end.
Qed.
Lemma PredictMC_ext M M' row bufs : rawScores M row = rawScores M' row -> mc_pt M = mc_pt M' -> PredictMC M row bufs = PredictMC M' row bufs.
Proof. intros H1 H2. unfold PredictMC. rewrite H1, H2. reflexivity. Qed.
