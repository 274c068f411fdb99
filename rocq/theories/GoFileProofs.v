(** Proofs for C153 (xjson.go:37-94, utils/json.go:62-94): a file is read line by line. *)
From Coq Require Import Ascii String.
From Verif Require Import Base F64 Env Utils Tree Options Train Text Json SpecJson JsonProofs SpecGoFile.
From Coq Require Import List.
Open Scope Z_scope.

Section C.
Variable C : Codec.
Lemma sameLines_read r r' : sameLines C r r' ->
  (readLine r = None /\ readLine r' = None) \/
  exists s s' q q', readLine r = Some (s, q) /\ readLine r' = Some (s', q') /\ sameLine C s s' /\ sameLines C q q'.
Proof.
  intros [a b H1 H2|s s' q q' H1 H2 H3 H4].
  - left. split; apply readLine_None; auto.
  - right. exists (s ++ [NL]), (s' ++ [NL]), q, q'. rewrite !readLine_app by auto. auto.
Qed.
(** two readings of a tree *)
Definition sameTree (a b : res (option (tree * text))) : Prop :=
  match a, b with
  | Ok None, Ok None => True
  | Ok (Some (t, r)), Ok (Some (t', r')) => t = t' /\ sameLines C r r'
  | Panic, Panic => True
  | Diverge, Diverge => True
  | _, _ => False
  end.
Lemma UnJSON_same fuel : forall s s' r r', c_unnode C s = c_unnode C s' -> sameLines C r r' ->
  sameTree (UnJSONTree C fuel s r) (UnJSONTree C fuel s' r').
Proof.
  induction fuel as [|fuel IH]; intros s s' r r' HS HR; [exact I|]. cbn [UnJSONTree]. rewrite <- HS. destruct (c_unnode C s) as [j|]; [|exact I].
  set (child := fun (id : Z) (r0 : text) => if 0 <? id then match readLine r0 with Some (s0, r1) => UnJSONTree C fuel s0 r1 | None => Ok None end else Ok (Some (Nil, r0))).
  assert (HC : forall id q q', sameLines C q q' -> sameTree (child id q) (child id q')).
  { intros id q q' HQ. unfold child. destruct (0 <? id); [|split; auto].
    destruct (sameLines_read _ _ HQ) as [[-> ->]|(t & t' & u & u' & -> & -> & (_ & _ & HT) & HU)]; [exact I|]. apply IH; auto. }
  change (sameTree (bind (child (j_left j) r) (fun lo => match lo with None => Ok None | Some (l, r1) =>
     bind (child (j_right j) r1) (fun ro => match ro with None => Ok None | Some (rt, r2) => Ok (Some (Node (creator j) l rt, r2)) end) end))
    (bind (child (j_left j) r') (fun lo => match lo with None => Ok None | Some (l, r1) =>
     bind (child (j_right j) r1) (fun ro => match ro with None => Ok None | Some (rt, r2) => Ok (Some (Node (creator j) l rt, r2)) end) end))).
  specialize (HC (j_left j) r r' HR) as H1. destruct (child (j_left j) r) as [[[l r1]|]| |], (child (j_left j) r') as [[[l' r1']|]| |]; cbn [sameTree] in H1; try contradiction; cbn [bind]; try exact I.
  destruct H1 as [<- H1]. specialize (HC (j_right j) r1 r1' H1) as H2.
  destruct (child (j_right j) r1) as [[[t r2]|]| |], (child (j_right j) r1') as [[[t' r2']|]| |]; cbn [sameTree] in H2; try contradiction; cbn [bind]; try exact I.
  destruct H2 as [<- H2]. split; auto.
Qed.
Lemma unRead_same n : forall r r' trees class, (length r <= n)%nat -> sameLines C r r' -> unRead C r trees class = unRead C r' trees class.
Proof.
  induction n as [|n IH]; intros r r' trees class HL HR; rewrite (unRead_eq C r), (unRead_eq C r');
    (destruct (sameLines_read _ _ HR) as [[-> ->]|(s & s' & q & q' & H1 & H2 & (HR1 & HR2 & HR3) & HQ)]; [auto|]);
    pose proof (readLine_shorter _ _ _ H1); [lia|]. rewrite H1, H2, <- HR1, <- HR2.
  destruct (containsT s (tx "ROUND")); [apply IH; [lia|auto]|]. destruct (containsT s (tx "CLASS")); [apply IH; [lia|auto]|].
  set (f := S (max (length q) (length q'))).
  destruct (UnJSON_total C (S (length q)) s q) as (o & Ho & Hlen & Hf); [lia|]. destruct (UnJSON_total C (S (length q')) s' q') as (o' & Ho' & _ & Hf'); [lia|].
  rewrite Ho, Ho'. pose proof (UnJSON_same f s s' q q' HR3 HQ) as HT. rewrite (Hf f), (Hf' f) in HT by (unfold f; lia). cbn [bind].
  destruct o as [[t r2]|], o' as [[t' r2']|]; cbn [sameTree] in HT; try contradiction; auto.
  destruct HT as [<- HT]. specialize (Hlen t r2 eq_refl). apply IH; [lia|auto].
Qed.
Lemma load_same E f f' eof : sameFile C f f' -> UnJSONMultiClass C E f eof = UnJSONMultiClass C E f' eof.
Proof.
  intros (s & s' & r & r' & -> & -> & H1 & H2 & H3 & H4). unfold UnJSONMultiClass. rewrite !readLine_app, H3 by auto.
  destruct (c_unmeta C (s' ++ [NL])); auto. pose proof (unRead_same (length r) r r' [] None (le_n _) H4) as H. unfold unRead in H. rewrite H. auto.
Qed.
End C.

Lemma sameLine_refl C s : sameLine C s s.
Proof. repeat split. Qed.
Lemma sameLines_refl C n : forall r, (length r <= n)%nat -> sameLines C r r.
Proof.
  induction n as [|n IH]; intros r H; (destruct (readLine r) as [[l q]|] eqn:E; [|apply readLine_None in E; constructor; auto]);
    pose proof (readLine_shorter _ _ _ E); [lia|]. apply readLine_Some in E as (s & -> & H1 & ->). apply sl_line; auto; [apply sameLine_refl|]. apply IH. lia.
Qed.
(** replacing one line *)
Lemma sameLines_replace C t t' b : ~ In NL t -> ~ In NL t' -> sameLine C (t ++ [NL]) (t' ++ [NL]) -> forall n a, (length a <= n)%nat ->
  sameLines C (a ++ NL :: t ++ NL :: b) (a ++ NL :: t' ++ NL :: b).
Proof.
  intros Ht Ht' HS n. induction n as [|n IH]; intros a H.
  - destruct a as [|c a]; [|cbn in H; lia]. cbn [app]. apply (sl_line C [] [] (t ++ NL :: b)); auto; [apply sameLine_refl|]. apply sl_line; auto. apply (sameLines_refl C (length b)); auto.
  - destruct (readLine a) as [[l q]|] eqn:E.
    + pose proof (readLine_shorter _ _ _ E). apply readLine_Some in E as (s & -> & H1 & ->). rewrite <- !app_assoc. cbn [app]. apply sl_line; auto; [apply sameLine_refl|]. apply IH. lia.
    + apply readLine_None in E. apply sl_line; auto; [apply sameLine_refl|]. apply sl_line; auto. apply (sameLines_refl C (length b)); auto.
Qed.
Lemma replace_line C E t t' a b eof : ~ In NL t -> ~ In NL t' -> sameLine C (t ++ [NL]) (t' ++ [NL]) ->
  UnJSONMultiClass C E (a ++ NL :: t ++ NL :: b) eof = UnJSONMultiClass C E (a ++ NL :: t' ++ NL :: b) eof.
Proof.
  intros Ht Ht' HS. apply load_same. destruct (readLine a) as [[l q]|] eqn:EA.
  - apply readLine_Some in EA as (s & -> & H1 & ->). exists s, s, (q ++ NL :: t ++ NL :: b), (q ++ NL :: t' ++ NL :: b). rewrite <- !app_assoc. cbn [app].
    split; auto. split; auto. split; auto. split; auto. split; auto. apply (sameLines_replace C t t' b Ht Ht' HS (length q)). auto.
  - apply readLine_None in EA. exists a, a, (t ++ NL :: b), (t' ++ NL :: b). split; auto. split; auto. split; auto. split; auto. split; auto.
    apply sl_line; auto. apply (sameLines_refl C (length b)); auto.
Qed.
Lemma replace_meta C E t t' b eof : ~ In NL t -> ~ In NL t' -> c_unmeta C (t ++ [NL]) = c_unmeta C (t' ++ [NL]) ->
  UnJSONMultiClass C E (t ++ NL :: b) eof = UnJSONMultiClass C E (t' ++ NL :: b) eof.
Proof.
  intros Ht Ht' HS. apply load_same. exists t, t', b, b. split; auto. split; auto. split; auto. split; auto. split; auto. apply (sameLines_refl C (length b)); auto.
Qed.
