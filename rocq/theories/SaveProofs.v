(** Proofs about saved models (proof support for C111 and C112). *)
From Coq Require Import Reals Lra Ascii String.
From Flocq Require Import Core IEEE754.BinarySingleNaN.
From Verif Require Import Base F64 F64Lemmas Env Utils Tree Options Train Spec SpecTrain UtilsProofs Text Json SpecJson JsonProofs JsonMore TrainMore CV Grid SpecGrid CVProofs GridProofs PrintProofs Save SpecSave.
From Coq Require Import List.
Open Scope Z_scope.

Lemma wr_classes C wok labels ts : forall cn out, writeClasses C wok labels cn ts out = classesTo (wr wok) C labels cn ts out.
Proof.
  induction ts as [|t ts IH]; intros cn out; cbn [writeClasses classesTo]; [reflexivity|]. destruct (idx labels (Z.of_nat cn)); cbn [bind]; auto.
  destruct (wr wok out _) as [o1 k1]. destruct (negb k1); auto. destruct (JSONTree C t 0) as [[o ?]| |]; cbn [bind]; auto. destruct o as [[ls i]|]; auto.
  destruct (wr wok o1 _) as [o2 k2]. destruct (negb k2); auto.
Qed.
Lemma wr_rounds C wok labels b : forall rn out, writeRounds C wok labels rn b out = roundsTo (wr wok) C labels rn b out.
Proof.
  induction b as [|e b IH]; intros rn out; cbn [writeRounds roundsTo]; [reflexivity|]. destruct (wr wok out _) as [o1 k1]. destruct (negb k1); auto.
  rewrite wr_classes. destruct (classesTo (wr wok) C labels 0 e o1) as [[o2 k2]| |]; cbn [bind]; auto. destruct (negb k2); auto.
Qed.
Lemma wr_JSON C M name wok : JSONMultiClass C M name wok = JSONTo (wr wok) C M name [].
Proof. unfold JSONMultiClass, JSONTo. destruct (marshalMeta C _); auto. destruct (wr wok [] _) as [o1 k1]. destruct (negb k1); auto. apply wr_rounds. Qed.

(** feeding items to a writer *)
Fixpoint feed {W} (ws : W -> text -> W * bool) (w : W) (items : list (option text)) : W * bool :=
  match items with
  | [] => (w, true)
  | None :: _ => (w, false)
  | Some s :: rest => let '(w1, ok) := ws w s in if ok then feed ws w1 rest else (w1, false)
  end.
Lemma feed_app {W} (ws : W -> text -> W * bool) a b : forall w, feed ws w (a ++ b) = let '(w1, ok) := feed ws w a in if ok then feed ws w1 b else (w1, false).
Proof.
  induction a as [|[s|] a IH]; intros w; cbn [app feed]; auto. destruct (ws w s) as [w1 ok]. destruct ok; auto.
Qed.
Section Items.
Context {W : Type} (ws : W -> text -> W * bool) (C : Codec).
Lemma classes_feed labels ts : forall cn w, (cn + length ts <= length labels)%nat -> (forall t, In t ts -> t <> Nil) ->
  classesTo ws C labels cn ts w = Ok (feed ws w (classItems C labels cn ts)).
Proof.
  induction ts as [|t ts IH]; intros cn w HL HN; cbn [classesTo classItems]; [reflexivity|].
  cbn [length] in HL. destruct (nth_error labels cn) as [lab|] eqn:El; [|apply nth_error_None in El; lia].
  rewrite (proj2 (idx_of_nat _ _ _) El). cbn [bind]. rewrite (nth_error_nth _ _ 0 El). cbn [feed]. destruct (ws w (classLine cn lab)) as [w1 ok1].
  destruct ok1; cbn [negb]; [|reflexivity]. assert (HNt : t <> Nil) by (apply HN; left; auto). rewrite JSONTree_spec by auto. cbn [bind].
  rewrite (treeItem_spec C t HNt). destruct (finTree t); [|reflexivity]. rewrite joinNL_unlines by (destruct t; [congruence|discriminate]).
  destruct (ws w1 _) as [w2 ok2]. destruct ok2; cbn [negb]; [|reflexivity]. apply IH; [lia|intros; apply HN; right; auto].
Qed.
Lemma rounds_feed labels b : forall rn w, (forall ens, In ens b -> (length ens <= length labels)%nat /\ forall t, In t ens -> t <> Nil) ->
  roundsTo ws C labels rn b w = Ok (feed ws w (roundItems C labels rn b)).
Proof.
  induction b as [|e b IH]; intros rn w HB; cbn [roundsTo roundItems feed]; [reflexivity|]. destruct (ws w (roundLine rn)) as [w1 ok1].
  destruct ok1; cbn [negb]; [|reflexivity]. destruct (HB e ltac:(left; auto)) as [HL HN]. rewrite classes_feed by (cbn [Nat.add]; auto). cbn [bind].
  rewrite feed_app. destruct (feed ws w1 (classItems C labels 0 e)) as [w2 ok2]. destruct ok2; cbn [negb]; [|reflexivity]. apply IH. intros. apply HB; right; auto.
Qed.
Lemma JSON_feed M name w : writable M -> JSONTo ws C M name w = Ok (feed ws w (modelItems C M name)).
Proof.
  intros HW. unfold JSONTo, modelItems. destruct (marshalMeta C _) as [j|]; [|reflexivity]. cbn [feed]. destruct (ws w (j ++ [NL])) as [w1 ok1].
  destruct ok1; cbn [negb]; [|reflexivity]. apply rounds_feed. exact HW.
Qed.
End Items.

(** the items up to the first that cannot be written *)
Fixpoint written (items : list (option text)) : list text * bool :=
  match items with [] => ([], true) | None :: _ => ([], false) | Some s :: r => let '(l, ok) := written r in (s :: l, ok) end.
Lemma feed_wr items : forall out, feed (wr (fun _ => true)) out items = (out ++ fst (written items), snd (written items)).
Proof.
  induction items as [|[s|] items IH]; intros out; cbn [feed written]; [rewrite app_nil_r; reflexivity| |cbn [fst snd]; rewrite app_nil_r; reflexivity].
  unfold wr at 1. rewrite IH. destruct (written items) as [l ok]. cbn [fst snd]. rewrite <- app_assoc. reflexivity.
Qed.
Lemma JSON_written C M name : writable M -> JSONMultiClass C M name (fun _ => true) = Ok (written (modelItems C M name)).
Proof. intros HW. rewrite wr_JSON, JSON_feed by auto. rewrite feed_wr. cbn [app]. rewrite <- surjective_pairing. reflexivity. Qed.

(** the buffered writer: nothing is lost or reordered, and the file always holds an initial part of what was written *)
Section Buffered.
Context (size : nat) (fok : nat -> option nat).
Definition inFile (w : bufw) (s : text) : Prop := bw_file w ++ bw_buf w = s.
Lemma prefix_firstn (a b : text) m s : isPrefix (a ++ firstn m b) (a ++ b ++ s).
Proof. exists (skipn m b ++ s). rewrite <- app_assoc, (app_assoc (firstn m b)), firstn_skipn. reflexivity. Qed.
Lemma fileWrite_ok w s rest : bw_err w = false ->
  (bw_err (fileWrite fok w s rest) = false /\ bw_file (fileWrite fok w s rest) = bw_file w ++ s /\ bw_buf (fileWrite fok w s rest) = rest) \/
  (bw_err (fileWrite fok w s rest) = true /\ isPrefix (bw_file (fileWrite fok w s rest)) (bw_file w ++ s) /\ exists k m, fok k = Some m).
Proof.
  intros He. unfold fileWrite. destruct (fok (bw_writes w)) as [m|] eqn:Ef; cbn [bw_err bw_file bw_buf].
  - right. split; [auto|]. split; [|eauto]. pose proof (prefix_firstn (bw_file w) s m []) as HP. rewrite app_nil_r in HP. exact HP.
  - left. auto.
Qed.
Lemma flush_ok w : bw_err w = false ->
  (bw_err (flush fok w) = false /\ bw_file (flush fok w) = bw_file w ++ bw_buf w /\ bw_buf (flush fok w) = []) \/
  (bw_err (flush fok w) = true /\ isPrefix (bw_file (flush fok w)) (bw_file w ++ bw_buf w) /\ exists k m, fok k = Some m).
Proof.
  intros He. unfold flush. rewrite He. destruct (bw_buf w) as [|c b] eqn:Eb.
  - left. rewrite app_nil_r. auto.
  - apply fileWrite_ok. auto.
Qed.
Lemma writeString_ok w s : bw_err w = false ->
  (snd (writeString size fok w s) = true /\ bw_err (fst (writeString size fok w s)) = false /\
     inFile (fst (writeString size fok w s)) (bw_file w ++ bw_buf w ++ s)) \/
  (snd (writeString size fok w s) = false /\ isPrefix (bw_file (fst (writeString size fok w s))) (bw_file w ++ bw_buf w ++ s) /\ exists k m, fok k = Some m).
Proof.
  intros He. unfold writeString. rewrite He. cbv zeta.
  assert (HD : forall w s, bw_err w = false -> bw_buf w = [] ->
    let w' := if (length s <=? size - length (bw_buf w))%nat then MkBW (bw_file w) (bw_buf w ++ s) (bw_err w) (bw_writes w) else fileWrite fok w s [] in
    (bw_err w' = false /\ inFile w' (bw_file w ++ s)) \/ (bw_err w' = true /\ isPrefix (bw_file w') (bw_file w ++ s) /\ exists k m, fok k = Some m)).
  { clear w s He. intros w s He Hb w'. unfold w'. destruct (length s <=? size - length (bw_buf w))%nat.
    - left. split; [auto|]. unfold inFile. cbn [bw_file bw_buf]. rewrite Hb. reflexivity.
    - destruct (fileWrite_ok w s [] He) as [(H1 & H2 & H3)|(H1 & H2 & H3)]; [left|right; auto]. split; [auto|]. unfold inFile. rewrite H2, H3, app_nil_r. reflexivity. }
  destruct (length s <=? size - length (bw_buf w))%nat eqn:EL.
  - left. cbn [fst snd bw_err]. unfold inFile. cbn [bw_file bw_buf negb]. auto.
  - destruct (bw_buf w) as [|c b] eqn:Eb.
    + destruct (fileWrite_ok w s [] He) as [(H1 & H2 & H3)|(H1 & H2 & H3)]; cbn [fst snd]; rewrite H1; [left|right; auto].
      unfold inFile. rewrite H2, H3, app_nil_r. auto.
    + rewrite <- Eb in *. clear Eb. set (n := (size - length (bw_buf w))%nat).
      set (w0 := MkBW (bw_file w) (bw_buf w ++ firstn n s) false (bw_writes w)). assert (He0 : bw_err w0 = false) by reflexivity.
      destruct (flush_ok w0 He0) as [(H1 & H2 & H3)|(H1 & H2 & H3)]; rewrite H1; cbn [fst snd negb].
      * pose proof (HD (flush fok w0) (skipn n s) H1 H3) as HK. cbv zeta in HK. rewrite H1 in HK. destruct HK as [(K1 & K2)|(K1 & K2 & K3)]; [left|right]; cbn [fst snd]; rewrite K1; cbn [negb].
        -- split; [auto|]. split; [auto|]. unfold inFile in *. rewrite K2, H2. unfold w0. cbn [bw_file bw_buf]. rewrite <- !app_assoc, firstn_skipn. reflexivity.
        -- split; [auto|]. split; [|auto]. destruct K2 as [r K2]. exists r. rewrite <- K2, H2. unfold w0. cbn [bw_file bw_buf]. rewrite <- !app_assoc, firstn_skipn. reflexivity.
      * right. rewrite H1. cbn [negb]. split; [auto|]. split; [|auto]. destruct H2 as [r H2]. exists (r ++ skipn n s). rewrite (app_assoc _ r), <- H2. unfold w0. cbn [bw_file bw_buf].
        rewrite <- !app_assoc, firstn_skipn. reflexivity.
Qed.
Lemma feed_buffered items : forall w, bw_err w = false ->
  (snd (feed (writeString size fok) w items) = snd (written items) /\ bw_err (fst (feed (writeString size fok) w items)) = false /\
     inFile (fst (feed (writeString size fok) w items)) (bw_file w ++ bw_buf w ++ concat (fst (written items)))) \/
  (snd (feed (writeString size fok) w items) = false /\
     isPrefix (bw_file (fst (feed (writeString size fok) w items))) (bw_file w ++ bw_buf w ++ concat (fst (written items))) /\ exists k m, fok k = Some m).
Proof.
  induction items as [|[s|] items IH]; intros w He; cbn [feed written].
  - left. cbn [fst snd concat]. unfold inFile. rewrite app_nil_r. auto.
  - pose proof (writeString_ok w s He) as HW. destruct (writeString size fok w s) as [w1 ok]. cbn [fst snd] in HW.
    destruct (written items) as [l okl] eqn:EW. cbn [fst snd concat] in *. destruct HW as [(-> & H1 & H2)|(-> & H1 & H2)].
    + unfold inFile in H2. assert (HE : bw_file w ++ bw_buf w ++ s ++ concat l = bw_file w1 ++ bw_buf w1 ++ concat l) by (rewrite (app_assoc (bw_file w1)), H2, <- !app_assoc; reflexivity).
      rewrite HE. apply IH. auto.
    + right. cbn [fst snd]. split; [auto|]. split; [|auto]. destruct H1 as [r H1]. exists (r ++ concat l). rewrite (app_assoc _ r), <- H1, <- !app_assoc. reflexivity.
  - left. cbn [fst snd concat]. unfold inFile. rewrite app_nil_r. auto.
Qed.
End Buffered.

(** ** one save *)
Lemma setFile_same d n s : setFile d n s n = Some s.
Proof. unfold setFile. destruct (list_eq_dec ascii_dec n n); congruence. Qed.
Lemma setFile_other d n s m : m <> n -> setFile d n s m = d m.
Proof. intros H. unfold setFile. destruct (list_eq_dec ascii_dec m n); congruence. Qed.

Lemma c111_create_lemma {K} size fok C E rnd (D : DataBunch K) acc op d : writeBest size fok false C E rnd D acc op d = (d, Ok false).
Proof. reflexivity. Qed.
Lemma c111_effect_lemma {K} size fok C E rnd (D : DataBunch K) acc op : exists p r, (forall d, writeBest size fok true C E rnd D acc op d = (setFile d (modelName acc) p, r)) /\
  (NewMultiClass E rnd D op = Panic -> p = [] /\ r = Panic) /\
  (forall tr, NewMultiClass E rnd D op = Ok tr -> writable (tr_model tr) ->
     exists full, writablePart C (tr_model tr) full /\ isPrefix p full /\ (r = Ok true \/ r = Ok false) /\
       (r = Ok true -> modelFinite (tr_model tr))).
Proof.
  unfold writeBest. cbn [negb]. destruct (NewMultiClass E rnd D op) as [tr| |].
  2: { eexists [], _. split; [reflexivity|]. split; [auto|intros tr [=]]. }
  2: { eexists [], _. split; [reflexivity|]. split; [intros [=]|intros tr [=]]. }
  destruct (JSONTo (writeString size fok) C (tr_model tr) (tx "softmax") (MkBW [] [] false 0)) as [[w ok]| |] eqn:EJ.
  2: { eexists [], _. split; [reflexivity|]. split; [intros [=]|]. intros tr0 H HW. apply Ok_inj in H. subst tr0. rewrite JSON_feed in EJ by auto. discriminate EJ. }
  2: { eexists [], _. split; [reflexivity|]. split; [intros [=]|]. intros tr0 H HW. apply Ok_inj in H. subst tr0. rewrite JSON_feed in EJ by auto. discriminate EJ. }
  exists (if ok then bw_file (flush fok w) else bw_file w), (Ok ok). split; [intros d; destruct ok; reflexivity|]. split; [intros [=]|].
  intros tr0 H HW. apply Ok_inj in H. subst tr0. rewrite JSON_feed in EJ by auto. apply Ok_inj in EJ.
  pose proof (JSON_written C (tr_model tr) (tx "softmax") HW) as HJ.
  pose proof (feed_buffered size fok (modelItems C (tr_model tr) (tx "softmax")) (MkBW [] [] false 0) eq_refl) as HF. rewrite EJ in HF. cbn [fst snd bw_file bw_buf app] in HF.
  destruct (written (modelItems C (tr_model tr) (tx "softmax"))) as [out okw] eqn:EW. cbn [fst snd] in HF.
  exists (concat out). split; [exists out, okw; auto|].
  assert (HFin : okw = true -> modelFinite (tr_model tr)).
  { destruct (c44_lemma C (tr_model tr) (tx "softmax") (fun _ => true) HW) as (out' & ok' & HJ' & _ & HI). intros ->. apply HI; [auto|].
    rewrite HJ in HJ'. apply Ok_inj in HJ'. congruence. }
  destruct HF as [(-> & H1 & H2)|(-> & H1 & H2)].
  - split; [|split; [destruct okw; auto|intros HR; apply HFin; congruence]]. unfold inFile in H2. destruct okw.
    + rewrite <- H2. destruct (flush_ok fok w H1) as [(_ & K2 & _)|(_ & K2 & _)]; [rewrite K2; exists []; rewrite app_nil_r; reflexivity|exact K2].
    + rewrite <- H2. eexists; reflexivity.
  - split; [auto|split; [auto|intros [=]]].
Qed.

Lemma c111_complete_lemma {K} size fok C E rnd (D : DataBunch K) acc op tr : (forall k, fok k = None) -> NewMultiClass E rnd D op = Ok tr -> writable (tr_model tr) ->
  (modelFinite (tr_model tr) -> exists s, modelText C (tr_model tr) s /\ forall d, writeBest size fok true C E rnd D acc op d = (setFile d (modelName acc) s, Ok true)) /\
  (~ modelFinite (tr_model tr) -> forall d, snd (writeBest size fok true C E rnd D acc op d) = Ok false).
Proof.
  intros Hf Htr HW. unfold writeBest. cbn [negb]. rewrite Htr, JSON_feed by auto.
  pose proof (JSON_written C (tr_model tr) (tx "softmax") HW) as HJ.
  destruct (c44_lemma C (tr_model tr) (tx "softmax") (fun _ => true) HW) as (out' & ok' & HJ' & _ & HI). rewrite HJ in HJ'. apply Ok_inj in HJ'. specialize (HI (fun _ => eq_refl)).
  pose proof (feed_buffered size fok (modelItems C (tr_model tr) (tx "softmax")) (MkBW [] [] false 0) eq_refl) as HF. rewrite HJ' in HF. cbn [fst snd bw_file bw_buf app] in HF.
  destruct HF as [(H0 & H1 & H2)|(_ & _ & (k & m & HX))]; [|rewrite Hf in HX; discriminate].
  destruct (feed (writeString size fok) (MkBW [] [] false 0) (modelItems C (tr_model tr) (tx "softmax"))) as [w ok]. cbn [fst snd] in *. subst ok. split.
  - intros HM. apply HI in HM. subst ok'. exists (concat out'). split; [exists out'; split; [rewrite HJ, HJ'|]; auto|]. intros d.
    destruct (flush_ok fok w H1) as [(_ & K2 & _)|(_ & _ & (k & m & HX))]; [|rewrite Hf in HX; discriminate]. unfold inFile in H2. rewrite K2, H2. reflexivity.
  - intros HM d. destruct ok'; [exfalso; apply HM, HI; auto|]. reflexivity.
Qed.

(** everything fits in the buffer: only Flush writes, and its error is not looked at *)
Lemma feed_fits size fok items : forall w, bw_err w = false -> snd (written items) = true -> (length (bw_buf w ++ concat (fst (written items))) <= size)%nat ->
  feed (writeString size fok) w items = (MkBW (bw_file w) (bw_buf w ++ concat (fst (written items))) false (bw_writes w), true).
Proof.
  induction items as [|[s|] items IH]; intros w He HS HL; cbn [feed written] in *.
  - cbn [fst concat]. rewrite app_nil_r. destruct w as [f b e k]; cbn in *. subst. reflexivity.
  - destruct (written items) as [l okl]. cbn [fst snd concat] in *. unfold writeString at 1. rewrite He.
    assert (HLs : (length s <=? size - length (bw_buf w))%nat = true) by (apply Nat.leb_le; rewrite !app_length in HL; lia). rewrite HLs. cbn [negb bw_err].
    rewrite IH; cbn [bw_file bw_buf bw_err bw_writes]; [|auto|auto|]; rewrite <- ?app_assoc; [reflexivity|auto].
  - discriminate HS.
Qed.
Lemma c111_silent_lemma {K} size fok C E rnd (D : DataBunch K) acc op tr s m : NewMultiClass E rnd D op = Ok tr -> writable (tr_model tr) -> modelText C (tr_model tr) s ->
  s <> [] -> (length s <= size)%nat -> fok 0%nat = Some m -> forall d, writeBest size fok true C E rnd D acc op d = (setFile d (modelName acc) (firstn m s), Ok true).
Proof.
  intros Htr HW (out & HJ & ->) Hs HL Hf d. unfold writeBest. cbn [negb]. rewrite Htr, JSON_feed by auto.
  rewrite JSON_written in HJ by auto. apply Ok_inj in HJ. rewrite feed_fits; rewrite ?HJ; cbn [fst snd bw_file bw_buf bw_err bw_writes app]; auto.
  unfold flush. cbn [bw_err bw_buf]. destruct (concat out) as [|c l] eqn:EC; [congruence|]. unfold fileWrite. cbn [bw_writes]. rewrite Hf. reflexivity.
Qed.
Lemma c111_names_lemma a b : modelName a = modelName b <-> ftoZ a = ftoZ b.
Proof. unfold modelName. split; [|congruence]. intros H. apply app_inv_head in H. apply app_inv_tail in H. apply dec_inj; auto. Qed.
Lemma save_keeps_options {K} E rnd (D : DataBunch K) op tr : NewMultiClass E rnd D (fixMCW op) = Ok tr -> tr_opts tr = fixMCW op.
Proof. intros H. apply train_opts in H. rewrite H. apply fixMCW_idem. Qed.

(** ** a search *)
Section Search.
Context (T : nat -> f64 -> option Options -> text) (save : nat -> f64 -> option Options -> dir -> dir * res bool) (HS : savesText T save).
Definition apply1 (d : dir) (x : nat * f64 * option Options) : dir := let '(k, a, op) := x in setFile d (modelName a) (T k a op).

Definition returned (x : nat * f64 * option Options) : Prop := let '(k, a, op) := x in exists d d' ok, save k a op d = (d', Ok ok).
Lemma rescue_same sent : forall k b f d d' q, rescueSaving save k sent b f d = (d', Ok q) -> rescueConcValues sent b f = Ok q.
Proof.
  clear HS. induction sent as [|s sent IH]; intros k b f d d' q H; cbn [rescueSaving rescueConcValues] in *; [congruence|].
  destruct s as [|[[|]| |] [|[|a|] more]]; try congruence. destruct (fltb a fzero); [congruence|]. destruct more as [|[|?|op] more]; try congruence.
  destruct (fltb b a); [|eapply IH; eauto]. destruct (save k a op d) as [d1 [ok| |]]; try congruence. eapply IH; eauto.
Qed.
Lemma rescue_files rets : forall k b f d d' bf, Forall sentShape rets -> rescueSaving save k (map cv_sent rets) b f d = (d', Ok (inl bf)) ->
  exists outs, Forall2 (fun r out => outcomeIs r (Some out)) rets outs /\ bf = collect b f outs /\ d' = fold_left apply1 (records k b outs) d /\ Forall returned (records k b outs).
Proof.
  induction rets as [|r rets IH]; intros k b f d d' bf HF H; cbn [map rescueSaving] in H.
  - injection H as <- <-. exists []. split; [constructor|]. cbn [records]. auto.
  - inversion HF as [|x y Hr HF']; subst. unfold sentShape in Hr. rewrite Hr in H. destruct (cv_err r) eqn:Ee; [discriminate H|].
    destruct (fltb (cv_acc r) fzero) eqn:En; [discriminate H|].
    assert (HO : outcomeIs r (Some (cv_acc r, cv_opts r))) by (cbn [outcomeIs]; auto).
    destruct (fltb b (cv_acc r)) eqn:Eb.
    + destruct (save k (cv_acc r) (cv_opts r) d) as [d1 [ok| |]] eqn:Hk; try discriminate H. pose proof Hk as Hk0. apply HS in Hk. apply IH in H as (outs & H1 & H2 & H3 & H4); [|auto].
      exists ((cv_acc r, cv_opts r) :: outs). split; [constructor; auto|]. cbn [collect records]. rewrite Eb. cbn [fold_left apply1]. rewrite <- Hk. split; [auto|]. split; [auto|]. constructor; [|auto]. cbn [returned]. eauto.
    + apply IH in H as (outs & H1 & H2 & H3 & H4); [|auto]. exists ((cv_acc r, cv_opts r) :: outs). split; [constructor; auto|]. cbn [collect records]. rewrite Eb. auto.
Qed.
Lemma records_app l1 : forall k b f l2, records k b (l1 ++ l2) = records k b l1 ++ records (k + length l1) (fst (collect b f l1)) l2.
Proof.
  induction l1 as [|[a op] l1 IH]; intros k b f l2; cbn [app records collect length fst].
  - rewrite Nat.add_0_r. reflexivity.
  - replace (k + S (length l1))%nat with (S k + length l1)%nat by lia. destruct (fltb b a); cbn [app]; [f_equal; apply IH|apply IH].
Qed.

(** saving does not change what the search returns *)
Definition projR (q : (gstate * dir) + (gridRet * dir)) : gstate + gridRet := match q with inl (s, _) => inl s | inr (e, _) => inr e end.
Lemma forLoop_proj {A} (le : A -> A -> bool) (add : A -> A -> A) (body : A -> gstate -> res (gstate + gridRet)) (body' : A -> gstate * dir -> res ((gstate * dir) + (gridRet * dir))) :
  (forall x s d q, body' x (s, d) = Ok q -> body x s = Ok (projR q)) ->
  forall fuel x hi st s d q, forLoop le add fuel x hi st body' (s, d) = Ok q -> forLoop le add fuel x hi st body s = Ok (projR q).
Proof.
  intros HB fuel. induction fuel as [|n IH]; intros x hi st s d q H; cbn [forLoop] in *; [discriminate H|]. destruct (le x hi); [|injection H as <-; reflexivity].
  apply bind_Ok in H as (q1 & Hq & H). apply HB in Hq. rewrite Hq. cbn [bind]. destruct q1 as [[s' d']|[e d']]; cbn [projR]; [eapply IH; eauto|injection H as <-; reflexivity].
Qed.
Lemma body_proj N eval t s d q : gridBodySaving save N eval t (s, d) = Ok q -> gridBody N eval t s = Ok (projR q).
Proof.
  unfold gridBody, gridBodySaving. intros H. destruct (N <=? Z.of_nat (length (gs_pending s))); [discriminate H|].
  destruct (Z.of_nat (length (gs_pending s)) + 1 =? N); [|injection H as <-; reflexivity].
  apply bind_Ok in H as (rets & -> & H). cbn [bind]. destruct (rescueSaving save _ _ _ _ d) as [d' rr] eqn:ER. apply bind_Ok in H as (q1 & -> & H).
  apply rescue_same in ER. rewrite ER. cbn [bind]. destruct q1 as [[b f]|u]; injection H as <-; reflexivity.
Qed.
Lemma grid_proj fuel id eval o d r d' : GridSaving save fuel id eval o d = Ok (r, d') -> GridWith fuel id eval o = Ok r.
Proof.
  unfold GridWith, GridSaving. destruct (g_ncpus o <? 0); [discriminate|]. intros H. apply bind_Ok in H as (q & Hq & H).
  match goal with |- (r0 <- ?A ;; _) = _ => assert (HE : A = Ok (projR q)) end.
  { revert Hq. unfold forZ, forF. do 8 (apply forLoop_proj; intros ? ? ? ?). apply body_proj. }
  rewrite HE. cbn [bind]. destruct q as [[s d1]|[e d1]]; cbn [projR]; congruence.
Qed.

(** the files *)
Lemma forLoop_inv {A St R} (le : A -> A -> bool) (add : A -> A -> A) (body : A -> St -> res (St + R)) (I : St -> Prop) (Q : R -> Prop) :
  (forall x s r, I s -> body x s = Ok r -> match r with inl s' => I s' | inr e => Q e end) ->
  forall fuel x hi st s r, I s -> forLoop le add fuel x hi st body s = Ok r -> match r with inl s' => I s' | inr e => Q e end.
Proof.
  intros HB fuel. induction fuel as [|n IH]; intros x hi st s r HI H; cbn [forLoop] in H; [discriminate H|]. destruct (le x hi).
  - apply bind_Ok in H as (q & Hq & H). apply HB in Hq; [|auto]. destruct q as [s'|e]; [eapply IH; eauto|]. injection H as <-. auto.
  - injection H as <-. auto.
Qed.
Definition sinv (N : Z) (eval : nat -> Options -> res cvRet) (d0 : dir) (sd : gstate * dir) : Prop := let '(s, d) := sd in exists outs done,
  gs_spawned s = done ++ map snd (gs_pending s) /\ map fst (gs_pending s) = seq (length done) (length (gs_pending s)) /\
  Z.of_nat (length (gs_pending s)) < N /\ length outs = length done /\
  (forall k out, nth_error outs k = Some out -> outcomeAt eval (gs_spawned s) k (Some out)) /\
  (gs_best s, gs_final s) = collect fzero None outs /\ d = fold_left apply1 (records 0 fzero outs) d0 /\ Forall returned (records 0 fzero outs).
Lemma sbody_inv N eval d0 : evalShape eval -> forall t sd r, sinv N eval d0 sd -> gridBodySaving save N eval t sd = Ok r ->
  match r with inl sd' => sinv N eval d0 sd' | inr e => gr_err (fst e) = true end.
Proof.
  intros HE t [s d] r (outs & done & I1 & I2 & I4 & I5 & I6 & I7 & I8 & I9) H. unfold gridBodySaving in H.
  destruct (Z.leb_spec N (Z.of_nat (length (gs_pending s)))) as [|_]; [discriminate H|].
  set (pending := gs_pending s ++ [(length (gs_spawned s), t)]) in *. set (spawned := gs_spawned s ++ [t]) in *.
  assert (P1 : spawned = done ++ map snd pending) by (unfold spawned, pending; rewrite I1, map_app, app_assoc; auto).
  assert (P2 : map fst pending = seq (length done) (length pending)).
  { unfold pending. rewrite map_app, I2, app_length. cbn [length]. rewrite seq_app. cbn [map fst seq]. rewrite I1, app_length, map_length. auto. }
  assert (P3 : length pending = S (length (gs_pending s))) by (unfold pending; rewrite app_length; cbn [length]; lia).
  assert (P4 : forall i p, nth_error pending i = Some p -> fst p = (length done + i)%nat /\ nth_error spawned (length done + i) = Some (snd p)).
  { intros i p Hp. split.
    - assert (HX : nth_error (map fst pending) i = Some (fst p)) by (rewrite nth_error_map, Hp; auto). rewrite P2 in HX.
      assert (i < length pending)%nat by (apply nth_error_Some; congruence).
      rewrite (nth_error_nth' _ 0%nat) in HX by (rewrite seq_length; auto). rewrite seq_nth in HX by auto. congruence.
    - rewrite P1, nth_error_app2 by lia. replace (length done + i - length done)%nat with i by lia. rewrite nth_error_map, Hp. auto. }
  destruct (Z.eqb_spec (Z.of_nat (length (gs_pending s)) + 1) N) as [HN|HN].
  - apply bind_Ok in H as (rets & Hm & H). apply mapM_nthE in Hm as [M1 M2].
    assert (HF : Forall sentShape rets).
    { apply Forall_forall. intros r9 Hr'. apply In_nth_error in Hr' as (i & Hi). apply M2 in Hi as (p & _ & He). eapply HE; eauto. }
    destruct (rescueSaving save _ (map cv_sent rets) (gs_best s) (gs_final s) d) as [d' rr] eqn:ER.
    apply bind_Ok in H as (q & -> & H). destruct q as [[b f]|u]; injection H as <-; [|reflexivity].
    apply rescue_files in ER as (outs2 & F & Hc & Hd & Hg); [|auto].
    assert (HK : (length (gs_spawned s) - length (gs_pending s) = length outs)%nat) by (rewrite I1, app_length, map_length; lia). rewrite HK in Hd, Hg.
    exists (outs ++ outs2), spawned. cbn [gs_spawned gs_pending gs_best gs_final map length]. rewrite app_nil_r.
    assert (HL2 : length outs2 = length pending) by (rewrite <- M1; symmetry; clear -F; induction F; cbn [length]; auto).
    assert (HLs : length spawned = (length done + length pending)%nat) by (rewrite P1, app_length, map_length; auto).
    split; [auto|]. split; [auto|]. split; [lia|]. split; [rewrite app_length; lia|]. split; [|split; [|split]].
    + intros k out Hk. destruct (Nat.lt_ge_cases k (length outs)) as [Hlt|Hge].
      * rewrite nth_error_app1 in Hk by auto. unfold spawned. apply outAt_app. auto.
      * rewrite nth_error_app2 in Hk by auto. destruct (F2_nth _ _ _ F _ _ Hk) as (r & Hr & HO). apply M2 in Hr as (p & Hp & He).
        apply P4 in Hp as [Hp1 Hp2]. exists (snd p), r. rewrite Hp1 in He. replace k with (length done + (k - length outs))%nat by lia. auto.
    + rewrite collect_app, <- I7. cbn [fst snd]. auto.
    + rewrite (records_app outs 0 fzero None outs2), fold_left_app, <- I8, <- I7. cbn [fst Nat.add]. auto.
    + rewrite (records_app outs 0 fzero None outs2), <- I7. cbn [fst Nat.add]. apply Forall_app. auto.
  - injection H as <-. exists outs, done. cbn [gs_spawned gs_pending gs_best gs_final]. repeat (split; [auto; fail|]). split; [lia|]. split; [auto|]. split; [|auto].
    intros k out Hk. apply outAt_app. auto.
Qed.
Lemma grid_files fuel id eval o d r d' : evalShape eval -> 1 <= g_ncpus o -> GridSaving save fuel id eval o d = Ok (r, d') -> gr_err r = false ->
  exists outs, (forall k out, nth_error outs k = Some out -> outcomeAt eval (gr_spawned r) k (Some out)) /\
    (gr_acc r, gr_opts r) = collect fzero None outs /\ d' = fold_left apply1 (records 0 fzero outs) d /\ Forall returned (records 0 fzero outs).
Proof.
  intros HE HN H Hr. unfold GridSaving in H. destruct (g_ncpus o <? 0); [discriminate H|]. apply bind_Ok in H as (q & Hq & H).
  assert (HI : match q with inl sd => sinv (g_ncpus o) eval d sd | inr e => gr_err (fst e) = true end).
  { revert Hq. unfold forZ, forF. apply forLoop_inv.
    2: { exists [], []. cbn. repeat (split; [auto; fail|]). split; [lia|]. split; [auto|]. split; [|auto]. intros [|k] out Hk; discriminate Hk. }
    intros x1 s1 r1 I1. revert r1. intros r1. revert I1. generalize s1, r1. clear s1 r1.
    do 7 (intros ? ?; apply forLoop_inv; intros ?). apply sbody_inv; auto. }
  destruct q as [[s d1]|[e d1]].
  - injection H as <- <-. destruct HI as (outs & done & I1 & I2 & I4 & I5 & I6 & I7 & I8 & I9). exists outs. cbn [gr_spawned gr_acc gr_opts]. auto.
  - injection H as <- <-. cbn [fst] in HI. congruence.
Qed.
End Search.

(** the records *)
Lemma records_last l : forall k b f, (records k b l = [] /\ collect b f l = (b, f)) \/
  exists rs j a op, records k b l = rs ++ [(j, a, op)] /\ collect b f l = (a, op) /\ fltb b a = true /\ forall i a' op', In (i, a', op') rs -> fltb a' a = true.
Proof.
  induction l as [|[a op] l IH]; intros k b f; cbn [records collect]; [left; auto|]. destruct (fltb b a) eqn:Eb; [|apply IH].
  right. destruct (IH (S k) a op) as [[H1 H2]|(rs & j & a1 & op1 & H1 & H2 & H3 & H4)].
  - exists [], k, a, op. rewrite H1. split; [reflexivity|]. split; [auto|]. split; [auto|]. intros i a' op' [].
  - exists ((k, a, op) :: rs), j, a1, op1. rewrite H1. split; [reflexivity|]. split; [auto|]. split; [eapply fltb_trans; eauto|].
    intros i a' op' [HI|HI]; [|eauto]. injection HI as <- <- <-. auto.
Qed.
Lemma records_In l : forall k b i a op, In (i, a, op) (records k b l) -> (k <= i)%nat /\ nth_error l (i - k) = Some (a, op).
Proof.
  induction l as [|[a0 op0] l IH]; intros k b i a op H; cbn [records] in H; [destruct H|].
  assert (HS : forall b', In (i, a, op) (records (S k) b' l) -> (k <= i)%nat /\ nth_error ((a0, op0) :: l) (i - k) = Some (a, op)).
  { intros b' HI. apply IH in HI as [H1 H2]. split; [lia|]. replace (i - k)%nat with (S (i - S k)) by lia. exact H2. }
  destruct (fltb b a0); [destruct H as [H|H]|]; eauto. injection H as <- <- <-. rewrite Nat.sub_diag. auto.
Qed.
Lemma apply_In T rs : forall d n, fold_left (apply1 T) rs d n = d n \/
  exists k a op, In (k, a, op) rs /\ n = modelName a /\ fold_left (apply1 T) rs d n = Some (T k a op).
Proof.
  induction rs as [|[[k a] op] rs IH]; intros d n; cbn [fold_left]; [auto|].
  destruct (IH (apply1 T d (k, a, op)) n) as [HX|(k1 & a1 & op1 & H1 & H2 & H3)].
  - rewrite HX. unfold apply1. unfold setFile. destruct (list_eq_dec ascii_dec n (modelName a)) as [->|]; [|auto]. right. exists k, a, op. split; [left; auto|auto].
  - right. exists k1, a1, op1. split; [right; auto|auto].
Qed.
Lemma c112_grid_lemma T save fuel id eval o d r d' : savesText T save -> evalShape eval -> 1 <= g_ncpus o -> GridSaving save fuel id eval o d = Ok (r, d') ->
  GridWith fuel id eval o = Ok r /\ (gr_err r = false ->
    (gr_acc r = fzero /\ gr_opts r = None /\ forall n, d' n = d n) \/
    (exists k, outcomeAt eval (gr_spawned r) k (Some (gr_acc r, gr_opts r)) /\ d' (modelName (gr_acc r)) = Some (T k (gr_acc r) (gr_opts r)) /\ returned save (k, gr_acc r, gr_opts r)) /\
    fltb fzero (gr_acc r) = true /\
    forall n, d' n = d n \/ exists k a op, outcomeAt eval (gr_spawned r) k (Some (a, op)) /\ n = modelName a /\ fleb a (gr_acc r) = true /\ d' n = Some (T k a op)).
Proof.
  intros HS HE HN H. split; [eapply grid_proj; eauto|]. intros Hr. destruct (grid_files T save HS fuel id eval o d r d' HE HN H Hr) as (outs & H1 & H2 & -> & HG).
  destruct (records_last outs 0 fzero None) as [[R1 R2]|(rs & j & a & op & R1 & R2 & R3 & R4)].
  - left. rewrite R2 in H2. injection H2 as -> ->. rewrite R1. cbn [fold_left]. auto.
  - right. rewrite R2 in H2. injection H2 as -> ->.
    assert (HO : forall k a' op', In (k, a', op') (records 0 fzero outs) -> outcomeAt eval (gr_spawned r) k (Some (a', op'))).
    { intros k a' op' HI. apply records_In in HI as [_ HI]. rewrite Nat.sub_0_r in HI. apply H1; auto. }
    split; [|split; [auto|]].
    + exists j. split; [apply HO; rewrite R1; apply in_app_iff; right; left; auto|]. split; [rewrite R1, fold_left_app; cbn [fold_left apply1]; apply setFile_same|]. rewrite R1 in HG. apply Forall_app in HG as [_ HG]. inversion HG; auto.
    + intros n. destruct (apply_In T (records 0 fzero outs) d n) as [HX|(k1 & a1 & op1 & K1 & K2 & K3)]; [left; auto|]. right. exists k1, a1, op1.
      split; [auto|]. split; [auto|]. split; [|auto]. rewrite R1 in K1. apply in_app_iff in K1 as [K1|[K1|[]]]; [apply fltb_leb; eauto|].
      injection K1 as <- <- <-. apply fltb_true in R3 as (_ & R3 & _). apply fleb_true. repeat split; auto. lra.
Qed.
Lemma c112_number_lemma a b : fleb fzero a = true -> fleb a b = true -> fleb b (fofZ 100) = true -> 0 <= ftoZ a <= ftoZ b.
Proof.
  intros H1 H2 H3. apply fleb_true in H1 as (_ & Na & H1). apply fleb_true in H2 as (_ & Nb & H2). apply fleb_true in H3 as (_ & _ & H3). change (ext fzero) with 0%R in H1.
  destruct (fofZ_bound 100 7) as (F & [_ B] & _); [lia|lia|lia|]. rewrite (ext_finite _ F) in H3.
  assert (HM : (bpow radix2 7 < Mx)%R) by (unfold Mx; apply bpow_lt; lia). assert (HM' : (bpow radix2 7 < bpow radix2 63)%R) by (apply bpow_lt; lia).
  assert (Fa : ffinite a = true) by (apply finite_ext; auto; lra). assert (Fb : ffinite b = true) by (apply finite_ext; auto; lra).
  rewrite (ext_finite _ Fa) in *. rewrite (ext_finite _ Fb) in *. destruct (ftoZ_nonneg a Fa) as [E1 E2]; [lra|]. destruct (ftoZ_nonneg b Fb) as [E3 _]; [lra|].
  split; [auto|]. rewrite E1, E3. apply Ztrunc_le. auto.
Qed.
Lemma saveOf_savesText {K} size fok C E rnd (D : DataBunch K) id : exists T, savesText T (saveOf size fok C E rnd D id).
Proof.
  exists (fun k a op => match fst (saveOf size fok C E rnd D id k a op (fun _ => None)) (modelName a) with Some s => s | None => [] end).
  intros k a op d d' ok H. unfold saveOf in *. destruct (c111_effect_lemma size (fok k) C E (rnd k) D a (match op with Some o => o | None => DefaultXOptions id end)) as (p & r & HW & _).
  rewrite HW in *. cbn [fst]. rewrite setFile_same. congruence.
Qed.
Lemma c112_best_lemma {K} size fok C E rnd (D : DataBunch K) id fuel eval o d r d' : CodecOk C -> (forall k n, fok k n = None) -> (length (Data D) <= length (Labels D))%nat ->
  evalShape eval -> 1 <= g_ncpus o -> GridSaving (saveOf size fok C E rnd D id) fuel id eval o d = Ok (r, d') -> gr_err r = false -> fltb fzero (gr_acc r) = true ->
  forall O, gr_opts r = Some O -> exists k tr, NewMultiClass E (rnd k) D O = Ok tr /\
    (modelFinite (tr_model tr) -> exists s M', d' (modelName (gr_acc r)) = Some s /\ modelText C (tr_model tr) s /\ UnJSONMultiClass C E s true = Ok (Some M') /\
       mc_b M' = map (map unsampled) (removelast (mc_b (tr_model tr)))).
Proof.
  intros HC Hf HL HE HN H Hr Hp O HO. destruct (saveOf_savesText size fok C E rnd D id) as [T HT].
  destruct (c112_grid_lemma T _ fuel id eval o d r d' HT HE HN H) as [_ HX]. destruct (HX Hr) as [(H0 & _)|((k & _ & Hd & Hret) & _)].
  - rewrite H0, fltb_irrefl in Hp. discriminate Hp.
  - unfold returned, saveOf in Hret. rewrite HO in Hret. destruct Hret as (d1 & d2 & ok & Hret). pose proof Hret as Hret0. unfold writeBest in Hret0. cbn [negb] in Hret0.
    destruct (NewMultiClass E (rnd k) D O) as [tr| |] eqn:ET; [|discriminate Hret0|discriminate Hret0]. exists k, tr. split; [auto|]. intros HM.
    destruct (trained_writable _ _ _ _ _ ET HL) as [HW _].
    destruct (c111_complete_lemma size (fok k) C E (rnd k) D (gr_acc r) O tr (Hf k) ET HW) as [HCm _]. destruct (HCm HM) as (s & Hs & HWB).
    assert (HTs : T k (gr_acc r) (gr_opts r) = s).
    { rewrite HWB in Hret. injection Hret as Hd2 Hok. specialize (HT k (gr_acc r) (gr_opts r) d1 d2 true). unfold saveOf in HT. rewrite HO, HWB, Hd2 in HT. specialize (HT eq_refl).
      rewrite <- Hd2 in HT. rewrite <- HO in HT. apply (f_equal (fun h => h (modelName (gr_acc r)))) in HT. rewrite !setFile_same in HT. congruence. }
    destruct (c43_lemma C E (tr_model tr) (tx "softmax") HC HW HM) as (out & M' & H1 & H2 & H3 & _). exists s, M'. split; [congruence|]. split; [auto|].
    destruct Hs as (out1 & Hs1 & Hs2). rewrite Hs1 in H1. apply Ok_inj in H1. injection H1 as ->. subst s. auto.
Qed.
