(** Each training step fits a tree to the current predictions and records the loss after it (C29, C32, C81). *)
From Coq Require Import Reals Lra.
From Verif Require Import Base F64 F64Lemmas Env EnvLemmas Utils Tree Spec UtilsProofs TreeProofs UtilsThms ActProofs Options Train SpecTrain TrainProofs TrainThms.
Open Scope Z_scope.

Lemma sumAt_spec v : forall ix acc s, sumAt v ix acc = Ok s <-> exists xs, Forall2 (look v) ix xs /\ s = fold_left fadd xs acc.
Proof.
  induction ix as [|w ix IH]; intros acc s; simpl.
  - split; [intros [= <-]; exists []; auto|]. intros (xs & HF & ->). inversion HF. auto.
  - split.
    + intros H. apply bind_Ok in H as (x & Hx & H). apply idx_Ok in Hx as [Hw Hx]. apply IH in H as (xs & HF & ->).
      exists (x :: xs). split; auto. constructor; auto. split; [lia|auto].
    + intros (xs & HF & ->). inversion HF as [|a x b xs' Hx HF']; subst. destruct Hx as [Hw Hx].
      assert (Hi : idx v w = Ok x).
      { apply idx_Ok. split; auto. }
      rewrite Hi. simpl. apply IH. eauto.
Qed.

Lemma updateLeaves_spec grad hess : forall t t', updateLeaves t grad hess = Ok t' -> leavesUpdated grad hess t t'.
Proof.
  induction t as [|d l IHl r IHr]; intros t' H; [discriminate|]. cbn [updateLeaves] in H.
  apply bind_Ok in H as (l' & Hl & H). apply bind_Ok in H as (r' & Hr & H).
  assert (HL : leavesUpdated grad hess l l') by (destruct l; [injection Hl as <-; constructor|auto]).
  assert (HR : leavesUpdated grad hess r r') by (destruct r; [injection Hr as <-; constructor|auto]).
  destruct (t_leaf d) eqn:Elf.
  - destruct (t_samples d) as [ix|] eqn:Es; [|discriminate]. apply bind_Ok in H as (sh & Hsh & H). apply bind_Ok in H as (sg & Hsg & H). injection H as <-.
    apply sumAt_spec in Hsh as (hs & HF1 & ->). apply sumAt_spec in Hsg as (gs & HF2 & ->).
    eapply lu_leaf with (ix := ix) (gs := gs) (hs := hs); eauto; simpl; congruence.
  - injection H as <-. apply lu_inner; auto.
Qed.

Section Steps.
Context (E : Env) (O : Options) (data : list (list f64)) (ohe : dense) (nl r : nat) (rnd : draws).
Context (HO : wfDense ohe) (HOr : d_r ohe = r) (HOc : d_c ohe = nl) (Hdata : (length data <= r)%nat).

Lemma inv_probsAt st es k pr : inv E O data nl r st es -> (k < nl)%nat -> DenseCol (s_probs st) (Z.of_nat k) = Ok pr ->
  probsAt E O data nl es k pr.
Proof.
  intros I Hk Hp i row Hi. destruct (inv_wf _ _ _ _ _ _ _ I) as (W1 & W2 & W3 & W4 & W5 & W6 & _).
  assert (Hir : (i < r)%nat) by (assert (i < length data)%nat by (apply nth_error_Some; congruence); lia).
  destruct (c21_densecol_lemma _ W4) as (HD & _). destruct (HD k ltac:(lia)) as (l & Hl & HlL & Hle).
  assert (l = pr) by congruence. subst l.
  exists (rowView (s_raw st) i), (rowView (s_probs st) i).
  assert (Hex : exists v, nth_error (rowView (s_probs st) i) k = Some v).
  { destruct (nth_error (rowView (s_probs st) i) k) eqn:En; eauto. apply nth_error_None in En. rewrite rowView_len in En; [lia|lia|apply W4]. }
  destruct Hex as [v Hv]. exists v.
  split; [rewrite rowView_len; [lia|lia|apply W1]|]. split; [|split; [|split; [auto|]]].
  - intros j Hj. destruct (inv_scores _ _ _ _ _ _ _ I i row j Hi Hir Hj) as (s & Hs & Ha). exists s. split; auto.
    apply rowView_entry; auto; lia.
  - apply (inv_probs _ _ _ _ _ _ _ I); auto.
  - apply Hle. split; [lia|]. apply rowView_entry; auto; lia.
Qed.

(** what is recorded about the tree of entry [e] trained after the trees [es1] *)
Definition stepOk (es1 : list entryG) (e : entryG) : Prop :=
  exists ix cols lab pr pr', roundSamples O data (rnd (g_round e)) = Ok (ix, cols) /\
    DenseCol ohe (Z.of_nat (g_class e)) = Ok lab /\
    probsAt E O data nl es1 (g_class e) pr /\ classTree E O data ix cols lab pr = Ok (g_tree e) /\
    probsAt E O data nl (es1 ++ [e]) (g_class e) pr' /\ g_loss e = l_loss (o_loss O) lab pr'.
Definition stepsOk (es : list entryG) : Prop := forall es1 e es2, es = es1 ++ e :: es2 -> stepOk es1 e.

Lemma stepsOk_snoc es e : stepsOk es -> stepOk es e -> stepsOk (es ++ [e]).
Proof.
  intros H1 H2 es1 e' es2 Heq. destruct es2 as [|x es2] using rev_ind.
  - apply app_inj_tail in Heq as [-> ->]. auto.
  - clear IHes2. rewrite app_comm_cons, app_assoc in Heq. apply app_inj_tail in Heq as [Heq _]. eapply H1; eauto.
Qed.

Lemma classStep_steps ix cols rd st es acc k st' acc' : roundSamples O data (rnd rd) = Ok (ix, cols) ->
  inv E O data nl r st (es ++ acc) -> stepsOk (es ++ acc) -> (k < nl)%nat ->
  classStep E O data ohe ix cols rd (st, acc) k = Ok (st', acc') -> stepsOk (es ++ acc').
Proof.
  intros HS I HK Hk H. pose proof (classStep_inv E O data ohe nl r HOr HOc ix cols rd st es acc k st' acc' I Hk H) as I'.
  destruct (classStep_spec E O data ohe nl r HOr HOc ix cols rd st acc k st' acc' (inv_wf _ _ _ _ _ _ _ I) Hk H) as [(_ & -> & ->)|(Es & t & l & -> & _ & _ & _ & _ & _ & lab & pr & pr' & H1 & H2 & H3 & H4 & H5)]; auto.
  rewrite app_assoc in *. apply stepsOk_snoc; auto. exists ix, cols, lab, pr, pr'. cbn [g_round g_class g_tree g_loss].
  split; [auto|]. split; [auto|]. split; [eapply inv_probsAt; eauto|]. split; [auto|]. split; [eapply inv_probsAt; eauto|]. auto.
Qed.

Lemma round_steps ix cols rd st es st' classes : roundSamples O data (rnd rd) = Ok (ix, cols) ->
  inv E O data nl r st es -> stepsOk es ->
  foldM (classStep E O data ohe ix cols rd) (st, []) (seq 0 nl) = Ok (st', classes) -> stepsOk (es ++ classes).
Proof.
  intros HS I HK H.
  assert (HP : inv E O data nl r (fst (st', classes)) (es ++ snd (st', classes)) /\ stepsOk (es ++ snd (st', classes))).
  { eapply (foldM_inv _ (fun _ sa => inv E O data nl r (fst sa) (es ++ snd sa) /\ stepsOk (es ++ snd sa))); [| |exact H].
    - cbn [fst snd]. rewrite app_nil_r. auto.
    - intros done k [s1 a1] [s2 a2] [P1 P2] Hs Hin _. cbn [fst snd] in *. apply in_seq in Hin. split.
      + eapply classStep_inv; eauto. lia.
      + eapply classStep_steps; eauto. lia. }
  apply HP.
Qed.

Lemma rounds_steps st0 n sb : inv E O data nl r st0 [] ->
  foldM (roundStep E O data ohe nl rnd) (st0, []) (seq 0 n) = Ok sb -> stepsOk (concat (snd sb)).
Proof.
  intros HI H.
  assert (HP : inv E O data nl r (fst sb) (concat (snd sb)) /\ stepsOk (concat (snd sb))); [|apply HP].
  eapply (foldM_inv _ (fun _ sb => inv E O data nl r (fst sb) (concat (snd sb)) /\ stepsOk (concat (snd sb)))); [| |exact H].
  - cbn [fst snd concat]. split; auto. intros es1 e es2 Heq. destruct es1; discriminate Heq.
  - intros done rd [s1 h1] sb2 [P1 P2] HS _ _. cbn [fst snd] in *. unfold roundStep in HS.
    apply bind_Ok in HS as ([ix cols] & Hs & HS). destruct (_ <? _); [injection HS as <-; auto|].
    apply bind_Ok in HS as ([st' cl] & Hf & HS). injection HS as <-. cbn [fst snd]. rewrite concat_app. cbn [concat]. rewrite app_nil_r.
    split; [eapply round_spec; eauto|eapply round_steps; eauto].
Qed.
End Steps.

Lemma roundSamples_rows O data rd ix cols : roundSamples O data rd = Ok (ix, cols) -> o_xgb O = true ->
  (if fltb (o_ss O) fone then ix = Some (map Z.of_nat (filter (fun i => fleb (fst rd i) (o_ss O)) (seq 0 (length data)))) else ix = None) /\
  (if fltb (o_css O) fone
   then exists row0, nth_error data 0 = Some row0 /\ cols = map Z.of_nat (filter (fun i => fleb (snd rd i) (o_css O)) (seq 0 (length row0)))
   else cols = []).
Proof.
  unfold roundSamples. intros H Hx. rewrite Hx, !andb_true_r in H. apply bind_Ok in H as (ix' & Hix & H). apply bind_Ok in H as (cols' & Hc & H).
  injection H as -> ->. split.
  - destruct (fltb (o_ss O) fone); [|congruence]. apply bind_Ok in Hix as (s & Hs & Hix). injection Hix as <-.
    unfold SubSample in Hs. destruct (_ <? 0); [discriminate|]. injection Hs as <-. rewrite Nat2Z.id. auto.
  - destruct (fltb (o_css O) fone); [|congruence]. apply bind_Ok in Hc as (row0 & Hr & Hc). apply idx_Ok in Hr as [_ Hr].
    exists row0. split; auto. unfold SubSample in Hc. destruct (_ <? 0); [discriminate|]. injection Hc as <-. rewrite Nat2Z.id. auto.
Qed.

Lemma classTree_fitted E O data rd ix cols lab pr t : roundSamples O data rd = Ok (ix, cols) ->
  classTree E O data ix cols lab pr = Ok t -> fitted E O data rd lab pr t.
Proof.
  intros HS H. unfold classTree in H. unfold fitted. destruct (o_xgb O) eqn:Ex.
  - destruct (roundSamples_rows _ _ _ _ _ HS Ex) as [H1 H2].
    eexists ix, cols, _. split; [exact H1|]. split; [exact H2|]. split; [|split; [|split; [|exact H]]]; reflexivity.
  - apply bind_Ok in H as (t0 & H0 & H). eexists _, t0. split; [|split; [|split; [exact H0|]]]; [reflexivity|reflexivity|].
    apply updateLeaves_spec. auto.
Qed.

(** as [NewMultiClass_inv], exposing the loop *)
Lemma NewMultiClass_run {K} E rnd (D : DataBunch K) O0 tr : NewMultiClass E rnd D O0 = Ok tr ->
  let nl := length (mc_labels (tr_model tr)) in let r := length (Labels D) in let O := fixMCW O0 in
  tr_opts tr = O /\
  exists ohe st0, wfDense ohe /\ d_r ohe = r /\ d_c ohe = nl /\
    (forall i j l w, nth_error (Labels D) i = Some l -> nth_error (mc_labels (tr_model tr)) j = Some w ->
       entry ohe i j (if w =? l then fone else fzero)) /\
    inv E O (Data D) nl r st0 [] /\
    foldM (roundStep E O (Data D) ohe nl rnd) (st0, []) (seq 0 (Z.to_nat (o_rounds O))) = Ok (tr_state tr, tr_hist tr).
Proof.
  unfold NewMultiClass. intros H. apply bind_Ok in H as ([ohe labels] & Hohe & H). apply bind_Ok in H as (raw0 & Hraw0 & H).
  apply bind_Ok in H as (probs & Hprobs & H). apply bind_Ok in H as ([st hist] & Hf & H). injection H as <-. cbn [tr_model tr_opts tr_hist tr_state].
  cbn [mc_labels]. split; [reflexivity|].
  destruct (c22_lemma (Labels D)) as [HN HS].
  assert (Hne : Labels D <> []) by (intros Hn; specialize (HN Hn); congruence).
  destruct (HS Hne) as (ohe' & labels' & Hohe' & HF & HW & Hr & Hc & Hent). assert (ohe' = ohe /\ labels' = labels) as [-> ->] by (split; congruence).
  exists ohe. eexists. split; [exact HW|]. split; [exact Hr|]. split; [exact Hc|]. split; [exact Hent|]. split; [|exact Hf].
  rewrite Hr, Hc in *. set (n := length (Labels D)) in *. set (c := length labels) in *. set (O := fixMCW O0) in *.
  unfold NewDense in Hraw0. destruct HW as (HW1 & HW2 & HW3).
  assert (Hz : (Nat.eqb n 0 || Nat.eqb c 0)%bool = false).
  { apply orb_false_iff. split; apply Nat.eqb_neq; lia. }
  rewrite Hz, repeat_length, Nat.eqb_refl in Hraw0. injection Hraw0 as <-.
  assert (HR : scaleDense (o_base O) (ToOnes (Dense n c (repeat fzero (n * c)))) = Dense n c (repeat (o_base O) (n * c))).
  { unfold scaleDense, ToOnes. cbn [d_r d_c d_data]. f_equal. rewrite map_map. generalize (n * c)%nat. intros q.
    rewrite (map_ext _ (fun _ => o_base O)) by (intros; apply fmul_1_r). clear.
    induction q as [|q IH]; simpl; [auto|]. f_equal. exact IH. }
  rewrite HR in *.
  assert (HWr : wfDense (Dense n c (repeat (o_base O) (n * c)))) by (repeat split; simpl; try lia; apply repeat_length).
  destruct (c80_lemma E (Dense n c (repeat (o_base O) (n * c))) None HWr) as (P' & HP' & HPW & HPr & HPc & HPs); [intros; discriminate|].
  assert (P' = probs) by congruence. subst P'. cbn [d_r d_c] in *.
  split; cbn [s_raw s_probs s_tmp s_stopped s_noprog s_prev].
  - split; [exact HWr|]. split; [reflexivity|]. split; [reflexivity|]. split; [exact HPW|]. cbn [s_raw s_probs s_tmp s_stopped s_noprog s_prev]. rewrite !repeat_length. repeat split; auto.
  - intros i row k Hi Hir Hk. exists (o_base O). split; [apply entry_repeat; auto|]. exists []. split; [constructor|reflexivity].
  - intros k Hk. unfold esv. cbn [s_raw s_probs s_tmp s_stopped s_noprog s_prev]. rewrite !nth_repeat. reflexivity.
  - intros k m _ Hm. simpl in Hm. lia.
  - intros e [].
  - exact HPs.
Qed.

Lemma c81_lemma {K} E rnd (D : DataBunch K) O0 tr : NewMultiClass E rnd D O0 = Ok tr -> (length (Data D) <= length (Labels D))%nat ->
  let O := tr_opts tr in let nl := length (ClassLabels (tr_model tr)) in
  forall es1 e es2, concat (tr_hist tr) = es1 ++ e :: es2 -> exists lab pr pr',
    indicator (Labels D) (ClassLabels (tr_model tr)) (g_class e) lab /\
    probsAt E O (Data D) nl es1 (g_class e) pr /\
    fitted E O (Data D) (rnd (g_round e)) lab pr (g_tree e) /\
    probsAt E O (Data D) nl (es1 ++ [e]) (g_class e) pr' /\
    g_loss e = l_loss (o_loss O) lab pr'.
Proof.
  intros H HL O nl es1 e es2 Heq. destruct (NewMultiClass_run E rnd D O0 tr H) as (EO & ohe & st0 & HW & Hr & Hc & Hent & HI & Hf).
  assert (HIh : hinv E (fixMCW O0) (Data D) nl (length (Labels D)) rnd (seq 0 (Z.to_nat (o_rounds (fixMCW O0)))) (tr_state tr, tr_hist tr))
    by (eapply rounds_hinv; eauto).
  pose proof (rounds_steps E (fixMCW O0) (Data D) ohe _ _ rnd Hr Hc HL _ _ _ HI Hf es1 e es2 Heq) as (ix & cols & lab & pr & pr' & H1 & H2 & H3 & H4 & H5 & H6).
  assert (Hk : (g_class e < nl)%nat) by (apply (inv_class _ _ _ _ _ _ _ (hi_inv _ _ _ _ _ _ _ _ HIh)); cbn [snd]; rewrite Heq; apply in_elt).
  unfold O. rewrite EO. exists lab, pr, pr'. split; [|split; [exact H3|split; [|split; [exact H5|exact H6]]]].
  - destruct (c21_densecol_lemma _ HW) as (HD & _). destruct (HD (g_class e)) as (l & Hl & HlL & Hle); [rewrite Hc; exact Hk|].
    assert (l = lab) by congruence. subst l. split; [congruence|]. intros i y c Hy Hcl.
    apply Hle. split; [rewrite Hr; apply nth_error_Some; congruence|]. apply Hent; auto.
  - eapply classTree_fitted; eauto.
Qed.
