(** A column that is ordered like an earlier one changes nothing (proof support for C117). *)
From Verif Require Import Base F64 F64Lemmas Env EnvLemmas Utils Tree Spec Options Train UtilsProofs TreeProofs TreeSplit TreeThms SpecTot SpecInv TreeInv TrainProofs InvMore.
Open Scope Z_scope.

(** a second scan with the same gains finds nothing better *)
Section Again.
Context {P S : Type} (step : S -> P -> S) (score : S -> Z -> Z -> f64) (xgb : bool) (mcw : Z).
Notation sc f := (scan step score (betterScore xgb) mcw f).
Definition dom (b b' : best) : Prop := forall g, betterScore xgb g (b_score b) = false -> betterScore xgb g (b_score b') = false.
Lemma dom_refl b : dom b b. Proof. intros g H; exact H. Qed.
Lemma dom_trans a b c : dom a b -> dom b c -> dom a c. Proof. intros H1 H2 g H. auto. Qed.
Lemma dom_better b g f t : betterScore xgb g (b_score b) = true -> dom b (MkB g f t).
Proof.
  intros H g' Hg. cbn [b_score]. destruct (betterScore xgb g' g) eqn:E1; [|reflexivity].
  rewrite (betterScore_trans _ _ _ _ E1 H) in Hg. discriminate.
Qed.
Lemma dom_scan f l : forall s nl nr b, dom b (sc f l s nl nr b).
Proof.
  induction l as [|[x p] t IH]; intros s nl nr b; [apply dom_refl|]. destruct t as [|[y q] t]; [apply dom_refl|]. rewrite scan_cons2.
  destruct (_ || _); [apply IH|]. destruct (_ <? _); [apply dom_refl|]. eapply dom_trans; [|apply IH].
  destruct (betterScore xgb _ (b_score b)) eqn:EB; [apply dom_better; exact EB|apply dom_refl].
Qed.
Lemma scan_again f f' l : forall l', map snd l = map snd l' ->
  (forall k a b a' b' p q p' q', nth_error l k = Some (a, p) -> nth_error l (Datatypes.S k) = Some (b, q) ->
     nth_error l' k = Some (a', p') -> nth_error l' (Datatypes.S k) = Some (b', q') -> feqb a b = feqb a' b') ->
  forall s nl nr b b', dom (sc f l s nl nr b) b' -> sc f' l' s nl nr b' = b'.
Proof.
  induction l as [|[x p] t IH]; intros [|[x' p'] t'] HM HK s nl nr b b' HD; try discriminate; [reflexivity|].
  cbn [map snd] in HM. injection HM as -> HM. destruct t as [|[y q] t]; destruct t' as [|[y' q'] t']; try discriminate; [reflexivity|].
  rewrite scan_cons2 in HD |- *. pose proof (HK 0%nat x y x' y' p' q p' q' eq_refl eq_refl eq_refl eq_refl) as K1.
  assert (HK' : forall k a b a' b' p q0 p' q'0, nth_error ((y, q) :: t) k = Some (a, p) -> nth_error ((y, q) :: t) (Datatypes.S k) = Some (b, q0) ->
     nth_error ((y', q') :: t') k = Some (a', p') -> nth_error ((y', q') :: t') (Datatypes.S k) = Some (b', q'0) -> feqb a b = feqb a' b').
  { intros k a0 b1 a0' b1' p0 q0 p0' q0' H1 H2 H3 H4. exact (HK (Datatypes.S k) a0 b1 a0' b1' p0 q0 p0' q0' H1 H2 H3 H4). }
  rewrite <- K1. destruct ((nl + 1 <? mcw) || feqb x y) eqn:EC; [eapply IH; eauto|].
  destruct (nr - 1 <? mcw); [reflexivity|]. set (g := score (step s p') (nl + 1) (nr - 1)) in *.
  assert (HG : betterScore xgb g (b_score b') = false).
  { apply HD. eapply dom_scan. destruct (betterScore xgb g (b_score b)) eqn:EB; [cbn [b_score]; apply betterScore_irr|exact EB]. }
  rewrite HG. eapply IH; eauto.
Qed.
End Again.

Section Follows.
Context (E : Env) (HE : EnvOk E) (HN : sortsByComparison E) (X : list (list f64)) (n : nat) (f0 : Z) (col : list f64).
Context (Hf0 : 0 <= f0 < Z.of_nat n) (HR : forall row, In row X -> length row = n) (HC : followsColumn X f0 col).
Notation X2 := (appendColumn X col).

Lemma follow_len : length X2 = length X.
Proof. destruct HC as [HL _]. unfold appendColumn. rewrite map_length, combine_length. lia. Qed.
Lemma follow_nth k row : nth_error X k = Some row -> exists v, nth_error col k = Some v /\ nth_error X2 k = Some (row ++ [v]).
Proof.
  intros H. destruct HC as [HL _]. assert (Hk : (k < length col)%nat) by (rewrite HL; apply nth_error_Some; congruence).
  destruct (nth_error col k) as [v|] eqn:Ev; [|apply nth_error_None in Ev; lia]. exists v. split; [reflexivity|].
  unfold appendColumn. rewrite nth_error_map. 
  assert (HX : nth_error (combine X col) k = Some (row, v)).
  { clear -H Ev. revert k col H Ev. induction X as [|r Y IH]; intros [|k] [|c cs] H Ev; try discriminate; cbn [combine nth_error] in *; [congruence|auto]. }
  rewrite HX. reflexivity.
Qed.
Lemma idx_follow j : (forall row, idx X j = Ok row -> exists v, look col j v /\ idx X2 j = Ok (row ++ [v])) /\ (idx X j = Panic -> idx X2 j = Panic).
Proof.
  unfold idx. destruct (Z.ltb_spec j 0); [split; [discriminate|auto]|]. split.
  - intros row Hr. destruct (nth_error X (Z.to_nat j)) as [r|] eqn:Er; [|discriminate]. injection Hr as ->. destruct (follow_nth _ _ Er) as (v & H1 & H2).
    exists v. split; [split; [lia|exact H1]|]. rewrite H2. reflexivity.
  - intros Hr. destruct (nth_error X (Z.to_nat j)) as [r|] eqn:Er; [discriminate|]. apply nth_error_None in Er.
    destruct (nth_error X2 (Z.to_nat j)) eqn:E2; [|reflexivity]. exfalso. assert (nth_error X2 (Z.to_nat j) <> None) as H2 by congruence.
    apply nth_error_Some in H2. rewrite follow_len in H2. lia.
Qed.
Lemma idx_nd {A} (l : list A) j : idx l j <> Diverge.
Proof. unfold idx. destruct (_ <? _); [discriminate|]. destruct (nth_error _ _); discriminate. Qed.
Lemma idx_XX j row : idx X j = Ok row -> length row = n.
Proof. intros H. apply idx_Ok in H as [_ H]. apply HR. eapply nth_error_In; eauto. Qed.

Lemma sample_follow f ix : 0 <= f < Z.of_nat n -> SampleMatrix X2 ix [f] = SampleMatrix X ix [f].
Proof.
  intros Hf. unfold SampleMatrix. induction ix as [|j ix IH]; cbn [mapM]; [reflexivity|]. destruct (idx_follow j) as [H1 H2].
  destruct (idx X j) as [row| |] eqn:Ej.
  - destruct (H1 _ eq_refl) as (v & _ & ->). cbn [bind].
    assert (HS : SampleSlice (row ++ [v]) [f] = SampleSlice row [f]).
    { pose proof (idx_XX _ _ Ej). unfold SampleSlice. rewrite app_length. cbn [length mapM]. replace (idx (row ++ [v]) f) with (idx row f) by (unfold idx; destruct (f <? 0); [reflexivity|]; rewrite nth_error_app1 by lia; reflexivity).
      destruct (Nat.ltb_spec (length row + 1) 1), (Nat.ltb_spec (length row) 1); try lia; reflexivity. }
    rewrite HS. destruct (SampleSlice row [f]); cbn [bind]; try reflexivity. rewrite IH. reflexivity.
  - rewrite H2 by reflexivity. reflexivity.
  - exfalso. eapply idx_nd; eauto.
Qed.
Lemma column_follow f ix : 0 <= f < Z.of_nat n -> column X2 ix f = column X ix f.
Proof. intros Hf. unfold column. rewrite sample_follow by auto. reflexivity. Qed.
Lemma fbs_follow o ix b f : 0 <= f < Z.of_nat n -> findBetterSplit E X2 o ix b f = findBetterSplit E X o ix b f.
Proof. intros Hf. unfold findBetterSplit. rewrite column_follow by auto. reflexivity. Qed.

Lemma dom_fbs o ix b f r : findBetterSplit E X o ix b f = Ok r -> dom (to_xgb o) b r.
Proof.
  intros H. unfold findBetterSplit in H. binv H. binv H. binv H. binv H. destruct v2 as [si sx]. destruct (to_xgb o) eqn:EX.
  - binv H. binv H. binv H. binv H. injection H as <-. apply (dom_scan _ _ true).
  - binv H. binv H. injection H as <-. apply (dom_scan _ _ false).
Qed.
Lemma dom_fold o ix fs : forall b r, foldM (findBetterSplit E X o ix) b fs = Ok r -> dom (to_xgb o) b r.
Proof.
  induction fs as [|f fs IH]; intros b r H; cbn [foldM] in H; [injection H as <-; apply dom_refl|]. binv H.
  eapply dom_trans; [eapply dom_fbs; eauto|eauto].
Qed.

(** scanning the appended column when the column it follows has been scanned *)
Lemma fbs_again o ix b b1 r : findBetterSplit E X o ix b f0 = Ok b1 -> dom (to_xgb o) b1 r -> findBetterSplit E X2 o ix r (Z.of_nat n) = Ok r.
Proof.
  intros H HD. unfold findBetterSplit in *. binv H. rename v into c0. binv H. binv H. binv H. apply column_Ok in Hb as [Hne F1].
  assert (HX : forall j, In j ix -> exists v, cell X2 j (Z.of_nat n) v /\ look col j v).
  { intros j Hj. apply In_nth_error in Hj as [m Hm]. destruct (Forall2_nth1 _ _ _ F1 _ _ Hm) as (v' & _ & (row & R1 & _)).
    apply look_idx in R1. pose proof (idx_XX _ _ R1) as HLn. destruct (idx_follow j) as [K1 _]. destruct (K1 _ R1) as (w & W1 & W2).
    exists w. split; [|exact W1]. exists (row ++ [w]). split; [apply look_idx; exact W2|].
    split; [lia|]. rewrite Nat2Z.id, nth_error_app2, HLn, Nat.sub_diag by lia. reflexivity. }
  destruct (column_ex X2 ix (Z.of_nat n) Hne ltac:(intros j Hj; destruct (HX j Hj) as (w & Hw & _); eexists; eauto)) as [c2 Hc2]. rewrite Hc2. cbn [bind]. apply column_Ok in Hc2 as [_ F2].
  assert (HP2 : Forall2 (fun j v => look col j v) ix c2).
  { apply Forall2_nth_iff; [eapply Forall2_len; eauto|]. intros k j w Hj Hw. destruct (Forall2_nth1 _ _ _ F2 _ _ Hj) as (w' & Hw' & Hcl).
    assert (w' = w) by congruence. subst w'. destruct (HX j) as (u & U1 & U2); [eapply nth_error_In; eauto|]. assert (u = w) by (eapply cell_fun; eauto). subst. exact U2. }
  assert (L1 : length c2 = length c0) by (rewrite <- (Forall2_len _ _ _ F2); eapply Forall2_len; eauto). rewrite L1, Hb0, Hb1. cbn [bind].
  assert (HL : length v = length c0 /\ length v0 = length c0).
  { unfold slice0 in *. destruct (Nat.ltb_spec (length (orNil (to_in o))) (length c0)); [discriminate|].
    destruct (Nat.ltb_spec (length (orNil (to_val o))) (length c0)); [discriminate|].
    injection Hb0 as <-. injection Hb1 as <-. rewrite !firstn_length. lia. }
  destruct HL as [HL1 HL2]. rewrite MemArgSort_ArgSort in Hb2 by lia. rewrite MemArgSort_ArgSort by lia. injection Hb2 as Hb2. cbn [bind].
  destruct HC as (_ & N2 & N1 & HO).
  (* the pairs behind the positions of the two columns *)
  assert (HPair : forall z w, look c0 z w -> exists w2 j, look c2 z w2 /\ cell X j f0 w /\ look col j w2).
  { intros z w [Hz0 Hz]. destruct (Forall2_nth2 _ _ _ F1 _ _ Hz) as (j & Hj & Hc). destruct (Forall2_nth1 _ _ _ HP2 _ _ Hj) as (w2 & Hw & Hl).
    exists w2, j. split; [split; auto|]. auto. }
  assert (HArg : fst (ArgSort E c2) = fst (ArgSort E c0)).
  { unfold ArgSort. cbn [fst].
    set (g := fun p : Z * f64 => (fst p, nth (Z.to_nat (fst p)) c2 fzero)).
    assert (Hmap : combine (iota (length c2)) c2 = map g (combine (iota (length c0)) c0)).
    { rewrite L1. assert (HA : forall m (c c' pre : list f64), length c = length c' -> c2 = pre ++ c' -> m = length pre ->
        combine (map Z.of_nat (seq m (length c))) c' = map g (combine (map Z.of_nat (seq m (length c))) c)).
      { clear. intros m c c'. revert m c. induction c' as [|w c' IH]; intros m [|u c] pre HL HC Hn; try discriminate; [reflexivity|].
        cbn [length seq map combine]. f_equal.
        - unfold g. cbn [fst]. rewrite Nat2Z.id, HC, app_nth2, Hn, Nat.sub_diag by lia. reflexivity.
        - apply (IH (S m) c (pre ++ [w])); [simpl in HL; lia|rewrite <- app_assoc; exact HC|rewrite app_length; simpl; lia]. }
      unfold iota. apply (HA 0%nat c0 c2 []); auto. }
    rewrite Hmap. rewrite (HN _ _ g idLess idLess).
    - rewrite map_map. apply map_ext. reflexivity.
    - intros p q Hp Hq. apply combine_iota_look in Hp, Hq. unfold g, idLess. cbn [snd].
      destruct (HPair _ _ Hp) as (w & j & [_ W1] & W2 & W3). destruct (HPair _ _ Hq) as (w' & j' & [_ W1'] & W2' & W3').
      rewrite (nth_error_nth _ _ fzero W1), (nth_error_nth _ _ fzero W1'). eapply HO; eauto. }
  assert (HNb : forall k a c a' c', nth_error (snd (ArgSort E c0)) k = Some a -> nth_error (snd (ArgSort E c0)) (S k) = Some c ->
    nth_error (snd (ArgSort E c2)) k = Some a' -> nth_error (snd (ArgSort E c2)) (S k) = Some c' -> feqb a c = feqb a' c').
  { assert (HQ : forall k a a', nth_error (snd (ArgSort E c0)) k = Some a -> nth_error (snd (ArgSort E c2)) k = Some a' -> exists j, cell X j f0 a /\ look col j a').
    { intros k a a' Ha Ha'. destruct (Forall2_nth2 _ _ _ (ArgSort_look E HE c0) _ _ Ha) as (z & Hz & Lz).
      destruct (Forall2_nth2 _ _ _ (ArgSort_look E HE c2) _ _ Ha') as (z' & Hz' & [_ Lz']). rewrite HArg in Hz'. assert (z' = z) by congruence. subst z'.
      destruct (HPair _ _ Lz) as (w2 & j & [_ W1] & W2 & W3). assert (w2 = a') by congruence. subst. eauto. }
    intros k a c a' c' Ha Hc Ha' Hc'. destruct (HQ _ _ _ Ha Ha') as (j1 & A1 & A2). destruct (HQ _ _ _ Hc Hc') as (j2 & B1 & B2).
    assert (NA : fnanb a' = false) by (apply N2; destruct A2 as [_ A2]; eapply nth_error_In; eauto).
    assert (NB : fnanb c' = false) by (apply N2; destruct B2 as [_ B2]; eapply nth_error_In; eauto).
    rewrite (nonan_eq a c), (nonan_eq a' c') by eauto. rewrite (HO _ _ _ _ _ _ A1 B1 A2 B2), (HO _ _ _ _ _ _ B1 A1 B2 A2). reflexivity. }
  pose proof (ArgSort_len E HE c0) as [_ S1]. pose proof (ArgSort_len E HE c2) as [_ S2].
  destruct (ArgSort E c0) as [si sx]. destruct (ArgSort E c2) as [si' sx']. cbn [fst snd] in *. subst v1 si'. cbn match in H |- *.
  destruct (to_xgb o).
  - binv H. binv H. binv H. binv H. injection H as <-. rewrite Hb. cbn [bind]. rewrite Hb2. cbn [bind]. rewrite Hb3. cbn [bind]. rewrite Hb4. cbn [bind].
    f_equal. eapply (scan_again _ _ true); [|  |exact HD]; [apply combine_snd_eq; lia|].
    intros k a c a' c' p q p' q' M1 M2 M3 M4. apply nth_combine in M1 as [M1 _], M2 as [M2 _], M3 as [M3 _], M4 as [M4 _]. eauto.
  - binv H. binv H. injection H as <-. rewrite Hb. cbn [bind]. rewrite Hb2. cbn [bind].
    f_equal. eapply (scan_again _ _ false); [| |exact HD]; [apply combine_snd_eq; lia|].
    intros k a c a' c' p q p' q' M1 M2 M3 M4. apply nth_combine in M1 as [M1 _], M2 as [M2 _], M3 as [M3 _], M4 as [M4 _]. eauto.
Qed.

Lemma fold_follow o ix b r : foldM (findBetterSplit E X o ix) b (iota n) = Ok r -> foldM (findBetterSplit E X2 o ix) b (iota (S n)) = Ok r.
Proof.
  intros H. rewrite iota_S, foldM_app.
  assert (HF : forall fs b, (forall f, In f fs -> 0 <= f < Z.of_nat n) -> foldM (findBetterSplit E X2 o ix) b fs = foldM (findBetterSplit E X o ix) b fs).
  { induction fs as [|f fs IH]; intros b1 Hf; cbn [foldM]; [reflexivity|]. rewrite fbs_follow by (apply Hf; left; auto).
    destruct (findBetterSplit E X o ix b1 f); cbn [bind]; auto. apply IH. intros; apply Hf; right; auto. }
  rewrite HF by (intros f Hf; apply iota_In in Hf; lia). rewrite H. cbn [bind foldM].
  assert (HI : In f0 (iota n)) by (apply iota_In; lia). apply in_split in HI as (l1 & l2 & HI). rewrite HI, foldM_app in H. binv H. cbn [foldM] in H. binv H.
  rewrite (fbs_again _ _ _ _ r Hb0 (dom_fold _ _ _ _ _ H)). reflexivity.
Qed.

Lemma prepare_follow o : prepare X2 o = prepare X o.
Proof. unfold prepare. rewrite follow_len. reflexivity. Qed.
Lemma grow_follow k : forall o t, to_allowed o = [] -> grow E X k o = Ok t -> grow E X2 k o = Ok t /\ splitsIn n t.
Proof.
  induction k as [|k IH]; intros o t HA H; cbn [grow] in H |- *; rewrite prepare_follow; destruct (to_xgb o && isNone (to_grads o) && isNone (to_hess o)); try discriminate.
  - binv H. destruct v as [value s0]. rewrite Hb. cbn [bind]. binv H. destruct (idx_follow 0) as [K1 _]. destruct (K1 _ Hb0) as (w & _ & ->). cbn [bind]. injection H as <-.
    split; [reflexivity|]. cbn [splitsIn]. split; [|auto]. unfold t_leaf. cbn [t_xgb t_best b_score t_split b_split]. lia.
  - binv H. destruct v as [value s0]. rewrite Hb. cbn [bind]. binv H. destruct (idx_follow 0) as [K1 _]. destruct (K1 _ Hb0) as (w & _ & ->). cbn [bind].
    pose proof (idx_XX _ _ Hb0) as HLr. rewrite app_length, HLr. cbn [length]. rewrite HLr in H.
    change (to_allowed (prepare X o)) with (to_allowed o) in *. rewrite HA, scanned_all in *. rewrite Nat.add_1_r.
    binv H. rename v0 into b. rewrite (fold_follow _ _ _ _ Hb1). cbn [bind].
    assert (HSp : 0 <= b_split b < Z.of_nat n).
    { apply foldM_split in Hb1. destruct Hb1 as [->|Hb1]; [cbn [b_split]; lia|]. apply iota_In. exact Hb1. }
    destruct (leafScore _ _) eqn:EL.
    + injection H as <-. split; [reflexivity|]. cbn [splitsIn]. split; [|auto]. intros _. cbn [t_split]. exact HSp.
    + rewrite column_follow by auto. binv H. rewrite Hb2. cbn [bind]. destruct (splitSamples _ _ _) as [il ir].
      binv H. binv H. injection H as <-. destruct (IH (childOpts (prepare X o) il) _ eq_refl Hb3) as [-> Sl]. destruct (IH (childOpts (prepare X o) ir) _ eq_refl Hb4) as [-> Sr]. cbn [bind].
      split; [reflexivity|]. cbn [splitsIn]. split; [intros _; cbn [t_split]; exact HSp|auto].
Qed.
Lemma c117_tree_lemma o t : to_allowed o = [] -> NewTree E X o = Ok t -> NewTree E X2 o = Ok t.
Proof. intros HA H. apply grow_follow; auto. Qed.

Lemma classTree_follow O ix lab pr t : classTree E O X ix [] lab pr = Ok t -> classTree E O X2 ix [] lab pr = Ok t /\ splitsIn n t.
Proof.
  unfold classTree. rewrite follow_len. destruct (o_xgb O); intros H.
  - apply grow_follow; auto.
  - binv H. apply grow_follow in Hb as [H1 H2]; [|reflexivity]. unfold NewTree. rewrite H1. cbn [bind]. split; [exact H|]. eapply splitsIn_update; eauto.
Qed.
Lemma predict_follow t preds : splitsIn n t -> Predict t X2 preds = Predict t X preds.
Proof.
  intros HS. unfold Predict. rewrite follow_len. symmetry. apply predictLoop_rel. apply Forall2_nth_iff; [symmetry; apply follow_len|].
  intros k row row' Hr Hr'. destruct (follow_nth _ _ Hr) as (v & _ & Hv). assert (row' = row ++ [v]) by congruence. subst row'.
  symmetry. apply splitsIn_predict with (n := n); [lia|apply HR; eapply nth_error_In; eauto|exact HS].
Qed.
Lemma classStep_follow O ohe ix rd sa k r : classStep E O X ohe ix [] rd sa k = Ok r -> classStep E O X2 ohe ix [] rd sa k = Ok r.
Proof.
  unfold classStep. destruct sa as [st acc]. destruct (nth k (s_stopped st) false); [auto|]. intros H.
  binv H. rewrite Hb. cbn [bind]. binv H. rewrite Hb0. cbn [bind]. binv H. apply classTree_follow in Hb1 as [H1 H2]. rewrite H1. cbn [bind]. rewrite predict_follow by auto. exact H.
Qed.
Lemma roundStep_follow O ohe nl rnd sb rd r : fltb (o_css O) fone && o_xgb O = false -> roundStep E O X ohe nl rnd sb rd = Ok r -> roundStep E O X2 ohe nl rnd sb rd = Ok r.
Proof.
  intros HS. unfold roundStep. destruct sb as [st h]. unfold roundSamples. rewrite HS. rewrite follow_len.
  destruct (if fltb (o_ss O) fone && o_xgb O then _ else _) as [ix| |]; cbn [bind]; [|discriminate|discriminate].
  destruct (_ <? _); [auto|]. intros H. binv H. rewrite (foldM_mono _ _ (fun s a r0 => classStep_follow O ohe ix rd s a r0) _ _ _ Hb). exact H.
Qed.
End Follows.

Lemma c117_ens_lemma {K} E rnd (D : DataBunch K) O tr n f col : EnvOk E -> sortsByComparison E -> 0 <= f < Z.of_nat n -> (forall row, In row (Data D) -> length row = n) ->
  followsColumn (Data D) f col -> (o_xgb O = false \/ fltb (o_css O) fone = false) -> NewMultiClass E rnd D O = Ok tr ->
  forall keys : list K, NewMultiClass E rnd (MkData (appendColumn (Data D) col) keys (Labels D)) O = Ok tr.
Proof.
  intros HE HN Hf HR Hc HS H keys. unfold NewMultiClass in *. cbn [Labels Data]. binv H. rewrite Hb. cbn [bind]. destruct v as [ohe labels].
  binv H. rewrite Hb0. cbn [bind]. binv H. rewrite Hb1. cbn [bind]. binv H.
  assert (HS' : fltb (o_css (fixMCW O)) fone && o_xgb (fixMCW O) = false).
  { cbn [fixMCW o_css o_xgb]. destruct HS as [->| ->]; [apply andb_false_r|reflexivity]. }
  rewrite (foldM_mono (roundStep E (fixMCW O) (Data D) ohe (length labels) rnd) (roundStep E (fixMCW O) (appendColumn (Data D) col) ohe (length labels) rnd)
    (fun s a r => roundStep_follow E HE HN (Data D) n f col Hf HR Hc _ _ _ _ s a r HS') _ _ _ Hb2). exact H.
Qed.
