(** The order of the columns matters only for ties: training (proof support for C143). *)
From Verif Require Import Base F64 F64Lemmas Env EnvLemmas Utils Tree Spec Options Train UtilsProofs TreeProofs TreeSplit TreeThms SpecTot SpecInv SpecTrain TreeInv TrainProofs TrainThms TrainSteps InvMore RowProofs SpecCols ErrProofs ColProofs ActProofs UtilsThms.
From Verif Require UtilsThms.
Open Scope Z_scope.

Lemma foldM_back {A S} (f : S -> A -> res S) (G : S -> Prop) : (forall st a r, f st a = Ok r -> G r -> G st) ->
  forall l st r, foldM f st l = Ok r -> G r -> G st.
Proof. intros HB. induction l as [|a l IH]; intros st r H HG; cbn [foldM] in H; [apply Ok_inj' in H; subst; auto|]. apply bind_Ok in H as (s1 & H1 & H2). eauto. Qed.
Lemma foldM_guard {A S S'} (f : S -> A -> res S) (f' : S' -> A -> res S') (mv : S -> S') (I G : S -> Prop) :
  (forall st a r, f st a = Ok r -> G r -> G st) ->
  forall l, (forall st a r, In a l -> I st -> f st a = Ok r -> G r -> f' (mv st) a = Ok (mv r) /\ I r) ->
  forall st r, I st -> foldM f st l = Ok r -> G r -> foldM f' (mv st) l = Ok (mv r) /\ I r.
Proof.
  intros HB. induction l as [|a l IH]; intros HF st r HI H HG; cbn [foldM] in *; [apply Ok_inj' in H; subst; auto|].
  apply bind_Ok in H as (s1 & H1 & H2). pose proof (foldM_back f G HB _ _ _ H2 HG) as HG1.
  destruct (HF st a s1 (or_introl eq_refl) HI H1 HG1) as [K1 K2]. rewrite K1. cbn [bind]. apply IH; auto. intros; apply HF; auto. right; auto.
Qed.

Lemma update_move s g h : forall t u, updateLeaves t g h = Ok u -> updateLeaves (moveTree s t) g h = Ok (moveTree s u).
Proof.
  induction t as [|d l IHl r IHr]; intros u H; [discriminate H|]. cbn [updateLeaves] in H. apply bind_Ok in H as (l' & Hl & H). apply bind_Ok in H as (r' & Hr & H).
  assert (HC : forall (t : tree) t', (forall u, updateLeaves t g h = Ok u -> updateLeaves (moveTree s t) g h = Ok (moveTree s u)) ->
     match t with Nil => Ok Nil | Node _ _ _ => updateLeaves t g h end = Ok t' ->
     match moveTree s t with Nil => Ok Nil | Node _ _ _ => updateLeaves (moveTree s t) g h end = Ok (moveTree s t')).
  { intros [|d0 l0 r0] t' IH Ht; [apply Ok_inj' in Ht; subst; reflexivity|]. apply IH. exact Ht. }
  cbn [moveTree updateLeaves]. rewrite (HC _ _ IHl Hl). cbn [bind]. rewrite (HC _ _ IHr Hr). cbn [bind]. rewrite moved_leaf.
  cbn [t_samples t_best t_nsamples t_split t_thr t_xgb t_branches]. destruct (t_leaf d) eqn:EL.
  - destruct (t_samples d) as [ix|] eqn:Es; [|discriminate H]. apply bind_Ok in H as (sh & Hsh & H). apply bind_Ok in H as (sg & Hsg & H). apply Ok_inj' in H. subst u.
    rewrite Hsh. cbn [bind]. rewrite Hsg. cbn [bind]. cbn [moveTree]. f_equal. f_equal.
    unfold t_leaf in *. cbn [t_xgb t_best t_samples t_nsamples t_split t_thr t_branches t_value]. rewrite EL. reflexivity.
  - apply Ok_inj' in H. subst u. cbn [moveTree]. rewrite EL. reflexivity.
Qed.
Lemma noTies_update E X o n g h : forall t u A, updateLeaves t g h = Ok u -> noTies E X o n A u -> noTies E X o n A t.
Proof.
  induction t as [|d l IHl r IHr]; intros u A H HT; [exact I|]. cbn [updateLeaves] in H. apply bind_Ok in H as (l' & Hl & H). apply bind_Ok in H as (r' & Hr & H).
  assert (HC : forall (t : tree) t', (forall u A, updateLeaves t g h = Ok u -> noTies E X o n A u -> noTies E X o n A t) ->
     match t with Nil => Ok Nil | Node _ _ _ => updateLeaves t g h end = Ok t' -> noTies E X o n [] t' -> noTies E X o n [] t).
  { intros [|d0 l0 r0] t' IH Ht HN; [exact I|]. eapply IH; eauto. }
  destruct (t_leaf d) eqn:EL.
  - destruct (t_samples d) as [ix|] eqn:Es; [|discriminate H]. apply bind_Ok in H as (sh & Hsh & H). apply bind_Ok in H as (sg & Hsg & H). apply Ok_inj' in H. subst u.
    destruct HT as (_ & H2 & H3). cbn [noTies]. split; [congruence|]. eauto.
  - apply Ok_inj' in H. subst u. destruct HT as (H1 & H2 & H3). cbn [noTies]. split; [exact H1|]. eauto.
Qed.

Definition mvE (s : Z -> Z) (e : entryG) : entryG := MkG (g_class e) (g_round e) (moveTree s (g_tree e)) (g_loss e).

Section Train.
Context (E : Env) (HE : EnvOk E) (n : nat) (s : Z -> Z) (HS : reorders n s) (X X' : list (list f64)) (HM : movedColumns n s X X').
Context (O : Options) (ohe : dense) (nl r : nat) (rnd rnd' : draws) (HD : movedDraws n s rnd rnd').
Context (HO : wfDense ohe) (HOr : d_r ohe = r) (HOc : d_c ohe = nl) (Hdata : (length X <= r)%nat).

Lemma sub_move tot ss d d' l : (forall i, d' i = d i) -> SubSample tot ss d = Ok l -> SubSample tot ss d' = Ok l.
Proof.
  intros Hd. unfold SubSample. destruct (_ <? 0); [auto|]. intros H. apply Ok_inj' in H. subst l. f_equal. f_equal. apply filter_ext. intros i. rewrite Hd. reflexivity.
Qed.
Lemma samples_move rd ix cols : roundSamples O X (rnd rd) = Ok (ix, cols) -> exists cols', roundSamples O X' (rnd' rd) = Ok (ix, cols') /\ movedSet n s cols cols'.
Proof.
  destruct (HD rd) as [D1 D2]. unfold roundSamples. intros H. apply bind_Ok in H as (ix0 & Hix & H). apply bind_Ok in H as (cols0 & Hc & H). apply Ok_inj' in H.
  assert (ix0 = ix /\ cols0 = cols) as [-> ->] by (split; congruence). rewrite (cols_len n s X X' HM).
  assert (HI : (if fltb (o_ss O) fone && o_xgb O then s0 <- SubSample (Z.of_nat (length X)) (o_ss O) (fst (rnd' rd)) ;; Ok (Some s0) else Ok None) = Ok ix).
  { destruct (fltb (o_ss O) fone && o_xgb O); [|exact Hix]. apply bind_Ok in Hix as (s0 & H1 & H2). rewrite (sub_move _ _ _ _ _ D1 H1). exact H2. }
  rewrite HI. cbn [bind]. destruct (fltb (o_css O) fone && o_xgb O).
  - apply bind_Ok in Hc as (row0 & H0 & Hc). destruct (row0_n n s X X' HM _ H0) as (L0 & row0' & H0' & L0'). rewrite H0'. cbn [bind].
    unfold SubSample in Hc |- *. rewrite L0'. rewrite L0 in Hc. destruct (_ <? 0); [discriminate Hc|]. apply Ok_inj' in Hc. subst cols. cbn [bind]. eexists. split; [reflexivity|].
    rewrite Nat2Z.id.
    assert (HIn : forall (d : nat -> f64) f, 0 <= f < Z.of_nat n -> In f (map Z.of_nat (filter (fun i => fleb (d i) (o_css O)) (seq 0 n))) <-> fleb (d (Z.to_nat f)) (o_css O) = true).
    { intros d f Hf. rewrite in_map_iff. split.
      - intros (i & <- & Hi). apply filter_In in Hi as [_ Hi]. rewrite Nat2Z.id. exact Hi.
      - intros Hi. exists (Z.to_nat f). split; [lia|]. apply filter_In. split; [apply in_seq; lia|exact Hi]. }
    assert (HR : forall (d : nat -> f64) g, In g (map Z.of_nat (filter (fun i => fleb (d i) (o_css O)) (seq 0 n))) -> 0 <= g < Z.of_nat n).
    { intros d g Hg. apply in_map_iff in Hg as (i & <- & Hi). apply filter_In in Hi as [Hi _]. apply in_seq in Hi. lia. }
    assert (HQ : forall f, 0 <= f < Z.of_nat n -> In f (map Z.of_nat (filter (fun i => fleb (snd (rnd rd) i) (o_css O)) (seq 0 n))) <->
       In (s f) (map Z.of_nat (filter (fun i => fleb (snd (rnd' rd) i) (o_css O)) (seq 0 n)))).
    { intros f Hf. rewrite HIn by auto. rewrite HIn by (apply HS; auto). rewrite D2 by auto. reflexivity. }
    split; [|exact HQ]. split; intros HZ.
    + destruct (map Z.of_nat (filter (fun i => fleb (snd (rnd' rd) i) (o_css O)) (seq 0 n))) as [|g gs] eqn:EG; [reflexivity|]. exfalso.
      assert (Hg : In g (map Z.of_nat (filter (fun i => fleb (snd (rnd' rd) i) (o_css O)) (seq 0 n)))) by (rewrite EG; left; auto).
      destruct (proj2 HS g (HR _ _ Hg)) as (f & Hf & Ef). assert (Hin : In f []) by (rewrite <- HZ; apply HQ; [exact Hf|rewrite Ef; left; reflexivity]). destruct Hin.
    + destruct (map Z.of_nat (filter (fun i => fleb (snd (rnd rd) i) (o_css O)) (seq 0 n))) as [|g gs] eqn:EG; [reflexivity|]. exfalso.
      assert (Hg : In g (map Z.of_nat (filter (fun i => fleb (snd (rnd rd) i) (o_css O)) (seq 0 n)))) by (rewrite EG; left; auto).
      assert (Hin : In (s g) []) by (rewrite <- HZ; apply HQ; [exact (HR _ _ Hg)|left; reflexivity]). destruct Hin.
  - apply Ok_inj' in Hc. subst cols. exists []. split; [reflexivity|]. apply set_nil.
Qed.

Lemma classTree_move rd ix cols cols' lab pr t : roundSamples O X (rnd rd) = Ok (ix, cols) -> movedSet n s cols cols' -> classTree E O X ix cols lab pr = Ok t ->
  (forall o, fittedOptions O X (rnd rd) lab pr o -> noTies E X o n (to_allowed o) t) ->
  classTree E O X' ix cols' lab pr = Ok (moveTree s t) /\ splitsIn n t.
Proof.
  intros HR HC H HT. unfold classTree in *. rewrite (cols_len n s X X' HM). destruct (o_xgb O) eqn:Ex.
  - destruct (roundSamples_rows _ _ _ _ _ HR Ex) as [_ H2].
    set (o := xTreeOpts O (length X) ix cols (l_grad (o_loss O) lab pr) (l_hess (o_loss O) pr) lab) in *.
    change (xTreeOpts O (length X) ix cols' (l_grad (o_loss O) lab pr) (l_hess (o_loss O) pr) lab) with (withColumns o cols').
    apply (grow_move E HE n s HS X X' HM _ o cols' t HC H). apply HT. unfold fittedOptions. rewrite Ex.
    split; [reflexivity|]. split; [reflexivity|]. split; [reflexivity|]. exact H2.
  - apply bind_Ok in H as (t0 & H0 & H). set (o := gTreeOpts O (length X) (l_neg (o_loss O) lab pr)) in *.
    assert (HT0 : noTies E X o n (to_allowed o) t0).
    { eapply noTies_update; [exact H|]. apply HT. unfold fittedOptions. rewrite Ex. split; reflexivity. }
    destruct (grow_move E HE n s HS X X' HM _ o [] t0 (set_nil n s) H0 HT0) as [G1 G2].
    change (withColumns o []) with o in G1. unfold NewTree. change (to_maxdepth o) with (o_maxdepth O) in *. 
    unfold NewTree in H0. change (to_maxdepth o) with (o_maxdepth O) in H0. rewrite G1. cbn [bind]. split; [apply update_move; exact H|]. eapply splitsIn_update; eauto.
Qed.

Definition Good (es : list entryG) (e : entryG) : Prop := forall lab pr o, DenseCol ohe (Z.of_nat (g_class e)) = Ok lab -> length pr = r ->
  probsAt E O X nl es (g_class e) pr -> fittedOptions O X (rnd (g_round e)) lab pr o -> noTies E X o n (to_allowed o) (g_tree e).
Definition GoodAll (h : list entryG) : Prop := forall es1 e es2, h = es1 ++ e :: es2 -> Good es1 e.
Lemma good_prefix a b : GoodAll (a ++ b) -> GoodAll a.
Proof. intros H es1 e es2 ->. apply (H es1 e (es2 ++ b)). rewrite <- app_assoc. reflexivity. Qed.
Definition splitsAll (es : list entryG) : Prop := forall e, In e es -> splitsIn n (g_tree e).

Lemma predictX_move t preds : splitsIn n t -> Predict (moveTree s t) X' preds = Predict t X preds.
Proof.
  intros HI. unfold Predict. rewrite (cols_len n s X X' HM). symmetry. apply predictLoop_rel. apply (Forall2_impl' _ _ _ _ (fun _ _ _ H => H)) in HM.
  revert HM. apply Forall2_impl'. intros row row' _ HR. symmetry. apply (predict_move n s row row' HR). exact HI.
Qed.
Lemma classStep_move rd ix cols cols' st es acc k st' acc' : roundSamples O X (rnd rd) = Ok (ix, cols) -> movedSet n s cols cols' ->
  (k < nl)%nat -> inv E O X nl r st (es ++ acc) -> splitsAll (es ++ acc) -> classStep E O X ohe ix cols rd (st, acc) k = Ok (st', acc') -> GoodAll (es ++ acc') ->
  classStep E O X' ohe ix cols' rd (st, map (mvE s) acc) k = Ok (st', map (mvE s) acc') /\ splitsAll (es ++ acc').
Proof.
  intros HR HC Hk I HSp H HG. unfold classStep in *. destruct (nth k (s_stopped st) false) eqn:ES.
  - apply Ok_inj' in H. assert (st' = st /\ acc' = acc) as [-> ->] by (split; congruence). auto.
  - apply bind_Ok in H as (lab & Hlab & H). rewrite Hlab. cbn [bind]. apply bind_Ok in H as (pr & Hpr & H). rewrite Hpr. cbn [bind].
    apply bind_Ok in H as (t & Ht & H). 
    assert (Hacc : exists l, acc' = acc ++ [MkG k rd t l]).
    { clear -H. apply bind_Ok in H as (a1 & _ & H). apply bind_Ok in H as (a2 & _ & H). apply bind_Ok in H as (a3 & _ & H). apply bind_Ok in H as (a4 & _ & H). apply Ok_inj' in H. eexists. exact (eq_sym (f_equal snd H)). }
    destruct Hacc as [l Hacc].
    assert (HL : length pr = r).
    { destruct (inv_wf _ _ _ _ _ _ _ I) as (W1 & W2 & W3 & W4 & W5 & W6 & _). destruct (UtilsThms.c21_densecol_lemma _ W4) as (HDc & _).
      destruct (HDc k ltac:(lia)) as (l0 & Hl0 & HlL & _). assert (l0 = pr) by congruence. subst l0. lia. }
    assert (HTr : forall o, fittedOptions O X (rnd rd) lab pr o -> noTies E X o n (to_allowed o) t).
    { intros o Ho. refine (HG (es ++ acc) (MkG k rd t l) [] _ lab pr o Hlab HL _ Ho); [rewrite Hacc, app_assoc; reflexivity|].
      cbn [g_class]. eapply inv_probsAt; eauto. }
    destruct (classTree_move rd ix cols cols' lab pr t HR HC Ht HTr) as [T1 T2]. rewrite T1. cbn [bind]. rewrite (predictX_move t _ T2).
    split.
    + clear -H. apply bind_Ok in H as (a1 & H1 & H). rewrite H1. cbn [bind]. apply bind_Ok in H as (a2 & H2 & H). rewrite H2. cbn [bind]. apply bind_Ok in H as (a3 & H3 & H). rewrite H3. cbn [bind].
      apply bind_Ok in H as (a4 & H4 & H). rewrite H4. cbn [bind]. apply Ok_inj' in H. f_equal. assert (HA := eq_sym (f_equal snd H)). cbn [snd] in HA.
      assert (HB := f_equal fst H). cbn [fst] in HB. rewrite HB. subst acc'. rewrite map_app. reflexivity.
    + rewrite Hacc, app_assoc. intros e He. apply in_app_or in He as [He|[<-|[]]]; [auto|exact T2].
Qed.
Lemma acc_back ix cols rd sa k sa' : classStep E O X ohe ix cols rd sa k = Ok sa' -> exists c, snd sa' = snd sa ++ c.
Proof.
  destruct sa as [st acc]. unfold classStep. destruct (nth k (s_stopped st) false); intros H.
  - apply Ok_inj' in H. subst sa'. exists []. rewrite app_nil_r. reflexivity.
  - apply bind_Ok in H as (a1 & _ & H). apply bind_Ok in H as (a2 & _ & H). apply bind_Ok in H as (a3 & _ & H). apply bind_Ok in H as (a4 & _ & H).
    apply bind_Ok in H as (a5 & _ & H). apply bind_Ok in H as (a6 & _ & H). apply bind_Ok in H as (a7 & _ & H). apply Ok_inj' in H. subst sa'. cbn [snd]. eauto.
Qed.
Definition mvS (sb : tstate * list (list entryG)) : tstate * list (list entryG) := (fst sb, map (map (mvE s)) (snd sb)).
Lemma roundStep_move sb rd sb' : inv E O X nl r (fst sb) (concat (snd sb)) -> splitsAll (concat (snd sb)) -> roundStep E O X ohe nl rnd sb rd = Ok sb' -> GoodAll (concat (snd sb')) ->
  roundStep E O X' ohe nl rnd' (mvS sb) rd = Ok (mvS sb') /\ splitsAll (concat (snd sb')).
Proof.
  intros I HSp H HG. destruct sb as [st h]. cbn [fst snd] in *. unfold roundStep in *. unfold mvS at 1. cbn [fst snd].
  apply bind_Ok in H as ([ix cols] & HR & H). destruct (samples_move rd ix cols HR) as (cols' & HR' & HC). rewrite HR'. cbn [bind].
  destruct (_ <? _) eqn:EM; [apply Ok_inj' in H; subst sb'; auto|].
  apply bind_Ok in H as ([st' cl] & Hf & H). apply Ok_inj' in H. subst sb'. cbn [snd] in HG. rewrite concat_app in HG. cbn [concat] in HG. rewrite app_nil_r in HG.
  assert (HF : foldM (classStep E O X' ohe ix cols' rd) (st, map (mvE s) []) (seq 0 nl) = Ok (st', map (mvE s) cl) /\
     inv E O X nl r (fst (st', cl)) (concat h ++ snd (st', cl)) /\ splitsAll (concat h ++ snd (st', cl))).
  { refine (foldM_guard (classStep E O X ohe ix cols rd) (classStep E O X' ohe ix cols' rd) (fun sa => (fst sa, map (mvE s) (snd sa)))
      (fun sa => inv E O X nl r (fst sa) (concat h ++ snd sa) /\ splitsAll (concat h ++ snd sa)) (fun sa => GoodAll (concat h ++ snd sa)) _ (seq 0 nl) _ (st, []) (st', cl) _ Hf HG).
    - intros sa k sa' Hs Hg. destruct (acc_back _ _ _ _ _ _ Hs) as [c Hc]. rewrite Hc, app_assoc in Hg. eapply good_prefix; eauto.
    - intros [s1 a1] k [s2 a2] Hin [P1 P2] Hs Hg. cbn [fst snd] in *. apply in_seq in Hin.
      destruct (classStep_move rd ix cols cols' s1 (concat h) a1 k s2 a2 HR HC ltac:(lia) P1 P2 Hs Hg) as [K1 K2]. split; [exact K1|]. split; [|exact K2].
      eapply classStep_inv; eauto. lia.
    - cbn [fst snd]. rewrite app_nil_r. auto. }
  destruct HF as (HF & _ & HF2). cbn [map] in HF. rewrite HF. cbn [bind]. split.
  - unfold mvS. cbn [fst snd]. rewrite map_app. reflexivity.
  - cbn [snd]. rewrite concat_app. cbn [concat]. rewrite app_nil_r. exact HF2.
Qed.
Lemma rounds_move st0 l sb : inv E O X nl r st0 [] -> foldM (roundStep E O X ohe nl rnd) (st0, []) l = Ok sb -> GoodAll (concat (snd sb)) ->
  foldM (roundStep E O X' ohe nl rnd') (st0, []) l = Ok (mvS sb) /\ splitsAll (concat (snd sb)).
Proof.
  intros I H HG.
  destruct (foldM_guard (roundStep E O X ohe nl rnd) (roundStep E O X' ohe nl rnd') mvS
      (fun sb => inv E O X nl r (fst sb) (concat (snd sb)) /\ splitsAll (concat (snd sb))) (fun sb => GoodAll (concat (snd sb)))) with (l := l) (st := (st0, @nil (list entryG))) (r := sb) as [K1 [_ K2]]; auto.
  - intros [s1 h1] rd sb2 Hs Hg. unfold roundStep in Hs. apply bind_Ok in Hs as ([ix cols] & _ & Hs). destruct (_ <? _); [apply Ok_inj' in Hs; subst sb2; exact Hg|].
    apply bind_Ok in Hs as ([st' cl] & _ & Hs). apply Ok_inj' in Hs. subst sb2. cbn [snd] in *. rewrite concat_app in Hg. eapply good_prefix; eauto.
  - intros [s1 h1] rd [s2 h2] _ [P1 P2] Hs Hg. destruct (roundStep_move _ _ _ P1 P2 Hs Hg) as [Q1 Q2]. split; [exact Q1|]. split; [|exact Q2].
    unfold roundStep in Hs. apply bind_Ok in Hs as ([ix cols] & HR & Hs). destruct (_ <? _); [apply Ok_inj' in Hs; rewrite <- Hs; exact P1|].
    apply bind_Ok in Hs as ([st' cl] & Hf & Hs). apply Ok_inj' in Hs. rewrite <- Hs. cbn [fst snd]. rewrite concat_app. cbn [concat]. rewrite app_nil_r.
    eapply round_spec; eauto.
  - cbn [fst snd concat]. split; [exact I|]. intros e [].
Qed.
End Train.

(** as [NewMultiClass_run], for two calls with the same labels *)
Lemma NewMultiClass_runs {K} E rnd (D : DataBunch K) O0 tr : NewMultiClass E rnd D O0 = Ok tr ->
  let nl := length (mc_labels (tr_model tr)) in let r := length (Labels D) in let O := fixMCW O0 in
  tr_opts tr = O /\
  exists ohe st0, wfDense ohe /\ d_r ohe = r /\ d_c ohe = nl /\
    (forall i j l w, nth_error (Labels D) i = Some l -> nth_error (mc_labels (tr_model tr)) j = Some w ->
       entry ohe i j (if w =? l then fone else fzero)) /\
    inv E O (Data D) nl r st0 [] /\
    foldM (roundStep E O (Data D) ohe nl rnd) (st0, []) (seq 0 (Z.to_nat (o_rounds O))) = Ok (tr_state tr, tr_hist tr) /\
    tr_model tr = MkMC (map (map g_tree) (tr_hist tr)) (o_lr O) (mc_labels (tr_model tr)) (Some (fun P Q => SoftMaxDense E P (Some Q))) (o_base O) (o_xgb O) /\
    forall (K' : Type) rnd' (D' : DataBunch K') st hist, Labels D' = Labels D ->
      foldM (roundStep E O (Data D') ohe nl rnd') (st0, []) (seq 0 (Z.to_nat (o_rounds O))) = Ok (st, hist) ->
      NewMultiClass E rnd' D' O0 = Ok (MkTr (MkMC (map (map g_tree) hist) (o_lr O) (mc_labels (tr_model tr)) (Some (fun P Q => SoftMaxDense E P (Some Q))) (o_base O) (o_xgb O)) O st hist).
Proof.
  unfold NewMultiClass. intros H. apply bind_Ok in H as ([ohe labels] & Hohe & H). apply bind_Ok in H as (raw0 & Hraw0 & H).
  apply bind_Ok in H as (probs & Hprobs & H). apply bind_Ok in H as ([st hist] & Hf & H). injection H as <-. cbn [tr_model tr_opts tr_hist tr_state].
  cbn [mc_labels]. split; [reflexivity|].
  destruct (c22_lemma (Labels D)) as [HN HS].
  assert (Hne : Labels D <> []) by (intros Hn; specialize (HN Hn); congruence).
  destruct (HS Hne) as (ohe' & labels' & Hohe' & HF & HW & Hr & Hc & Hent). assert (ohe' = ohe /\ labels' = labels) as [-> ->] by (split; congruence).
  exists ohe. eexists. split; [exact HW|]. split; [exact Hr|]. split; [exact Hc|]. split; [exact Hent|].
  match goal with |- inv _ _ _ _ _ ?s0 _ /\ _ => assert (HI : inv E (fixMCW O0) (Data D) (length labels) (length (Labels D)) s0 []) end; cycle 1.
  { split; [exact HI|]. split; [exact Hf|]. split; [reflexivity|]. intros K' rnd' D' st' hist' HL Hf'. unfold NewMultiClass. rewrite HL, Hohe. cbn [bind]. rewrite Hraw0. cbn [bind]. rewrite Hprobs. cbn [bind]. rewrite Hf'. reflexivity. }
  clear Hf.
  rewrite Hr, Hc in *. set (n := length (Labels D)) in *. set (c := length labels) in *. set (O := fixMCW O0) in *.
  unfold NewDense in Hraw0. destruct HW as (HW1 & HW2 & HW3).
  assert (Hz : (Nat.eqb n 0 || Nat.eqb c 0)%bool = false).
  { apply orb_false_iff. split; apply Nat.eqb_neq; lia. }
  rewrite Hz, repeat_length, Nat.eqb_refl in Hraw0. injection Hraw0 as <-.
  assert (HR : scaleDense (o_base O) (ToOnes (Dense n c (repeat fzero (n * c)))) = Dense n c (repeat (o_base O) (n * c))).
  { unfold scaleDense, ToOnes. cbn [d_r d_c d_data]. f_equal. rewrite map_map. generalize (n * c)%nat. intros q.
    rewrite (map_ext _ (fun _ => o_base O)) by (intros; apply fmul_1_r). clear.
    induction q as [|q IH]; simpl; [auto|]. f_equal. exact IH. }
  rewrite HR in *.
  assert (HWr : wfDense (Dense n c (repeat (o_base O) (n * c)))) by (repeat split; simpl; try lia; apply repeat_length).
  destruct (c80_lemma E (Dense n c (repeat (o_base O) (n * c))) None HWr) as (P' & HP' & HPW & HPr & HPc & HPs); [intros; discriminate|].
  assert (P' = probs) by congruence. subst P'. cbn [d_r d_c] in *.
  split; cbn [s_raw s_probs s_tmp s_stopped s_noprog s_prev].
  - split; [exact HWr|]. split; [reflexivity|]. split; [reflexivity|]. split; [exact HPW|]. cbn [s_raw s_probs s_tmp s_stopped s_noprog s_prev]. rewrite !repeat_length. repeat split; auto.
  - intros i row k Hi Hir Hk. exists (o_base O). split; [apply entry_repeat; auto|]. exists []. split; [constructor|reflexivity].
  - intros k Hk. unfold esv. cbn [s_raw s_probs s_tmp s_stopped s_noprog s_prev]. rewrite !nth_repeat. reflexivity.
  - intros k m _ Hm. simpl in Hm. lia.
  - intros e [].
  - exact HPs.
Qed.


Lemma moved_scores s n M row row' : movedRow n s row row' -> (forall ens t, In ens (mc_b M) -> In t ens -> splitsIn n t) ->
  rawScores (moveModel s M) row' = rawScores M row.
Proof.
  intros HR HT. unfold rawScores. cbn [moveModel mc_b mc_base mc_lr]. destruct (mc_b M) as [|b0 bs] eqn:EB; [reflexivity|]. change (idx (map (map (moveTree s)) (b0 :: bs)) 0) with (Ok (map (moveTree s) b0)). change (idx (b0 :: bs) 0) with (Ok b0).
  cbn [bind]. rewrite map_length. generalize (repeat (mc_base M) (length b0)). generalize (b0 :: bs) HT. clear EB HT. induction l as [|ens b IH]; intros HT tmp; [reflexivity|]. cbn [map foldM].
  assert (HA : forall ts c tmp, (forall t, In t ts -> splitsIn n t) -> addTrees (mc_lr M) row' c (map (moveTree s) ts) tmp = addTrees (mc_lr M) row c ts tmp).
  { clear -HR. induction ts as [|t ts IHt]; intros c tmp HI; [reflexivity|]. cbn [map addTrees]. rewrite (predict_move n s row row' HR t (HI t (or_introl eq_refl))).
    destruct (PredictSingle t row); cbn [bind]; auto. destruct (idx tmp c); cbn [bind]; auto. destruct (upd tmp c _); cbn [bind]; auto. apply IHt. intros; apply HI; right; auto. }
  rewrite HA by (intros t Ht; apply (HT ens t); [left|]; auto). destruct (addTrees _ _ _ _ _); cbn [bind]; auto. apply IH. intros ens' t He Ht. apply (HT ens' t); [right|]; auto.
Qed.

Lemma c143_train_lemma K K' E rnd rnd' (D : DataBunch K) (D' : DataBunch K') O tr n s : EnvOk E -> reorders n s -> movedColumns n s (Data D) (Data D') -> Labels D' = Labels D ->
  (length (Data D) <= length (Labels D))%nat -> movedDraws n s rnd rnd' -> NewMultiClass E rnd D O = Ok tr -> noTiesTraining E rnd D n tr ->
  exists tr', NewMultiClass E rnd' D' O = Ok tr' /\ tr_model tr' = moveModel s (tr_model tr) /\ tr_state tr' = tr_state tr /\
    forall row row' bufs, movedRow n s row row' -> PredictMC (tr_model tr') row' bufs = PredictMC (tr_model tr) row bufs /\
      PredictSingleClass (tr_model tr') row' bufs = PredictSingleClass (tr_model tr) row bufs.
Proof.
  intros HE HS HM HLb HL HD H HT. destruct (NewMultiClass_runs E rnd D O tr H) as (EO & ohe & st0 & HW & Hr & Hc & Hent & HI & Hf & EM & HN).
  set (nl := length (mc_labels (tr_model tr))) in *.
  assert (HIh : hinv E (fixMCW O) (Data D) nl (length (Labels D)) rnd (seq 0 (Z.to_nat (o_rounds (fixMCW O)))) (tr_state tr, tr_hist tr)) by (eapply rounds_hinv; eauto).
  assert (HG : GoodAll E n (Data D) (fixMCW O) ohe nl (length (Labels D)) rnd (concat (tr_hist tr))).
  { intros es1 e es2 He lab pr o Hlab Hpr HP Ho. 
    assert (Hk : (g_class e < nl)%nat) by (apply (inv_class _ _ _ _ _ _ _ (hi_inv _ _ _ _ _ _ _ _ HIh)); cbn [snd]; rewrite He; apply in_elt).
    eapply (HT es1 e es2 lab pr o He); [|exact Hpr|rewrite EO; exact HP|rewrite EO; exact Ho].
    destruct (UtilsThms.c21_densecol_lemma _ HW) as (HDc & _). destruct (HDc (g_class e)) as (l & Hl & HlL & Hle); [rewrite Hc; exact Hk|].
    assert (l = lab) by congruence. subst l. split; [congruence|]. intros i y c Hy Hcl.
    apply Hle. split; [rewrite Hr; apply nth_error_Some; congruence|]. apply Hent; auto. }
  destruct (rounds_move E HE n s HS (Data D) (Data D') HM (fixMCW O) ohe nl (length (Labels D)) rnd rnd' HD Hr Hc HL st0 _ _ HI Hf HG) as [F1 F2].
  unfold mvS in F1. cbn [fst snd] in F1, F2. specialize (HN K' rnd' D' _ _ HLb F1).
  assert (HMd : MkMC (map (map g_tree) (map (map (mvE s)) (tr_hist tr))) (o_lr (fixMCW O)) (mc_labels (tr_model tr)) (Some (fun P Q => SoftMaxDense E P (Some Q))) (o_base (fixMCW O)) (o_xgb (fixMCW O)) = moveModel s (tr_model tr)).
  { rewrite EM. unfold moveModel. cbn [mc_b mc_lr mc_labels mc_pt mc_base mc_xgb]. f_equal. rewrite !map_map. apply map_ext. intros cl. rewrite !map_map. reflexivity. }
  eexists. split; [exact HN|]. cbn [tr_model tr_state]. split; [exact HMd|]. split; [reflexivity|]. intros row row' bufs HR. rewrite HMd.
  assert (HQ : rawScores (moveModel s (tr_model tr)) row' = rawScores (tr_model tr) row).
  { apply (moved_scores s n); [exact HR|]. rewrite EM. cbn [mc_b]. intros ens t He Ht. apply in_map_iff in He as (cl & <- & Hcl). apply in_map_iff in Ht as (e & <- & He).
    apply F2. apply in_concat. eauto. }
  assert (HP : PredictMC (moveModel s (tr_model tr)) row' bufs = PredictMC (tr_model tr) row bufs) by (unfold PredictMC; rewrite HQ; reflexivity).
  split; [exact HP|]. unfold PredictSingleClass. rewrite HP. reflexivity.
Qed.
Lemma c143_tree_lemma E X X' n s o A' t : EnvOk E -> reorders n s -> movedColumns n s X X' -> movedSet n s (to_allowed o) A' ->
  NewTree E X o = Ok t -> noTies E X o n (to_allowed o) t ->
  NewTree E X' (withColumns o A') = Ok (moveTree s t) /\
  forall row row', movedRow n s row row' -> PredictSingle (moveTree s t) row' = PredictSingle t row.
Proof.
  intros HE HS HM HA H HT. destruct (grow_move E HE n s HS X X' HM _ o A' t HA H HT) as [G1 G2]. split; [exact G1|]. intros row row' HR. apply (predict_move n s row row' HR t G2).
Qed.
