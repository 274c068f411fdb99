(** Proofs about training and ensemble prediction. *)
From Coq Require Import Reals Lra.
From Verif Require Import Base F64 F64Lemmas Env EnvLemmas Utils Tree Spec UtilsProofs TreeProofs UtilsThms ActProofs Options Train SpecTrain.
Open Scope Z_scope.

(** ** Small facts *)
Lemma foldM_app {A S} (f : S -> A -> res S) l1 l2 s : foldM f s (l1 ++ l2) = bind (foldM f s l1) (fun s' => foldM f s' l2).
Proof. revert s; induction l1 as [|a l1 IH]; intros s; simpl; auto. destruct (f s a); simpl; auto. Qed.

(** an invariant of a loop, indexed by the prefix already processed *)
Lemma foldM_inv {A S} (f : S -> A -> res S) (P : list A -> S -> Prop) l s s' :
  P [] s -> (forall done a s1 s2, P done s1 -> f s1 a = Ok s2 -> In a l -> (exists rest, l = done ++ a :: rest) -> P (done ++ [a]) s2) ->
  foldM f s l = Ok s' -> P l s'.
Proof.
  intros H0 HS. assert (HG : forall rest done s1, l = done ++ rest -> P done s1 -> foldM f s1 rest = Ok s' -> P l s').
  { induction rest as [|a rest IH]; intros done s1 Hl HP HF; simpl in HF.
    - injection HF as <-. rewrite app_nil_r in Hl. subst. auto.
    - binv HF. apply (IH (done ++ [a]) v); auto.
      + rewrite <- app_assoc. auto.
      + eapply HS; eauto. rewrite Hl. apply in_elt. }
  intros HF. apply (HG l [] s); auto.
Qed.

Lemma predictLoop_inv t data : forall i preds out, 0 <= i -> predictLoop t data i preds = Ok out ->
  length out = length preds /\
  (forall k row, nth_error data k = Some row -> exists v, PredictSingle t row = Ok v /\ nth_error out (Z.to_nat i + k) = Some v) /\
  (forall k, (k < Z.to_nat i)%nat -> nth_error out k = nth_error preds k).
Proof.
  induction data as [|row0 data IH]; intros i preds out Hi H; simpl in H.
  - injection H as <-. repeat split; auto. intros [|k] row; simpl; discriminate.
  - binv H. binv H. apply upd_Ok in Hb0 as [Hr ->]. destruct (IH (i + 1) _ _ ltac:(lia) H) as (H1 & H2 & H3).
    rewrite upd_nat_length in H1. split; [auto|]. split.
    + intros [|k] row Hk; simpl in Hk.
      * injection Hk as <-. exists v. split; auto. rewrite Nat.add_0_r. rewrite H3 by lia.
        rewrite upd_nat_nth, Nat.eqb_refl. destruct (Nat.ltb_spec (Z.to_nat i) (length preds)) as [Q|Q]; auto; lia.
      * destruct (H2 k row Hk) as (p & Hp & Ho). exists p. split; auto. replace (Z.to_nat i + S k)%nat with (Z.to_nat (i + 1) + k)%nat by lia. auto.
    + intros k Hk. rewrite H3 by lia. rewrite upd_nat_nth. destruct (Nat.eqb_spec k (Z.to_nat i)); auto; lia.
Qed.
Lemma Predict_inv t data p out : Predict t data (Some p) = Ok out ->
  length out = length p /\
  forall k row, nth_error data k = Some row -> exists v, PredictSingle t row = Ok v /\ nth_error out k = Some v.
Proof. intros H. apply predictLoop_inv in H as (H1 & H2 & _); [|lia]. split; auto. Qed.

Lemma nth_upd_nat {A} (l : list A) k j a d : nth j (upd_nat l k a) d = if Nat.eqb j k && Nat.ltb k (length l) then a else nth j l d.
Proof.
  revert k j; induction l as [|x l IH]; intros [|k] [|j]; simpl; auto.
  - rewrite andb_false_r. auto.
  - rewrite IH. destruct (Nat.eqb_spec j k); simpl; auto.
Qed.

Lemma accumulated_snoc lr row s ts v t p : accumulated lr row s ts v -> PredictSingle t row = Ok p ->
  accumulated lr row s (ts ++ [t]) (fadd v (fmul p lr)).
Proof.
  intros (ps & HF & ->) Hp. exists (ps ++ [p]). split.
  - apply Forall2_app; auto.
  - rewrite fold_left_app. reflexivity.
Qed.
Lemma accumulated_det lr row s ts v v' : accumulated lr row s ts v -> accumulated lr row s ts v' -> v = v'.
Proof.
  intros (ps & HF & ->) (ps' & HF' & ->). f_equal.
  revert ps' HF'. induction HF as [|t p ts ps Hp HF IH]; intros ps' HF'; inversion HF' as [|t' p' ts' ps'' Hp' HF'']; subst; auto.
  f_equal; [congruence|auto].
Qed.
Lemma accumulated_app lr row s ts1 ts2 v : accumulated lr row s (ts1 ++ ts2) v <->
  exists u, accumulated lr row s ts1 u /\ accumulated lr row u ts2 v.
Proof.
  split.
  - intros (ps & HF & ->). apply Forall2_app_inv_l in HF as (p1 & p2 & H1 & H2 & ->). rewrite fold_left_app.
    eexists. split; eexists; split; eauto.
  - intros (u & (p1 & H1 & ->) & (p2 & H2 & ->)). exists (p1 ++ p2). split; [apply Forall2_app; auto|]. rewrite fold_left_app. auto.
Qed.

(** ** Ensemble prediction *)
Definition headOr (o : option tree) : list tree := match o with Some t => [t] | None => [] end.

Lemma addTrees_spec lr row ens : forall c tmp out, 0 <= c -> addTrees lr row c ens tmp = Ok out ->
  length out = length tmp /\ (Z.to_nat c + length ens <= Nat.max (Z.to_nat c) (length tmp))%nat /\
  forall j x, nth_error tmp j = Some x -> exists y, nth_error out j = Some y /\
    accumulated lr row x (if Nat.leb (Z.to_nat c) j then headOr (nth_error ens (j - Z.to_nat c)) else []) y.
Proof.
  induction ens as [|t ens IH]; intros c tmp out Hc H; simpl in H.
  - injection H as <-. split; [auto|]. split; [simpl; lia|]. intros j x Hx. exists x. split; auto.
    destruct (j - Z.to_nat c)%nat; simpl; destruct (Nat.leb _ _); exists []; split; auto.
  - binv H. binv H. binv H. apply upd_Ok in Hb1 as [Hr ->]. apply idx_Ok in Hb0 as [_ Hold].
    destruct (IH (c + 1) _ _ ltac:(lia) H) as (H1 & H2 & H3). rewrite upd_nat_length in *.
    split; [auto|]. split; [simpl; lia|]. intros j x Hx.
    specialize (H3 j). rewrite upd_nat_nth in H3.
    destruct (Nat.ltb_spec (Z.to_nat c) (length tmp)) as [Q|Q]; [|lia].
    destruct (Nat.eqb_spec j (Z.to_nat c)) as [Hj|Hne].
    + subst j. assert (v0 = x) by congruence. subst v0. destruct (H3 _ eq_refl) as (y & Hy & Hacc). exists y. split; auto.
      rewrite Nat.leb_refl, Nat.sub_diag. simpl.
      destruct (Nat.leb_spec (Z.to_nat (c + 1)) (Z.to_nat c)) as [Q'|_]; [lia|].
      destruct Hacc as (ps & HF & ->). inversion HF; subst. simpl. exists [v]. split; auto.
    + destruct (H3 x Hx) as (y & Hy & Hacc). exists y. split; auto.
      destruct (Nat.leb_spec (Z.to_nat (c + 1)) j) as [Q'|Q'], (Nat.leb_spec (Z.to_nat c) j) as [Q2|Q2]; try lia; auto.
      replace (j - Z.to_nat c)%nat with (S (j - Z.to_nat (c + 1)))%nat by lia. exact Hacc.
Qed.

Lemma rawScores_fold lr row : forall b tmp out, foldM (fun tmp ens => addTrees lr row 0 ens tmp) tmp b = Ok out ->
  length out = length tmp /\ (forall ens, In ens b -> (length ens <= length tmp)%nat) /\
  forall j x, nth_error tmp j = Some x -> exists y, nth_error out j = Some y /\ accumulated lr row x (positionTrees b j) y.
Proof.
  induction b as [|ens b IH]; intros tmp out H; simpl in H.
  - injection H as <-. split; [auto|]. split; [intros ? []|]. intros j x Hx. exists x. split; auto. exists []. split; [constructor|reflexivity].
  - binv H. apply addTrees_spec in Hb as (H1 & H2 & H3); [|lia]. apply IH in H as (H4 & H5 & H6).
    split; [congruence|]. split.
    + intros e [<-|He]; [simpl in H2; lia|]. apply H5 in He. lia.
    + intros j x Hx. destruct (H3 j x Hx) as (y & Hy & Ha). destruct (H6 j y Hy) as (z & Hz & Ha').
      exists z. split; auto. simpl. apply accumulated_app. exists y. split; auto.
      change (Nat.leb (Z.to_nat 0) j) with true in Ha. cbv iota in Ha. rewrite Nat.sub_0_r in Ha. exact Ha.
Qed.

Lemma rawScores_spec M row out : rawScores M row = Ok out ->
  exists b0 rest, mc_b M = b0 :: rest /\ length out = length b0 /\
  (forall ens, In ens (mc_b M) -> (length ens <= length b0)%nat) /\
  forall j, (j < length b0)%nat -> exists y, nth_error out j = Some y /\
    accumulated (mc_lr M) row (mc_base M) (positionTrees (mc_b M) j) y.
Proof.
  unfold rawScores. intros H. binv H. apply idx_Ok in Hb as [_ Hb]. destruct (mc_b M) as [|b0 rest]; [discriminate|].
  simpl in Hb. injection Hb as <-. exists b0, rest. split; [auto|].
  apply rawScores_fold in H as (H1 & H2 & H3). rewrite repeat_length in *. split; [auto|]. split; [auto|].
  intros j Hj. apply H3. rewrite (nth_error_nth' _ (mc_base M)) by (rewrite repeat_length; auto).
  rewrite nth_repeat. reflexivity.
Qed.

(** converse: existence of all predictions gives a result *)
Lemma addTrees_ok lr row ens : forall c tmp, 0 <= c -> (Z.to_nat c + length ens <= length tmp)%nat ->
  (forall t, In t ens -> exists p, PredictSingle t row = Ok p) -> exists out, addTrees lr row c ens tmp = Ok out.
Proof.
  induction ens as [|t ens IH]; intros c tmp Hc HL HP; simpl; [eauto|]. simpl in HL.
  destruct (HP t) as [p ->]; [left; auto|]. simpl.
  destruct (proj2 (idx_range tmp c)) as [x ->]; [lia|]. simpl.
  assert (Hu : upd tmp c (fadd x (fmul p lr)) = Ok (upd_nat tmp (Z.to_nat c) (fadd x (fmul p lr)))) by (apply upd_Ok; split; [lia|auto]).
  rewrite Hu. simpl. apply IH.
  - lia.
  - rewrite upd_nat_length. lia.
  - intros; apply HP; right; auto.
Qed.
Lemma rawScores_ok M row b0 rest : mc_b M = b0 :: rest -> (forall ens, In ens (mc_b M) -> (length ens <= length b0)%nat) ->
  (forall ens t, In ens (mc_b M) -> In t ens -> exists p, PredictSingle t row = Ok p) ->
  exists out, rawScores M row = Ok out.
Proof.
  intros HB HL HP. unfold rawScores.
  assert (Hi : idx (mc_b M) 0 = Ok b0) by (rewrite HB; reflexivity). rewrite Hi. cbn [bind].
  assert (HG : forall b tmp, (forall ens, In ens b -> (length ens <= length tmp)%nat /\ forall t, In t ens -> exists p, PredictSingle t row = Ok p) ->
    exists out, foldM (fun tmp ens => addTrees (mc_lr M) row 0 ens tmp) tmp b = Ok out).
  { induction b as [|ens b IH]; intros tmp H; simpl; [eauto|].
    destruct (H ens) as [H1 H2]; [left; auto|]. destruct (addTrees_ok (mc_lr M) row ens 0 tmp) as [out Ho]; auto; [lia|].
    rewrite Ho. simpl. apply IH. intros e He. apply addTrees_spec in Ho as (HL' & _); [|lia]. rewrite HL'. apply H. right; auto. }
  apply HG. intros ens He. rewrite repeat_length. split; [apply HL; auto|]. intros t. apply HP. auto.
Qed.

(** ** Training *)
Section Training.
Context (E : Env) (O : Options) (data : list (list f64)) (ohe : dense) (nl r : nat).
Context (HO : wfDense ohe) (HOr : d_r ohe = r) (HOc : d_c ohe = nl).

Definition wfst (st : tstate) : Prop :=
  wfDense (s_raw st) /\ d_r (s_raw st) = r /\ d_c (s_raw st) = nl /\
  wfDense (s_probs st) /\ d_r (s_probs st) = r /\ d_c (s_probs st) = nl /\
  length (s_tmp st) = r /\ length (s_stopped st) = nl /\ length (s_noprog st) = nl /\ length (s_prev st) = nl.

(** the early-stopping variables of class [k] *)
Definition esv (st : tstate) (k : nat) : bool * Z * f64 :=
  (nth k (s_stopped st) false, nth k (s_noprog st) 0, nth k (s_prev st) fzero).
(** their update by a loss, as a function on one class *)
Definition esStep (v : bool * Z * f64) (rl : nat * f64) : bool * Z * f64 :=
  let '(s, n, p) := v in
  let '(rd, l) := rl in
  if 0 <? o_earlystop O then
    if fleb l epsilon then (true, n, p)
    else if Nat.eqb rd 0 then (s, n, l)
    else let c := if fleb p l then n + 1 else 0 in
         (if o_earlystop O <=? c then true else s, c, l)
  else v.

Lemma earlyStop_esv rd k l st j : wfst st -> (k < nl)%nat ->
  esv (earlyStop O rd k l st) j = if Nat.eqb j k then esStep (esv st k) (rd, l) else esv st j.
Proof.
  intros (_ & _ & _ & _ & _ & _ & _ & L1 & L2 & L3) Hk. unfold earlyStop, esStep, esv.
  destruct (0 <? o_earlystop O); [|destruct (Nat.eqb_spec j k); subst; auto].
  destruct (fleb l epsilon).
  { cbn [s_stopped s_noprog s_prev]. rewrite nth_upd_nat, L1. destruct (Nat.ltb_spec k nl) as [Q|Q]; [|lia].
    destruct (Nat.eqb_spec j k); subst; auto. }
  destruct (Nat.eqb rd 0).
  { cbn [s_stopped s_noprog s_prev]. rewrite nth_upd_nat, L3. destruct (Nat.ltb_spec k nl) as [Q|Q]; [|lia].
    destruct (Nat.eqb_spec j k); subst; auto. }
  cbn [s_stopped s_noprog s_prev].
  rewrite !nth_upd_nat, L2, L3. destruct (Nat.ltb_spec k nl) as [Q|Q]; [|lia].
  destruct (o_earlystop O <=? _).
  - rewrite nth_upd_nat, L1. destruct (Nat.ltb_spec k nl) as [_|Q']; [|lia]. destruct (Nat.eqb_spec j k); subst; auto.
  - destruct (Nat.eqb_spec j k); subst; auto.
Qed.
Lemma earlyStop_wf rd k l st : wfst st -> wfst (earlyStop O rd k l st).
Proof.
  unfold earlyStop, wfst. intros H. destruct (0 <? _); auto. destruct (fleb l epsilon); [|destruct (Nat.eqb rd 0)];
    cbn [s_raw s_probs s_tmp s_stopped s_noprog s_prev]; try destruct (_ <=? _); rewrite ?upd_nat_length; exact H.
Qed.
Lemma earlyStop_raw rd k l st : s_raw (earlyStop O rd k l st) = s_raw st /\ s_probs (earlyStop O rd k l st) = s_probs st.
Proof. unfold earlyStop. destruct (0 <? _); auto. destruct (fleb l epsilon); auto. destruct (Nat.eqb rd 0); auto. Qed.

Lemma classStep_spec ix cols rd st acc k st' acc' : wfst st -> (k < nl)%nat ->
  classStep E O data ohe ix cols rd (st, acc) k = Ok (st', acc') ->
  (nth k (s_stopped st) false = true /\ st' = st /\ acc' = acc) \/
  (nth k (s_stopped st) false = false /\ exists t l, acc' = acc ++ [MkG k rd t l] /\ wfst st' /\
    (forall j, esv st' j = if Nat.eqb j k then esStep (esv st k) (rd, l) else esv st j) /\
    (forall i row v, nth_error data i = Some row -> entry (s_raw st) i k v ->
       exists p, PredictSingle t row = Ok p /\ entry (s_raw st') i k (fadd v (fmul p (o_lr O)))) /\
    (forall i j v, j <> k -> entry (s_raw st) i j v -> entry (s_raw st') i j v) /\
    SoftMaxDense E (s_raw st') (Some (s_probs st)) = Ok (s_probs st') /\
    exists lab pr pr', DenseCol ohe (Z.of_nat k) = Ok lab /\ DenseCol (s_probs st) (Z.of_nat k) = Ok pr /\
      classTree E O data ix cols lab pr = Ok t /\ DenseCol (s_probs st') (Z.of_nat k) = Ok pr' /\ l = l_loss (o_loss O) lab pr').
Proof.
  intros HW Hk H. unfold classStep in H. destruct (nth k (s_stopped st) false) eqn:Es.
  - injection H as <- <-. left. auto.
  - right. split; [auto|]. apply bind_Ok in H as (lab & Hlab & H). apply bind_Ok in H as (pr & Hpr & H).
    apply bind_Ok in H as (t & Ht & H). apply bind_Ok in H as (preds & Hp & H). apply bind_Ok in H as (raw & Hraw & H).
    apply bind_Ok in H as (probs & Hprobs & H). apply bind_Ok in H as (pr' & Hpr' & H). injection H as <- <-.
    destruct HW as (W1 & W2 & W3 & W4 & W5 & W6 & W7 & W8 & W9 & W10).
    apply Predict_inv in Hp as [HpL Hpk].
    set (tmp := map (fun v => fmul v (o_lr O)) preds) in *.
    assert (Ht_len : length tmp = d_r (s_raw st)) by (unfold tmp; rewrite map_length; congruence).
    destruct (c21_addtocol_lemma (s_raw st) tmp W1 Ht_len) as (HA & _ & _).
    destruct (HA k ltac:(lia)) as (D' & HD' & Hr' & Hc' & HW' & Hadd & Hoth).
    assert (D' = raw) by congruence. subst D'.
    destruct (c80_lemma E raw (Some (s_probs st)) HW') as (P' & HP' & HPW & HPr & HPc & _).
    { intros d [= <-]. split; auto. split; congruence. }
    assert (P' = probs) by congruence. subst P'.
    set (st1 := MkSt raw probs tmp (s_stopped st) (s_noprog st) (s_prev st)).
    assert (HW1 : wfst st1).
    { unfold wfst, st1. cbn [s_raw s_probs s_tmp s_stopped s_noprog s_prev].
      split; [exact HW'|]. split; [congruence|]. split; [congruence|]. split; [exact HPW|]. repeat split; congruence. }
    exists t, (l_loss (o_loss O) lab pr'). destruct (earlyStop_raw rd k (l_loss (o_loss O) lab pr') st1) as [ER EP].
    split; [auto|]. split; [apply earlyStop_wf; auto|]. split; [|split; [|split; [|split]]].
    + intros j. rewrite earlyStop_esv by auto. destruct (Nat.eqb_spec j k); auto.
    + intros i row v Hi Hv. destruct (Hpk i row Hi) as (p & Hp1 & Hp2). exists p. split; auto. rewrite ER.
      apply Hadd; auto. unfold tmp. rewrite nth_error_map, Hp2. auto.
    + intros i j v Hj Hv. rewrite ER. apply Hoth; auto.
    + rewrite ER, EP. exact Hprobs.
    + exists lab, pr, pr'. rewrite EP. auto.
Qed.

(** the invariant of the loops: [es] are the trees trained so far *)
Definition init : bool * Z * f64 := (false, 0, fzero).
Record inv (st : tstate) (es : list entryG) : Prop := {
  inv_wf : wfst st;
  inv_scores : forall i row k, nth_error data i = Some row -> (i < r)%nat -> (k < nl)%nat ->
    exists v, entry (s_raw st) i k v /\ accumulated (o_lr O) row (o_base O) (classTrees es k) v;
  inv_es : forall k, (k < nl)%nat -> esv st k = fold_left esStep (lossesOf es k) init;
  inv_alive : forall k n, (k < nl)%nat -> (n < length (lossesOf es k))%nat ->
    fst (fst (fold_left esStep (firstn n (lossesOf es k)) init)) = false;
  inv_class : forall e, In e es -> (g_class e < nl)%nat;
  inv_probs : forall i, (i < r)%nat -> SoftMax E (rowView (s_raw st) i) (repeat fzero nl) = Ok (rowView (s_probs st) i)
}.

Lemma classTrees_snoc es e k : classTrees (es ++ [e]) k = classTrees es k ++ (if Nat.eqb (g_class e) k then [g_tree e] else []).
Proof. unfold classTrees. rewrite filter_app, map_app. simpl. destruct (Nat.eqb _ _); reflexivity. Qed.
Lemma lossesOf_snoc es e k : lossesOf (es ++ [e]) k = lossesOf es k ++ (if Nat.eqb (g_class e) k then [(g_round e, g_loss e)] else []).
Proof. unfold lossesOf. rewrite filter_app, map_app. simpl. destruct (Nat.eqb _ _); reflexivity. Qed.

Lemma classStep_inv ix cols rd st es acc k st' acc' : inv st (es ++ acc) -> (k < nl)%nat ->
  classStep E O data ohe ix cols rd (st, acc) k = Ok (st', acc') -> inv st' (es ++ acc').
Proof.
  intros HI Hk H. pose proof (inv_wf _ _ HI) as HW. destruct (classStep_spec _ _ _ _ _ _ _ _ HW Hk H) as [(_ & -> & ->)|(Es & t & l & -> & HW' & Hes & Hadd & Hoth & Hsm & _)]; auto.
  rewrite app_assoc. split; auto.
  - intros i row j Hi Hir Hj. destruct (inv_scores _ _ HI i row j Hi Hir Hj) as (v & Hv & Ha). rewrite classTrees_snoc. cbn [g_class g_tree].
    destruct (Nat.eqb_spec k j) as [->|Hne].
    + destruct (Hadd i row v Hi Hv) as (p & Hp & He). exists (fadd v (fmul p (o_lr O))). split; auto. apply accumulated_snoc; auto.
    + exists v. rewrite app_nil_r. split; auto.
  - intros j Hj. rewrite Hes, lossesOf_snoc. cbn [g_class g_round g_loss]. rewrite (Nat.eqb_sym k j).
    destruct (Nat.eqb_spec j k) as [->|Hne].
    + rewrite fold_left_app. rewrite (inv_es _ _ HI) by auto. reflexivity.
    + rewrite app_nil_r. apply (inv_es _ _ HI); auto.
  - intros j n Hj. rewrite lossesOf_snoc. cbn [g_class g_round g_loss]. destruct (Nat.eqb_spec k j) as [->|Hne].
    + rewrite app_length. simpl. intros Hn. rewrite firstn_app.
      destruct (Nat.eq_dec n (length (lossesOf (es ++ acc) j))) as [->|Hlt].
      * rewrite firstn_all, Nat.sub_diag. simpl. rewrite app_nil_r. rewrite <- (inv_es _ _ HI) by auto. unfold esv. simpl. auto.
      * replace (n - length (lossesOf (es ++ acc) j))%nat with 0%nat by lia. simpl. rewrite app_nil_r.
        apply (inv_alive _ _ HI); auto. lia.
    + rewrite app_nil_r. intros Hn. apply (inv_alive _ _ HI); auto.
  - intros e He. apply in_app_iff in He as [He|[<-|[]]]; [apply (inv_class _ _ HI); auto|auto].
  - intros i Hi. pose proof HW' as (W1 & W2 & W3 & _). pose proof HW as (_ & _ & _ & W4 & W5 & W6 & _).
    destruct (c80_lemma E (s_raw st') (Some (s_probs st)) W1) as (P' & HP' & _ & _ & _ & HR).
    { intros d [= <-]. split; auto. split; congruence. }
    assert (P' = s_probs st') by congruence. subst P'. rewrite <- W3. apply HR. lia.
Qed.

(** classes trained in a round: the ones not stopped at its beginning, in order *)
Definition alive (st : tstate) : list nat := filter (fun k => negb (nth k (s_stopped st) false)) (seq 0 nl).

Lemma round_spec ix cols rd st es st' classes : inv st es ->
  foldM (classStep E O data ohe ix cols rd) (st, []) (seq 0 nl) = Ok (st', classes) ->
  inv st' (es ++ classes) /\ map g_class classes = alive st /\ (forall e, In e classes -> g_round e = rd) /\
  (forall k, nth k (s_stopped st) false = true -> nth k (s_stopped st') false = true).
Proof.
  intros HI H.
  set (P := fun (done : list nat) (sa : tstate * list entryG) => inv (fst sa) (es ++ snd sa) /\
    map g_class (snd sa) = filter (fun k => negb (nth k (s_stopped st) false)) done /\
    (forall e, In e (snd sa) -> g_round e = rd) /\
    (forall j, ~ In j done -> esv (fst sa) j = esv st j) /\
    (forall k, nth k (s_stopped st) false = true -> nth k (s_stopped (fst sa)) false = true)).
  assert (HP : P (seq 0 nl) (st', classes)).
  { eapply (foldM_inv _ P); [| |exact H].
    - unfold P. simpl. rewrite app_nil_r. split; [auto|]. split; [auto|]. split; [intros ? []|]. split; auto.
    - intros done k [s1 a1] [s2 a2] (P1 & P2 & P3 & P4 & P5) HS Hin [rest Hrest]. simpl in *.
      assert (Hk : (k < nl)%nat) by (apply in_seq in Hin; lia).
      assert (Hnd : ~ In k done).
      { intros Hd. pose proof (seq_NoDup nl 0) as ND. rewrite Hrest in ND. apply NoDup_remove_2 in ND. apply ND, in_app_iff; auto. }
      assert (Hst : nth k (s_stopped s1) false = nth k (s_stopped st) false).
      { specialize (P4 k Hnd). unfold esv in P4. congruence. }
      pose proof (classStep_inv _ _ _ _ _ _ _ _ _ P1 Hk HS) as P1'.
      unfold P. simpl. split; [auto|].
      rewrite filter_app. simpl. rewrite <- Hst.
      destruct (classStep_spec _ _ _ _ _ _ _ _ (inv_wf _ _ P1) Hk HS) as [(Es & -> & ->)|(Es & t & l & -> & HW' & Hes & _)]; rewrite Es; simpl.
      + rewrite app_nil_r. repeat split; auto. intros j Hj. apply P4. intros Hd. apply Hj, in_app_iff. auto.
      + rewrite map_app, P2. split; [auto|]. split; [|split].
        * intros e He. apply in_app_iff in He as [He|[<-|[]]]; auto.
        * intros j Hj. rewrite Hes. destruct (Nat.eqb_spec j k) as [->|Hne].
          -- exfalso. apply Hj, in_app_iff. right; left; auto.
          -- apply P4. intros Hd. apply Hj, in_app_iff. auto.
        * intros j Hj. specialize (Hes j). unfold esv in Hes. destruct (Nat.eqb_spec j k) as [Hjk|Hne].
          -- subst j. rewrite Hst in Es. congruence.
          -- injection Hes as -> _ _. auto. }
  destruct HP as (P1 & P2 & P3 & _ & P5). auto.
Qed.
End Training.
