(** Assembly of the tree theorems from the lemmas (proof support). *)
From Coq Require Import Reals Lra.
From Verif Require Import Base F64 F64Lemmas Env EnvLemmas Utils Tree Spec UtilsProofs TreeProofs TreeSplit TreeMid Examples.
Open Scope Z_scope.

Lemma sub_subAt s t : sub s t <-> exists k, subAt s k t.
Proof.
  split.
  - induction 1 as [|d l r H [k IH]|d l r H [k IH]].
    + exists O; constructor.
    + exists (S k); apply subAt_l; auto.
    + exists (S k); apply subAt_r; auto.
  - intros [k H]. induction H; [apply sub_refl|apply sub_l|apply sub_r]; auto.
Qed.

Lemma grown_subAt E X n o t s k : grown E X n o t -> subAt s k t -> s <> Nil ->
  exists o', grown E X (n - k) o' s /\ (k <= n)%nat /\ core o' = core o /\
    (k = O -> o' = o) /\ (k <> O -> to_allowed o' = []).
Proof.
  intros HG; revert s k; induction HG as [n o value row0 b HV HX HB HL|n o value row0 b col l r HV HX HF HL HC Hl IHl Hr IHr];
    intros s k HS Hn.
  - inversion HS as [|k' d' l' r' HS'|k' d' l' r' HS']; subst.
    + rewrite Nat.sub_0_r. eexists; split; [eapply grown_leaf; eauto|]. repeat split; auto; try lia; congruence.
    + inversion HS'; subst; congruence.
    + inversion HS'; subst; congruence.
  - inversion HS as [|k' d' l' r' HS'|k' d' l' r' HS']; subst.
    + eexists; split; [eapply grown_split; eauto|]. repeat split; auto; try lia; congruence.
    + destruct (IHl s k' HS' Hn) as (o' & G & Le & C & A1 & A2).
      exists o'. split; [exact G|]. split; [lia|]. split; [rewrite C; reflexivity|]. split; [discriminate|].
      intros _. destruct k'; [rewrite (A1 eq_refl); reflexivity|apply A2; discriminate].
    + destruct (IHr s k' HS' Hn) as (o' & G & Le & C & A1 & A2).
      exists o'. split; [exact G|]. split; [lia|]. split; [rewrite C; reflexivity|]. split; [discriminate|].
      intros _. destruct k'; [rewrite (A1 eq_refl); reflexivity|apply A2; discriminate].
Qed.

Lemma sub_grown E X o t d l r k : NewTree E X o = Ok t -> subAt (Node d l r) k t ->
  exists o', grown E X (Z.to_nat (to_maxdepth o) - k) o' (Node d l r) /\ (k <= Z.to_nat (to_maxdepth o))%nat /\
    core o' = core o /\ samplesOf d = initialSamples X o' /\
    forall nf f, scannedAt o nf k f <-> allowedColumn o' nf f.
Proof.
  intros H HS. apply NewTree_grown in H.
  destruct (grown_subAt _ _ _ _ _ _ _ H HS) as (o' & G & Le & C & A1 & A2); [discriminate|].
  exists o'. do 3 (split; [auto|]). split; [inversion G; reflexivity|].
  intros nf f. unfold scannedAt, allowedColumn. destruct k.
  - rewrite (A1 eq_refl). intuition.
  - rewrite A2 by discriminate. intuition.
Qed.

Lemma c02_lemma E X o t i row : NewTree E X o = Ok t -> In i (initialSamples X o) -> look X i row ->
  exists k d, nth_error (leaves t) k = Some d /\ In i (samplesOf d) /\ PredictSingle t row = Ok (t_value d) /\
    forall k' d', nth_error (leaves t) k' = Some d' -> In i (samplesOf d') -> k' = k.
Proof. intros H. eapply grown_predict. eapply NewTree_grown; eauto. Qed.

Lemma c03_lemma E X o t : NewTree E X o = Ok t ->
  Z.of_nat (depth t) <= Z.max 0 (to_maxdepth o) /\
  (to_maxdepth o <= 0 -> exists d, t = Node d Nil Nil /\ t_leaf d = true).
Proof.
  intros H. apply NewTree_grown in H. pose proof (grown_depth _ _ _ _ _ H). split; [lia|].
  intros HM. replace (Z.to_nat (to_maxdepth o)) with O in H by lia.
  inversion H as [n1 o1 value row0 b HV HX HB HL1|]; subst. eexists. split; [reflexivity|]. exact HL1.
Qed.

Lemma c04_lemma E X o t : NewTree E X o = Ok t ->
  Branches t = Ok (nodes t) /\ Z.odd (nodes t) = true /\ 1 <= nodes t <= 2 ^ (Z.max 0 (to_maxdepth o) + 1) - 1 /\
  forall d l r, sub (Node d l r) t -> t_branches d = nodes (Node d l r).
Proof.
  intros H. split; [|split; [|split]].
  - apply NewTree_grown in H. pose proof (grown_branches _ _ _ _ _ H).
    destruct (grown_node _ _ _ _ _ H) as (d & l & r & ->). simpl in *. congruence.
  - apply NewTree_grown in H. eapply grown_odd; eauto.
  - apply NewTree_grown in H. replace (Z.max 0 (to_maxdepth o)) with (Z.of_nat (Z.to_nat (to_maxdepth o))) by lia.
    eapply grown_nodes_le; eauto.
  - intros d l r. eapply node_branches; eauto.
Qed.

Lemma c07_lemma E X o t d l r k : EnvOk E -> NewTree E X o = Ok t -> subAt (Node d l r) k t ->
  exists row0, look X 0 row0 /\
  (t_leaf d = false ->
     exists i, scannedAt o (length row0) k (t_split d) /\
       candidate E X o (samplesOf d) (t_split d) i (t_best d) (t_thr d) /\
       betterScore (to_xgb o) (t_best d) (startScore (to_xgb o)) = true /\
       (forall f j sc thr, scannedAt o (length row0) k f -> candidate E X o (samplesOf d) f j sc thr ->
          betterScore (to_xgb o) sc (t_best d) = false) /\
       (forall f j sc thr, scannedAt o (length row0) k f -> (f < t_split d \/ f = t_split d /\ (j < i)%nat) ->
          candidate E X o (samplesOf d) f j sc thr ->
          fnanb sc = true \/ betterScore (to_xgb o) (t_best d) sc = true)) /\
  (t_leaf d = true -> Z.of_nat k < to_maxdepth o ->
     forall f j sc thr, scannedAt o (length row0) k f -> candidate E X o (samplesOf d) f j sc thr ->
       betterScore (to_xgb o) sc (startScore (to_xgb o)) = false).
Proof.
  intros HE H HS. destruct (sub_grown _ _ _ _ _ _ _ _ H HS) as (o' & G & Le & C & Sm & Al).
  assert (HX : exists row0, look X 0 row0).
  { inversion G; eexists; apply look_idx; eauto. }
  destruct HX as [row0 HX]. exists row0. split; [auto|].
  assert (Cx : to_xgb o' = to_xgb o) by (unfold core in C; congruence).
  assert (HC : forall f j sc thr, candidate E X o (samplesOf d) f j sc thr <-> candidate E X o' (initialSamples X o') f j sc thr).
  { intros. rewrite Sm. split; apply candidate_core; auto. }
  split.
  - intros HL. destruct (chosen_split E HE _ _ _ _ _ _ G HL) as (row0' & i & HX' & A1 & A2 & A3 & A4 & A5).
    assert (row0' = row0) by (eapply look_fun; eauto). subst row0'. rewrite Cx in *.
    exists i. split; [apply Al; auto|]. split; [apply HC; auto|]. split; [auto|]. split.
    + intros f j sc thr Hs Hc. eapply A4; [apply Al; eauto|apply HC; eauto].
    + intros f j sc thr Hs Hlt Hc. eapply A5; [apply Al; eauto|eauto|apply HC; eauto].
  - intros HL Hk. destruct (leaf_no_candidate E HE _ _ _ _ _ _ G HL) as (row0' & HX' & A); [lia|].
    assert (row0' = row0) by (eapply look_fun; eauto). subst row0'. rewrite Cx in *.
    intros f j sc thr Hs Hc. eapply A; [apply Al; eauto|apply HC; eauto].
Qed.

Lemma c08_lemma E X o t d l r : EnvOk E -> NewTree E X o = Ok t -> sub (Node d l r) t -> t_leaf d = false ->
  (forall j v, In j (samplesOf d) -> cell X j (t_split d) v -> ffinite v = true) ->
  exists a b dl ll lr dr rl rr,
    l = Node dl ll lr /\ r = Node dr rl rr /\
    (exists j, In j (samplesOf d) /\ cell X j (t_split d) a) /\
    (exists j, In j (samplesOf d) /\ cell X j (t_split d) b) /\
    fltb a b = true /\ t_thr d = fdiv (fadd a b) (fofZ 2) /\
    (forall j v, In j (samplesOf d) -> cell X j (t_split d) v -> fleb v a = true \/ fleb b v = true) /\
    (ffinite (fadd a b) = true -> ftoZ (to_mcw o) <= t_nsamples dl /\ 1 <= t_nsamples dl) /\
    (fltb (t_thr d) b = true -> ftoZ (to_mcw o) <= t_nsamples dr /\ 1 <= t_nsamples dr).
Proof.
  intros HE H HS HL HF. destruct (split_partition _ _ _ _ _ _ _ H HS HL) as (ix & dl & ll & lr & dr & rl & rr & S1 & -> & -> & _ & S2 & S3 & _).
  apply sub_subAt in HS as HSk. destruct HSk as [k HSk].
  destruct (c07_lemma _ _ _ _ _ _ _ _ HE H HSk) as (row0 & _ & A & _). destruct (A HL) as (i & _ & Hc & _). clear A.
  assert (HN : forall j v, In j (samplesOf d) -> cell X j (t_split d) v -> fnanb v = false).
  { intros j v Hj Hv. apply finite_nnan. eauto. }
  destruct (candidate_counts E HE _ _ _ _ _ _ _ Hc HN) as (a & b & ja & jb & Ia & Ib & Ca & Cb & Lab & Et & Hi & M1 & M2 & HNb & K1 & K2).
  exists a, b, dl, ll, lr, dr, rl, rr. split; [auto|]. split; [auto|]. split; [eauto|]. split; [eauto|]. split; [auto|].
  split; [auto|]. split; [auto|].
  unfold samplesOf in K1, K2, Hi, M2. rewrite S1 in K1, K2, Hi, M2.
  assert (Nl : t_nsamples dl = Z.of_nat (length (filter (below X (t_split d) (t_thr d)) ix)) /\
               t_nsamples dr = Z.of_nat (length (filter (fun i0 => negb (below X (t_split d) (t_thr d) i0)) ix))).
  { split.
    - assert (HSl : sub (Node dl ll lr) t).
      { clear -HS. remember (Node d (Node dl ll lr) (Node dr rl rr)) as s eqn:Es. induction HS; subst; [apply sub_l, sub_refl|apply sub_l; auto|apply sub_r; auto]. }
      destruct (node_value _ _ _ _ _ _ _ H HSl) as (ix' & Q1 & Q2 & _). rewrite Q2. congruence.
    - assert (HSr : sub (Node dr rl rr) t).
      { clear -HS. remember (Node d (Node dl ll lr) (Node dr rl rr)) as s eqn:Es. induction HS; subst; [apply sub_r, sub_refl|apply sub_l; auto|apply sub_r; auto]. }
      destruct (node_value _ _ _ _ _ _ _ H HSr) as (ix' & Q1 & Q2 & _). rewrite Q2. congruence. }
  destruct Nl as [-> ->]. split.
  - intros Hf. destruct (midpoint_between a b) as [B1 _]; eauto.
    unfold midpoint in B1. rewrite <- Et in B1. specialize (K1 B1). lia.
  - intros Hlt. specialize (K2 Hlt). lia.
Qed.

Lemma c10_lemma E X o row0 rest : EnvOk E -> X = row0 :: rest ->
  (forall row, In row X -> length row = length row0) ->
  (forall i f v, cell X i f v -> fnanb v = false) ->
  (forall f i j a b, cell X i f a -> cell X j f b -> fltb a b = true ->
     fleb a (fdiv (fadd a b) (fofZ 2)) = true /\ fltb (fdiv (fadd a b) (fofZ 2)) b = true) ->
  initialSamples X o <> [] -> NoDup (initialSamples X o) ->
  (forall i, In i (initialSamples X o) -> 0 <= i < Z.of_nat (length X)) ->
  (if to_xgb o then exists g h, to_grads o = Some g /\ to_hess o = Some h /\ length g = length X /\ length h = length X
   else length (to_y o) = length X) ->
  (forall b, to_in o = Some b -> (length (initialSamples X o) <= length b)%nat) ->
  (forall b, to_val o = Some b -> (length (initialSamples X o) <= length b)%nat) ->
  exists t, NewTree E X o = Ok t.
Proof.
  intros HE HX Hr HN Hm H1 H2 H3 H4 H5 H6. unfold NewTree.
  eapply (grow_ex E HE X row0 rest); eauto. unfold okOpts. auto 8.
Qed.

Lemma c12_lemma E X o t d l r : EnvOk E -> NewTree E X o = Ok t -> sub (Node d l r) t -> t_leaf d = false ->
  if to_xgb o then fltb fzero (t_best d) = true else fltb (t_best d) finf = true.
Proof.
  intros HE H HS HL. apply sub_subAt in HS as [k HS].
  destruct (c07_lemma _ _ _ _ _ _ _ _ HE H HS) as (row0 & _ & A & _). destruct (A HL) as (i & _ & _ & B & _).
  unfold betterScore, startScore in B. destruct (to_xgb o); auto.
Qed.

Lemma c15_lemma E X o t : NewTree E X o = Ok t ->
  exists row0, look X 0 row0 /\
  forall row, (length row0 <= length row)%nat ->
    (exists d, In d (leaves t) /\ PredictSingle t row = Ok (t_value d)) /\
    forall row', (length row0 <= length row')%nat ->
      (forall d l r v v', sub (Node d l r) t -> t_leaf d = false -> look row (t_split d) v -> look row' (t_split d) v' ->
         fleb v (t_thr d) = fleb v' (t_thr d)) ->
      PredictSingle t row = PredictSingle t row'.
Proof.
  intros H. apply NewTree_grown in H.
  assert (HX : exists row0, look X 0 row0) by (inversion H; eexists; apply look_idx; eauto).
  destruct HX as [row0 HX]. exists row0. split; [auto|]. intros row Hlen. split.
  - eapply grown_predict_total; eauto.
  - intros row' Hlen' HC. apply predict_comparisons. intros d l r HS HL.
    destruct (grown_sub _ _ _ _ _ _ H HS) as (n' & o' & G & _); [discriminate|].
    destruct (grown_split_range _ _ _ _ _ _ _ G HL) as (row0' & HX' & [HR _]).
    assert (row0' = row0) by (eapply look_fun; eauto). subst row0'.
    destruct (look_ex row (t_split d)) as [v Hv]; [lia|]. destruct (look_ex row' (t_split d)) as [v' Hv']; [lia|].
    exists v, v'. split; [apply look_idx; auto|]. split; [apply look_idx; auto|]. eauto.
Qed.

Lemma c16_lemma t data preds : (forall row, In row data -> exists v, PredictSingle t row = Ok v) ->
  (Z.of_nat (length data) <= Z.of_nat (length (match preds with Some p => p | None => repeat fzero (length data) end)) ->
   exists out, Predict t data preds = Ok out /\
     length out = length (match preds with Some p => p | None => repeat fzero (length data) end) /\
     (forall k row, nth_error data k = Some row -> exists v, PredictSingle t row = Ok v /\ nth_error out k = Some v) /\
     (forall p k, preds = Some p -> (length data <= k)%nat -> nth_error out k = nth_error p k)) /\
  (forall p, preds = Some p -> (length p < length data)%nat -> Predict t data preds = Panic).
Proof.
  intros HP. split.
  - intros HL. destruct (predictLoop_spec t data 0 (match preds with Some p => p | None => repeat fzero (length data) end)) as (out & H1 & H2 & H3 & H4); auto; [lia|].
    exists out. split; [auto|]. split; [auto|]. split; [exact H3|].
    intros p k -> Hk. apply H4. right. simpl. auto.
  - intros p -> Hlt. apply predictLoop_short; try lia. intros. apply PredictSingle_not_Diverge.
Qed.

Lemma c17_lemma E X o t o' : NewTreeSt E X o = Ok (t, o') ->
  NewTree E X o = Ok t /\
  to_indexes o' = Some (initialSamples X o) /\
  (to_xgb o', to_mcw o', to_allowed o', to_lambda o', to_gamma o', to_grads o', to_hess o', to_y o', to_maxdepth o') =
  (to_xgb o, to_mcw o, to_allowed o, to_lambda o, to_gamma o, to_grads o, to_hess o, to_y o, to_maxdepth o) /\
  forall X' t', NewTree E X' o' = Ok t' ->
    exists d l r, t' = Node d l r /\ t_samples d = Some (initialSamples X o).
Proof.
  unfold NewTreeSt. intros H. binv H. injection H as -> <-. repeat split; auto.
  intros X' t' H'. destruct (root_samples _ _ _ _ H') as (d & l & r & -> & HS & _). exists d, l, r. split; auto.
Qed.

Lemma c09_overflow_lemma a b : ffinite a = true -> ffinite b = true -> ffinite (fadd a b) = false ->
  let t := fdiv (fadd a b) (fofZ 2) in
  (t = finf \/ t = fninf) /\
  ((forall v, ffinite v = true -> fleb v t = true) \/ (forall v, ffinite v = true -> fleb v t = false)).
Proof.
  intros Fa Fb Fs. cbv zeta. pose proof (midpoint_overflow a b Fa Fb Fs) as H. unfold midpoint in H. split; [exact H|].
  destruct H as [->| ->]; [left|right]; intros v Hv; apply inf_separates_nothing; auto.
Qed.

Lemma c11_lemma E X o t d l r : NewTree E X o = Ok t -> t = Node d l r -> t_leaf d = false ->
  exists row0, look X 0 row0 /\ 0 <= t_split d < Z.of_nat (length row0) /\ (to_allowed o = [] \/ In (t_split d) (to_allowed o)).
Proof.
  intros H -> HL. apply NewTree_grown in H. destruct (grown_split_range _ _ _ _ _ _ _ H HL) as (row0 & A & B).
  exists row0. split; auto.
Qed.

(** ** Examples and witnesses *)
Definition bigF : f64 := flit (2 ^ 52) 971.
Definition tree0 : tree := match NewTree env0 exX exO with Ok t => t | _ => Nil end.
Lemma tree0_ok : NewTree env0 exX exO = Ok tree0.
Proof.
  assert (H : is_ok (NewTree env0 exX exO) = true) by (vm_compute; reflexivity).
  unfold tree0. destruct (NewTree env0 exX exO); [reflexivity|discriminate H|discriminate H].
Qed.
Lemma ex_root r : rootNotLeaf r = true -> exists t d l r', r = Ok t /\ sub (Node d l r') t /\ t_leaf d = false.
Proof. intros H. apply rootNotLeaf_ex in H as (d & l & r' & E & L). exists (Node d l r'), d, l, r'. split; [auto|]. split; [constructor|auto]. Qed.
Lemma ex_split_xgb : exists t d l r, NewTree env0 exX exO = Ok t /\ sub (Node d l r) t /\ t_leaf d = false.
Proof. apply ex_root. vm_compute. reflexivity. Qed.
Lemma ex_split_reg : exists t d l r, NewTree env0 exX exOg = Ok t /\ sub (Node d l r) t /\ t_leaf d = false.
Proof. apply ex_root. vm_compute. reflexivity. Qed.
Lemma ex_split_col : exists t d l r, NewTree env0 exX exOcol = Ok t /\ t = Node d l r /\ t_leaf d = false.
Proof.
  assert (H : rootNotLeaf (NewTree env0 exX exOcol) = true) by (vm_compute; reflexivity).
  apply rootNotLeaf_ex in H as (d & l & r' & E & L). exists (Node d l r'), d, l, r'. auto.
Qed.
Lemma ex_c02 : exists t row, NewTree env0 exX exO = Ok t /\ In 3 (initialSamples exX exO) /\ look exX 3 row.
Proof.
  exists tree0, (vec [1; 1]). split; [apply tree0_ok|]. split; [simpl; auto|]. split; [lia|reflexivity].
Qed.
Lemma ex_depth : exists t, NewTree env0 exX exO = Ok t /\ depth t = 2%nat.
Proof. exists tree0. split; [apply tree0_ok|vm_compute; reflexivity]. Qed.
Lemma ex_nodes : exists t, NewTree env0 exX exO = Ok t /\ nodes t = 7.
Proof. exists tree0. split; [apply tree0_ok|vm_compute; reflexivity]. Qed.
Definition levelB (t : tree) : bool :=
  match t with
  | Node _ (Node d (Node d' _ _) _) _ => negb (t_leaf d) && t_leaf d'
  | _ => false
  end.
Lemma ex_c07 : EnvOk env0 /\
  (exists t d l r, NewTree env0 exX exO = Ok t /\ subAt (Node d l r) 1 t /\ t_leaf d = false) /\
  (exists t d l r, NewTree env0 exX exO = Ok t /\ subAt (Node d l r) 2 t /\ t_leaf d = true /\ 2 < to_maxdepth exO).
Proof.
  split; [apply env0_ok|].
  assert (H : levelB tree0 = true) by (vm_compute; reflexivity). pose proof tree0_ok as H0.
  revert H H0. generalize (NewTree env0 exX exO) as R.
  destruct tree0 as [|d0 [|d [|d' l' r'] r] r0]; intros R H H0; try discriminate H. simpl in H.
  apply andb_true_iff in H as [H1 H2]. apply negb_true_iff in H1. split.
  - do 4 eexists. split; [exact H0|]. split; [apply subAt_l; constructor|auto].
  - do 4 eexists. split; [exact H0|]. split; [apply subAt_l, subAt_l; constructor|]. split; [auto|reflexivity].
Qed.
Lemma fin_cells X : forallb (forallb ffinite) X = true -> forall row v, In row X -> In v row -> ffinite v = true.
Proof. intros H row v Hr Hv. rewrite forallb_forall in H. specialize (H _ Hr). rewrite forallb_forall in H. auto. Qed.
Lemma look_In {A} (l : list A) j v : look l j v -> In v l.
Proof. intros [_ H]. eapply nth_error_In; eauto. Qed.
Lemma ex_c08 : exists t d l r, NewTree env0 exX exO = Ok t /\ sub (Node d l r) t /\ t_leaf d = false /\
  forall j v, In j (samplesOf d) -> cell exX j (t_split d) v -> ffinite v = true.
Proof.
  destruct ex_split_xgb as (t & d & l & r & H1 & H2 & H3). exists t, d, l, r. repeat (split; [assumption|]).
  intros j v _ (row & Hr & Hv). eapply (fin_cells exX); [vm_compute; reflexivity| |]; eapply look_In; eauto.
Qed.
Definition emptyRightB (r : res tree) : bool :=
  match r with
  | Ok (Node d _ (Node dr _ _)) => negb (t_leaf d) && match samplesOf dr with [] => t_nsamples dr =? 0 | _ => false end
  | _ => false
  end.
Lemma empty_right_child : exists X o t d l r dr rl rr,
  NewTree env0 X o = Ok t /\ sub (Node d l r) t /\ t_leaf d = false /\
  (forall row v, In row X -> In v row -> ffinite v = true) /\ ftoZ (to_mcw o) = 1 /\
  r = Node dr rl rr /\ samplesOf dr = [] /\ t_nsamples dr = 0.
Proof.
  assert (H : emptyRightB (NewTree env0 adjX (adjO 1)) = true) by (vm_compute; reflexivity).
  exists adjX, (adjO 1). destruct (NewTree env0 adjX (adjO 1)) as [[|d l [|dr rl rr]]| |]; try discriminate H.
  simpl in H. apply andb_true_iff in H as [H1 H2]. apply negb_true_iff in H1.
  destruct (samplesOf dr) eqn:Es; [|discriminate]. apply Z.eqb_eq in H2.
  do 7 eexists. split; [reflexivity|]. split; [constructor|]. split; [exact H1|].
  split; [apply fin_cells; vm_compute; reflexivity|]. split; [vm_compute; reflexivity|]. split; [reflexivity|]. auto.
Qed.
Lemma ex_c09 : fltb (fZ 1) (fZ 2) = true /\ ffinite (fadd (fZ 1) (fZ 2)) = true /\
  ffinite bigF = true /\ ffinite (fadd bigF bigF) = false.
Proof. vm_compute. auto. Qed.
Lemma tree_panics : exists X o,
  (forall row, In row X -> length row = 1%nat) /\ (forall row v, In row X -> In v row -> ffinite v = true) /\
  length X = 2%nat /\ to_indexes o = None /\ NewTree env0 X o = Panic.
Proof.
  exists adjX, (adjO 2). split; [intros row [<-|[<-|[]]]; reflexivity|].
  split; [apply fin_cells; vm_compute; reflexivity|]. split; [reflexivity|]. split; [reflexivity|].
  vm_compute. reflexivity.
Qed.
Definition goodMidB (X : list (list f64)) : bool :=
  forallb (fun r1 => forallb (fun r2 => forallb (fun p => let '(a, b) := p in
    implb (fltb a b) (fleb a (fdiv (fadd a b) (fofZ 2)) && fltb (fdiv (fadd a b) (fofZ 2)) b)) (combine r1 r2)) X) X.
Lemma goodMidB_ok X : goodMidB X = true -> goodMidpoints X.
Proof.
  intros H f i j a b (r1 & H1 & H1') (r2 & H2 & H2') L. unfold goodMidB in H. rewrite forallb_forall in H.
  specialize (H r1 (look_In _ _ _ H1)). rewrite forallb_forall in H. specialize (H r2 (look_In _ _ _ H2)).
  rewrite forallb_forall in H.
  assert (HI : In (a, b) (combine r1 r2)).
  { apply (nth_error_In _ (Z.to_nat f)). apply nth_combine. destruct H1', H2'. auto. }
  specialize (H _ HI). simpl in H. rewrite L in H. simpl in H. apply andb_true_iff in H. auto.
Qed.
Lemma ex_c10 :
  (forall i f v, cell exX i f v -> fnanb v = false) /\
  (forall f i j a b, cell exX i f a -> cell exX j f b -> fltb a b = true ->
     fleb a (fdiv (fadd a b) (fofZ 2)) = true /\ fltb (fdiv (fadd a b) (fofZ 2)) b = true) /\
  initialSamples exX exO <> [] /\ NoDup (initialSamples exX exO).
Proof.
  split; [|split; [|split]].
  - intros i f v (row & Hr & Hv). apply finite_nnan. eapply (fin_cells exX); [vm_compute; reflexivity| |]; eapply look_In; eauto.
  - apply goodMidB_ok. vm_compute. reflexivity.
  - discriminate.
  - simpl. repeat (constructor; [simpl; lia|]). constructor.
Qed.
Lemma child_not_allowed : exists X o t d l r,
  NewTree env0 X o = Ok t /\ sub (Node d l r) t /\ t_leaf d = false /\ to_allowed o <> [] /\ ~ In (t_split d) (to_allowed o).
Proof.
  assert (H : leftSplitB (NewTree env0 exX exOcol) = Some (false, 1)) by (vm_compute; reflexivity).
  exists exX, exOcol. destruct (NewTree env0 exX exOcol) as [[|d0 [|d l r] r0]| |]; try discriminate H.
  simpl in H. injection H as H1 H2. do 4 eexists. split; [reflexivity|]. split; [apply sub_l; constructor|].
  split; [exact H1|]. split; [discriminate|]. rewrite H2. simpl. lia.
Qed.
Lemma ex_c16 : exists t, NewTree env0 exX exO = Ok t /\ forall row, In row exX -> exists v, PredictSingle t row = Ok v.
Proof.
  exists tree0. split; [apply tree0_ok|]. destruct (c15_lemma _ _ _ _ tree0_ok) as (row0 & [_ H0] & HP).
  injection H0 as <-. intros row Hr. destruct (HP row) as [(d & _ & Hd) _]; eauto.
  destruct Hr as [<-|[<-|[<-|[<-|[]]]]]; simpl; lia.
Qed.
Lemma ex_c17 : exists t o', NewTreeSt env0 exX exO = Ok (t, o').
Proof. pose proof tree0_ok as H. unfold NewTreeSt. rewrite H. cbn [bind]. eauto. Qed.
