(** Proofs about tree construction and prediction (proof support). *)
From Coq Require Import Reals Lra.
From Verif Require Import Base F64 F64Lemmas Env EnvLemmas Utils Tree Spec UtilsProofs.
Open Scope Z_scope.

Definition b0 (xgb : bool) : best := MkB (startScore xgb) 0 fzero.

(** what a successful run of [grow] looks like *)
Inductive grown (E : Env) (X : list (list f64)) : nat -> TreeOptions -> tree -> Prop :=
| grown_leaf n o value row0 b :
    nodeValue E (prepare X o) (initialSamples X o) = Ok (value, startScore (to_xgb o)) ->
    idx X 0 = Ok row0 ->
    (n = O /\ b = b0 (to_xgb o) \/
     n <> O /\ foldM (findBetterSplit E X (prepare X o) (initialSamples X o)) (b0 (to_xgb o))
                 (scannedColumns (length row0) (to_allowed o)) = Ok b) ->
    leafScore (to_xgb o) (b_score b) = true ->
    grown E X n o
      (Node (MkT (Some (initialSamples X o)) (b_score b) value (Z.of_nat (length (initialSamples X o)))
               (b_split b) (b_thr b) (to_xgb o) 1) Nil Nil)
| grown_split n o value row0 b col l r :
    nodeValue E (prepare X o) (initialSamples X o) = Ok (value, startScore (to_xgb o)) ->
    idx X 0 = Ok row0 ->
    foldM (findBetterSplit E X (prepare X o) (initialSamples X o)) (b0 (to_xgb o))
                 (scannedColumns (length row0) (to_allowed o)) = Ok b ->
    leafScore (to_xgb o) (b_score b) = false ->
    column X (initialSamples X o) (b_split b) = Ok col ->
    grown E X n (childOpts (prepare X o) (filter (below X (b_split b) (b_thr b)) (initialSamples X o))) l ->
    grown E X n (childOpts (prepare X o) (filter (fun i => negb (below X (b_split b) (b_thr b) i)) (initialSamples X o))) r ->
    grown E X (S n) o
      (Node (MkT (Some (initialSamples X o)) (b_score b) value (Z.of_nat (length (initialSamples X o)))
               (b_split b) (b_thr b) (to_xgb o) (1 + branchesOf l + branchesOf r)) l r).

Lemma cell_below X f thr i v : cell X i f v -> below X f thr i = fleb v thr.
Proof. intros (row & [_ H1] & [_ H2]). unfold below. rewrite H1, H2. reflexivity. Qed.

Lemma splitSamples_filter X f thr ix col : Forall2 (fun j v => cell X j f v) ix col ->
  splitSamples ix col thr =
  (filter (below X f thr) ix, filter (fun i => negb (below X f thr i)) ix).
Proof.
  intros H. unfold splitSamples. f_equal.
  - induction H as [|j v ix col Hc HF IH]; simpl; auto. rewrite (cell_below _ _ _ _ _ Hc).
    destruct (fleb v thr); simpl; congruence.
  - induction H as [|j v ix col Hc HF IH]; simpl; auto. rewrite (cell_below _ _ _ _ _ Hc).
    destruct (fleb v thr); simpl; congruence.
Qed.

Lemma nodeValue_score E o ix v s : nodeValue E o ix = Ok (v, s) -> s = startScore (to_xgb o).
Proof.
  unfold nodeValue, startScore. destruct (to_xgb o); intros H.
  - binv H. binv H. congruence.
  - binv H. congruence.
Qed.

#[local] Arguments splitSamples : simpl never.
#[local] Arguments column : simpl never.
Lemma grow_grown E X n o t : grow E X n o = Ok t -> grown E X n o t.
Proof.
  revert o t; induction n as [|n IH]; intros o t H; cbn [grow] in H;
    destruct (to_xgb o && isNone (to_grads o) && isNone (to_hess o)) eqn:EN; try discriminate.
  - binv H. destruct v as [value s0]. binv H. injection H as <-.
    change (orNil (to_indexes (prepare X o))) with (initialSamples X o) in *.
    pose proof (nodeValue_score _ _ _ _ _ Hb) as ->. cbn [prepare to_xgb] in *.
    apply (grown_leaf E X O o value v (b0 (to_xgb o))); auto.
    destruct (to_xgb o); reflexivity.
  - binv H. destruct v as [value s0]. binv H. binv H. change (orNil (to_indexes (prepare X o))) with (initialSamples X o) in *.
    pose proof (nodeValue_score _ _ _ _ _ Hb) as ->. cbn [prepare to_xgb to_allowed] in *.
    destruct (leafScore (to_xgb o) (b_score v0)) eqn:EL.
    + injection H as <-. eapply grown_leaf; eauto.
    + binv H. rename v1 into col. destruct (column_Ok _ _ _ _ Hb2) as [_ HC].
            rewrite (splitSamples_filter _ _ _ _ _ HC) in H. binv H. binv H. injection H as <-.
      eapply grown_split; eauto.
Qed.

Lemma NewTree_grown E X o t : NewTree E X o = Ok t -> grown E X (Z.to_nat (to_maxdepth o)) o t.
Proof. apply grow_grown. Qed.

(** ** Fixed fields of the options *)
Definition core (o : TreeOptions) :=
  (to_xgb o, to_mcw o, to_lambda o, to_gamma o, to_grads o, to_hess o, to_y o).
Lemma core_child X o ix : core (childOpts (prepare X o) ix) = core o.
Proof. reflexivity. Qed.

Lemma grown_node E X n o t : grown E X n o t -> exists d l r, t = Node d l r.
Proof. intros H; inversion H; eauto. Qed.

(** every node of a grown tree was grown *)
Lemma grown_sub E X n o t s : grown E X n o t -> sub s t -> s <> Nil ->
  exists n' o', grown E X n' o' s /\ core o' = core o /\ (n' <= n)%nat /\
    (s = t /\ o' = o /\ n' = n \/ to_allowed o' = [] /\ (n' < n)%nat) /\
    incl (initialSamples X o') (initialSamples X o) /\
    to_in (prepare X o') = to_in (prepare X o) /\ to_val (prepare X o') = to_val (prepare X o).
Proof.
  intros HG; revert s; induction HG as [n o value row0 b HV HX HB HL|n o value row0 b col l r HV HX HF HL HC Hl IHl Hr IHr];
    intros s HS Hn.
  - inversion HS as [|d' l' r' HS'|d' l' r' HS']; subst.
    + eexists _, _; split; [eapply grown_leaf; eauto|]. repeat split; auto using incl_refl.
    + inversion HS'; subst; congruence.
    + inversion HS'; subst; congruence.
  - inversion HS as [|d' l' r' HS'|d' l' r' HS']; subst.
    + eexists _, _; split; [eapply grown_split; eauto|]. repeat split; auto using incl_refl.
    + destruct (IHl s HS' Hn) as (n' & o' & G & C & Le & Al & In & B1 & B2).
      exists n', o'. split; [auto|]. split; [rewrite C; reflexivity|]. split; [lia|]. split.
      { right. destruct Al as [(-> & -> & ->)|[A A']]; [split; [reflexivity|lia]|split; [auto|lia]]. }
      split; [|split; auto]. intros z Hz. apply In in Hz. simpl in Hz. apply filter_In in Hz; tauto.
    + destruct (IHr s HS' Hn) as (n' & o' & G & C & Le & Al & In & B1 & B2).
      exists n', o'. split; [auto|]. split; [rewrite C; reflexivity|]. split; [lia|]. split.
      { right. destruct Al as [(-> & -> & ->)|[A A']]; [split; [reflexivity|lia]|split; [auto|lia]]. }
      split; [|split; auto]. intros z Hz. apply In in Hz. simpl in Hz. apply filter_In in Hz; tauto.
Qed.

(** ** C05 *)
Lemma grown_leaf_iff E X n o d l r : grown E X n o (Node d l r) ->
  (t_leaf d = true -> l = Nil /\ r = Nil) /\ (t_leaf d = false -> l <> Nil /\ r <> Nil).
Proof.
  intros H; inversion H as [n1 o1 value row0 b HV HX HB HL1|n1 o1 value row0 b col l1 r1 HV HX HF HL1 HC Hl Hr]; subst; unfold t_leaf; simpl; split; intros; try congruence; auto.
  split.
  - destruct (grown_node _ _ _ _ _ Hl) as (? & ? & ? & ->). discriminate.
  - destruct (grown_node _ _ _ _ _ Hr) as (? & ? & ? & ->). discriminate.
Qed.

Lemma leaf_children E X o t d l r : NewTree E X o = Ok t -> sub (Node d l r) t ->
  (t_leaf d = true <-> l = Nil /\ r = Nil) /\ (t_leaf d = false <-> l <> Nil /\ r <> Nil).
Proof.
  intros H HS. apply NewTree_grown in H.
  destruct (grown_sub _ _ _ _ _ _ H HS) as (n' & o' & G & _); [discriminate|].
  destruct (grown_leaf_iff _ _ _ _ _ _ _ G) as [A B].
  destruct (t_leaf d); split; split; intros; try discriminate; auto.
  - destruct A; auto. destruct H0; congruence.
  - destruct B; auto. destruct H0; congruence.
Qed.

(** ** C01 *)
Lemma split_partition E X o t d l r : NewTree E X o = Ok t -> sub (Node d l r) t -> t_leaf d = false ->
  exists ix dl ll lr dr rl rr,
    t_samples d = Some ix /\ l = Node dl ll lr /\ r = Node dr rl rr /\
    (forall i, In i ix -> exists v, cell X i (t_split d) v) /\
    t_samples dl = Some (filter (below X (t_split d) (t_thr d)) ix) /\
    t_samples dr = Some (filter (fun i => negb (below X (t_split d) (t_thr d) i)) ix) /\
    Permutation ix (samplesOf dl ++ samplesOf dr).
Proof.
  intros H HS HL. apply NewTree_grown in H.
  destruct (grown_sub _ _ _ _ _ _ H HS) as (n' & o' & G & _); [discriminate|].
  inversion G as [n1 o1 value row0 b HV HX HB HL1|n1 o1 value row0 b col l1 r1 HV HX HF HL1 HC Hl Hr]; subst; unfold t_leaf in HL; simpl in HL; [congruence|].
  destruct (grown_node _ _ _ _ _ Hl) as (dl & ll & lr & ->).
  destruct (grown_node _ _ _ _ _ Hr) as (dr & rl & rr & ->).
  exists (initialSamples X o'), dl, ll, lr, dr, rl, rr. simpl.
  assert (Sl : t_samples dl = Some (filter (below X (b_split b) (b_thr b)) (initialSamples X o'))).
  { inversion Hl; reflexivity. }
  assert (Sr : t_samples dr = Some (filter (fun i => negb (below X (b_split b) (b_thr b) i)) (initialSamples X o'))).
  { inversion Hr; reflexivity. }
  repeat split; auto.
  - intros i Hi. destruct (column_Ok _ _ _ _ HC) as [_ HC'].
    apply In_nth_error in Hi as [k Hk]. destruct (Forall2_nth1 _ _ _ HC' _ _ Hk) as (v & _ & Hv). eauto.
  - unfold samplesOf. rewrite Sl, Sr. generalize (initialSamples X o') as ix. intros ix.
    induction ix as [|z ix IH]; simpl; auto.
    destruct (below X (b_split b) (b_thr b) z); simpl.
    + constructor; auto.
    + apply Permutation_cons_app; auto.
Qed.

Lemma root_samples E X o t : NewTree E X o = Ok t ->
  exists d l r, t = Node d l r /\ t_samples d = Some (initialSamples X o) /\
  t_nsamples d = Z.of_nat (length (initialSamples X o)).
Proof. intros H. apply NewTree_grown in H. inversion H; subst; eexists _, _, _; repeat split; reflexivity. Qed.

(** ** C03, C04 *)
Lemma grown_depth E X n o t : grown E X n o t -> (depth t <= n)%nat.
Proof.
  induction 1 as [n o value row0 b HV HX HB HL|n o value row0 b col l r HV HX HF HL HC Hl IHl Hr IHr].
  - simpl. lia.
  - destruct (grown_node _ _ _ _ _ Hl) as (? & ? & ? & ->). destruct (grown_node _ _ _ _ _ Hr) as (? & ? & ? & ->).
    simpl depth in *. lia.
Qed.
Lemma grown_branches E X n o t : grown E X n o t -> branchesOf t = nodes t.
Proof.
  induction 1 as [n o value row0 b HV HX HB HL|n o value row0 b col l r HV HX HF HL HC Hl IHl Hr IHr]; [reflexivity|].
  cbn [branchesOf nodes t_branches]. lia.
Qed.
Lemma grown_odd E X n o t : grown E X n o t -> Z.odd (nodes t) = true.
Proof.
  induction 1 as [n o value row0 b HV HX HB HL|n o value row0 b col l r HV HX HF HL HC Hl IHl Hr IHr]; [reflexivity|].
  cbn [nodes]. rewrite !Z.odd_add, IHl, IHr. reflexivity.
Qed.
Lemma grown_nodes_le E X n o t : grown E X n o t -> 1 <= nodes t <= 2 ^ (Z.of_nat n + 1) - 1.
Proof.
  induction 1 as [n o value row0 b HV HX HB HL|n o value row0 b col l r HV HX HF HL HC Hl IHl Hr IHr].
  - simpl nodes. assert (2 ^ 1 <= 2 ^ (Z.of_nat n + 1)) by (apply Z.pow_le_mono_r; lia). lia.
  - cbn [nodes]. replace (Z.of_nat (S n) + 1) with (Z.succ (Z.of_nat n + 1)) by lia.
    rewrite Z.pow_succ_r by lia. lia.
Qed.
Lemma node_branches E X o t d l r : NewTree E X o = Ok t -> sub (Node d l r) t ->
  t_branches d = nodes (Node d l r).
Proof.
  intros H HS. apply NewTree_grown in H.
  destruct (grown_sub _ _ _ _ _ _ H HS) as (n' & o' & G & _); [discriminate|].
  apply (grown_branches _ _ _ _ _ G).
Qed.

(** ** C06 *)
Lemma node_value E X o t d l r : NewTree E X o = Ok t -> sub (Node d l r) t ->
  exists ix, t_samples d = Some ix /\ t_nsamples d = Z.of_nat (length ix) /\ t_xgb d = to_xgb o /\
  if to_xgb o then
    exists g h, Forall2 (look (orNil (to_grads o))) ix g /\ Forall2 (look (orNil (to_hess o))) ix h /\
      t_value d = fdiv (fmul (fofZ (-1)) (e_sum E g)) (fadd (e_sum E h) (to_lambda o))
  else
    exists y, Forall2 (look (to_y o)) ix y /\ t_value d = fdiv (e_sum E y) (fofZ (Z.of_nat (length ix))).
Proof.
  intros H HS. apply NewTree_grown in H.
  destruct (grown_sub _ _ _ _ _ _ H HS) as (n' & o' & G & C & _); [discriminate|].
  unfold core in C. injection C as C1 C2 C3 C4 C5 C6 C7.
  assert (HV : nodeValue E (prepare X o') (initialSamples X o') = Ok (t_value d, startScore (to_xgb o')) /\
    t_samples d = Some (initialSamples X o') /\ t_xgb d = to_xgb o' /\
    t_nsamples d = Z.of_nat (length (initialSamples X o'))) by (inversion G; subst; simpl; auto).
  destruct HV as (HV & HS' & HX & HN). exists (initialSamples X o'). rewrite <- C1. repeat split; auto.
  unfold nodeValue in HV. cbn [prepare to_xgb to_grads to_hess to_y to_lambda] in HV.
  rewrite C3, C5, C6, C7 in HV. destruct (to_xgb o').
  - binv HV. binv HV. injection HV as <-. apply SampleSlice_Ok in Hb as [_ Hb]. apply SampleSlice_Ok in Hb0 as [_ Hb0].
    exists v, v0. auto.
  - binv HV. injection HV as HV. apply SampleSlice_Ok in Hb as [_ Hb]. exists v. split; auto.
    rewrite <- HV. unfold meanValue; simpl. rewrite (Forall2_len _ _ _ Hb). reflexivity.
Qed.

(** ** C02 *)
Lemma leaves_split d dl ll lr dr rl rr :
  leaves (Node d (Node dl ll lr) (Node dr rl rr)) = leaves (Node dl ll lr) ++ leaves (Node dr rl rr).
Proof. reflexivity. Qed.

Lemma filter_split_perm {A} (f : A -> bool) l : Permutation l (filter f l ++ filter (fun x => negb (f x)) l).
Proof.
  induction l as [|z l IH]; simpl; auto. destruct (f z); simpl.
  - constructor; auto.
  - apply Permutation_cons_app; auto.
Qed.

Lemma grown_leaves_perm E X n o t : grown E X n o t ->
  Permutation (initialSamples X o) (concat (map samplesOf (leaves t))).
Proof.
  induction 1 as [n o value row0 b HV HX HB HL|n o value row0 b col l r HV HX HF HL HC Hl IHl Hr IHr].
  - simpl. unfold samplesOf; simpl. rewrite app_nil_r. auto.
  - destruct (grown_node _ _ _ _ _ Hl) as (? & ? & ? & ->). destruct (grown_node _ _ _ _ _ Hr) as (? & ? & ? & ->).
    rewrite leaves_split, map_app, concat_app. rewrite <- IHl, <- IHr. simpl initialSamples.
    apply filter_split_perm.
Qed.

Lemma leaf_sample_in E X n o t k d i : grown E X n o t -> nth_error (leaves t) k = Some d -> In i (samplesOf d) ->
  In i (initialSamples X o).
Proof.
  intros H Hk Hi. eapply Permutation_in; [apply Permutation_sym, (grown_leaves_perm _ _ _ _ _ H)|].
  apply in_concat. exists (samplesOf d). split; auto. apply in_map. eapply nth_error_In; eauto.
Qed.

Lemma grown_predict E X n o t : grown E X n o t -> forall i row, In i (initialSamples X o) -> look X i row ->
  exists k d, nth_error (leaves t) k = Some d /\ In i (samplesOf d) /\ PredictSingle t row = Ok (t_value d) /\
    forall k' d', nth_error (leaves t) k' = Some d' -> In i (samplesOf d') -> k' = k.
Proof.
  induction 1 as [n o value row0 b HV HX HB HL|n o value row0 b col l r HV HX HF HL HC Hl IHl Hr IHr];
    intros i row Hi Hrow.
  - exists O. eexists. split; [reflexivity|]. simpl. unfold t_leaf, samplesOf; simpl. rewrite HL.
    repeat split; auto. intros [|k'] d' Hk; auto. destruct k'; discriminate.
  - destruct (column_Ok _ _ _ _ HC) as [_ HC'].
    assert (Hc : exists v, cell X i (b_split b) v).
    { apply In_nth_error in Hi as [k Hk]. destruct (Forall2_nth1 _ _ _ HC' _ _ Hk) as (v & _ & Hv). eauto. }
    destruct Hc as (v & row' & Hrow' & Hv). assert (row' = row) by (eapply look_fun; eauto). subst row'.
    assert (Hbl : below X (b_split b) (b_thr b) i = fleb v (b_thr b)).
    { apply cell_below. exists row; auto. }
    pose proof (grown_node _ _ _ _ _ Hl) as (dl & ll & lr & El).
    pose proof (grown_node _ _ _ _ _ Hr) as (dr & rl & rr & Er).
    assert (HP : PredictSingle (Node (MkT (Some (initialSamples X o)) (b_score b) value (Z.of_nat (length (initialSamples X o)))
               (b_split b) (b_thr b) (to_xgb o) (1 + branchesOf l + branchesOf r)) l r) row =
       if fleb v (b_thr b) then PredictSingle l row else PredictSingle r row).
    { cbn [PredictSingle t_split t_thr]. unfold t_leaf. cbn [t_xgb t_best]. rewrite HL.
      apply look_idx in Hv. rewrite Hv. reflexivity. }
    rewrite HP. rewrite El, Er in *. rewrite leaves_split. rewrite <- El, <- Er in *. clear El Er HP.
    destruct (fleb v (b_thr b)) eqn:EV.
    + destruct (IHl i row) as (k & d & Hk & Hin & HP & HU); auto.
      { simpl. apply filter_In. auto. }
      assert (Hk2 : (k < length (leaves l))%nat) by (apply nth_error_Some; congruence).
      exists k, d. rewrite nth_error_app1 by auto. repeat split; auto.
      intros k' d' Hk' Hin'. destruct (Nat.lt_ge_cases k' (length (leaves l))) as [Hlt|Hge].
      * rewrite nth_error_app1 in Hk' by auto. eauto.
      * rewrite nth_error_app2 in Hk' by auto.
        pose proof (leaf_sample_in _ _ _ _ _ _ _ _ Hr Hk' Hin') as HH. simpl in HH. apply filter_In in HH as [_ HH].
        rewrite Hbl in HH. discriminate.
    + destruct (IHr i row) as (k & d & Hk & Hin & HP & HU); auto.
      { simpl. apply filter_In. rewrite Hbl. auto. }
      exists (length (leaves l) + k)%nat, d. rewrite nth_error_app2 by lia.
      replace (length (leaves l) + k - length (leaves l))%nat with k by lia. repeat split; auto.
      intros k' d' Hk' Hin'. destruct (Nat.lt_ge_cases k' (length (leaves l))) as [Hlt|Hge].
      * rewrite nth_error_app1 in Hk' by auto.
        pose proof (leaf_sample_in _ _ _ _ _ _ _ _ Hl Hk' Hin') as HH. simpl in HH. apply filter_In in HH as [_ HH].
        rewrite Hbl in HH. discriminate.
      * rewrite nth_error_app2 in Hk' by auto. specialize (HU _ _ Hk' Hin'). lia.
Qed.

(** ** Split features come from the scanned columns *)
Lemma scan_split {P S} step score better mcw f (l : list (f64 * P)) (s : S) nl nr b :
  scan step score better mcw f l s nl nr b = b \/ b_split (scan step score better mcw f l s nl nr b) = f.
Proof.
  revert s nl nr b; induction l as [|[x p] t IH]; intros s nl nr b; simpl; auto.
  destruct t as [|[x' p'] t']; auto.
  destruct ((nl + 1 <? mcw) || feqb x x'); [apply IH|].
  destruct (nr - 1 <? mcw); auto.
  destruct (better _ _); [|apply IH].
  match goal with |- scan ?a ?b' ?c ?d ?e ?f' ?g ?h ?i ?B = _ \/ _ => destruct (IH g h i B) as [->|HH]; auto end.
Qed.

Lemma findBetterSplit_split E X o ix b f b' : findBetterSplit E X o ix b f = Ok b' ->
  b' = b \/ b_split b' = f.
Proof.
  unfold findBetterSplit. intros H. binv H. binv H. binv H. binv H. destruct v2 as [si sx].
  destruct (to_xgb o).
  - binv H. binv H. binv H. binv H. injection H as <-. apply scan_split.
  - binv H. binv H. injection H as <-. apply scan_split.
Qed.

Lemma foldM_split E X o ix fs b b' : foldM (findBetterSplit E X o ix) b fs = Ok b' ->
  b' = b \/ In (b_split b') fs.
Proof.
  revert b; induction fs as [|f fs IH]; intros b H; simpl in H.
  - injection H as <-; auto.
  - binv H. apply findBetterSplit_split in Hb. apply IH in H. destruct H as [->|H]; [|right; right; auto].
    destruct Hb as [->|<-]; auto. right; left; auto.
Qed.

Lemma leafScore_b0 xgb : leafScore xgb (b_score (b0 xgb)) = true.
Proof. destruct xgb; reflexivity. Qed.

Lemma contains_In l v : contains l v = true <-> In v l.
Proof.
  unfold contains. rewrite existsb_exists. split.
  - intros (x & H & E). apply Z.eqb_eq in E. subst; auto.
  - intros H. exists v. split; auto. apply Z.eqb_refl.
Qed.

Lemma scannedColumns_In n al f : In f (scannedColumns n al) <->
  0 <= f < Z.of_nat n /\ (al = [] \/ In f al).
Proof.
  unfold scannedColumns. rewrite filter_In, iota_In, orb_true_iff, contains_In, Nat.eqb_eq.
  destruct al; simpl; intuition (auto; discriminate).
Qed.

Lemma grown_split_range E X n o d l r : grown E X n o (Node d l r) -> t_leaf d = false ->
  exists row0, look X 0 row0 /\ allowedColumn o (length row0) (t_split d).
Proof.
  intros H HL; inversion H as [n1 o1 value row0 b HV HX HB HL1|n1 o1 value row0 b col l1 r1 HV HX HF HL1 HC Hl Hr];
    subst; unfold t_leaf in HL; simpl in HL; [congruence|].
  exists row0. split; [apply look_idx; auto|]. simpl.
  apply foldM_split in HF as [->|HF]; [rewrite leafScore_b0 in HL1; discriminate|].
  apply scannedColumns_In in HF. auto.
Qed.

(** ** C15 *)
Lemma grown_predict_total E X n o t : grown E X n o t -> forall row0 row, look X 0 row0 -> (length row0 <= length row)%nat ->
  exists d, In d (leaves t) /\ PredictSingle t row = Ok (t_value d).
Proof.
  intros H; induction H as [n o value row0 b HV HX HB HL|n o value row0 b col l r HV HX HF HL HC Hl IHl Hr IHr];
    intros row0' row Hr0 Hlen.
  - eexists. split; [left; reflexivity|]. cbn [PredictSingle]. unfold t_leaf; simpl. rewrite HL. auto.
  - apply look_idx in HX. assert (row0' = row0) by (eapply look_fun; eauto). subst row0'.
    apply foldM_split in HF as [->|HF]; [rewrite leafScore_b0 in HL; discriminate|].
    apply scannedColumns_In in HF as [HF _].
    destruct (look_ex row (b_split b)) as [v Hv]; [lia|].
    pose proof (grown_node _ _ _ _ _ Hl) as (dl & ll & lr & El).
    pose proof (grown_node _ _ _ _ _ Hr) as (dr & rl & rr & Er).
    apply look_idx in Hv.
    destruct (IHl row0 row) as (d1 & Hd1 & HP1); auto. destruct (IHr row0 row) as (d2 & Hd2 & HP2); auto.
    cbn [PredictSingle t_split t_thr]. unfold t_leaf. cbn [t_xgb t_best]. rewrite HL, Hv. cbn [bind].
    rewrite El, Er in *. rewrite leaves_split.
    destruct (fleb v (b_thr b)); [exists d1|exists d2]; (split; [apply in_or_app|]); auto.
Qed.

Lemma predict_comparisons t row row' :
  (forall d l r, sub (Node d l r) t -> t_leaf d = false ->
     exists v v', idx row (t_split d) = Ok v /\ idx row' (t_split d) = Ok v' /\
       fleb v (t_thr d) = fleb v' (t_thr d)) ->
  PredictSingle t row = PredictSingle t row'.
Proof.
  induction t as [|d l IHl r IHr]; intros H; simpl; auto.
  destruct (t_leaf d) eqn:EL; auto.
  destruct (H d l r) as (v & v' & E1 & E2 & E3); [constructor|auto|].
  rewrite E1, E2. simpl. rewrite E3. destruct (fleb v' (t_thr d)).
  - apply IHl. intros d' l' r' HS. apply (H d' l' r'). constructor; auto.
  - apply IHr. intros d' l' r' HS. apply (H d' l' r'). apply sub_r; auto.
Qed.

(** ** C16 *)
Lemma predictLoop_spec t data i preds : 0 <= i ->
  (forall row, In row data -> exists v, PredictSingle t row = Ok v) ->
  i + Z.of_nat (length data) <= Z.of_nat (length preds) ->
  exists out, predictLoop t data i preds = Ok out /\ length out = length preds /\
    (forall k row, nth_error data k = Some row ->
       exists v, PredictSingle t row = Ok v /\ nth_error out (Z.to_nat i + k) = Some v) /\
    (forall k, (k < Z.to_nat i)%nat \/ (Z.to_nat i + length data <= k)%nat -> nth_error out k = nth_error preds k).
Proof.
  revert i preds; induction data as [|row rest IH]; intros i preds Hi HP HL.
  - exists preds. simpl. repeat split; auto. intros [|k] row; discriminate.
  - simpl predictLoop. destruct (HP row) as [v Hv]; [left; auto|]. rewrite Hv. cbn [bind].
    assert (Hu : upd preds i v = Ok (upd_nat preds (Z.to_nat i) v)) by (apply upd_Ok; split; auto; simpl length in HL; lia).
    rewrite Hu. cbn [bind]. simpl length in HL.
    destruct (IH (i + 1) (upd_nat preds (Z.to_nat i) v)) as (out & H1 & H2 & H3 & H4).
    + lia.
    + intros; apply HP; right; auto.
    + rewrite upd_nat_length. lia.
    + rewrite upd_nat_length in H2. exists out. split; [auto|]. split; [auto|]. split.
      * intros [|k] row' Hk; simpl in Hk.
        -- injection Hk as <-. exists v. split; auto. rewrite H4 by (left; lia).
           rewrite upd_nat_nth. rewrite Nat.add_0_r, Nat.eqb_refl.
           destruct (Nat.ltb_spec (Z.to_nat i) (length preds)); auto. lia.
        -- destruct (H3 _ _ Hk) as (v' & Hv' & Hn). exists v'. split; auto.
           replace (Z.to_nat i + S k)%nat with (Z.to_nat (i + 1) + k)%nat by lia. auto.
      * intros k Hk. simpl length in Hk. rewrite H4 by lia. rewrite upd_nat_nth.
        destruct (Nat.eqb_spec k (Z.to_nat i)); auto. lia.
Qed.

Lemma predictLoop_short t data i preds : 0 <= i <= Z.of_nat (length preds) ->
  (forall row, In row data -> PredictSingle t row <> Diverge) ->
  i + Z.of_nat (length data) > Z.of_nat (length preds) ->
  predictLoop t data i preds = Panic.
Proof.
  revert i preds; induction data as [|row rest IH]; intros i preds Hi HP HL.
  - simpl in HL. lia.
  - simpl predictLoop. destruct (PredictSingle t row) as [v| |] eqn:Ev; cbn [bind]; auto.
    + destruct (upd preds i v) as [p'| |] eqn:Eu; cbn [bind]; auto.
      * apply upd_Ok in Eu as [Hi' ->]. simpl length in HL. apply IH.
        -- rewrite upd_nat_length. lia.
        -- intros; apply HP; right; auto.
        -- rewrite upd_nat_length. lia.
      * unfold upd in Eu. destruct (_ || _); discriminate.
    + exfalso. eapply HP; [left; reflexivity|exact Ev].
Qed.

Lemma PredictSingle_not_Diverge t row : PredictSingle t row <> Diverge.
Proof.
  induction t as [|d l IHl r IHr]; simpl; [congruence|].
  destruct (t_leaf d); [congruence|]. destruct (idx row (t_split d)) eqn:Ei; simpl; try congruence.
  - destruct (fleb _ _); auto.
  - exfalso; eapply idx_not_Diverge; eauto.
Qed.
