(** Proofs about tables with missing values (proof support). *)
From Coq Require Import Reals Lra.
From Flocq Require Import IEEE754.BinarySingleNaN.
From Verif Require Import Base F64 F64Lemmas Env EnvLemmas Utils Tree Spec UtilsProofs TreeProofs TreeThms ErrProofs Examples.
Open Scope Z_scope.

Lemma scan_nothing E X o b (row0 : list f64) b' : row0 <> [] ->
  foldM (findBetterSplit E X o []) b (scannedColumns (length row0) []) = Ok b' -> False.
Proof.
  intros Hr H. unfold scannedColumns in H. destruct row0 as [|x row0]; [congruence|]. cbn [length] in H.
  unfold iota in H. cbn [seq map filter Nat.eqb orb length] in H. cbn [foldM bind] in H. discriminate H.
Qed.
Lemma grown_samplesOf E X n o d l r : grown E X n o (Node d l r) -> samplesOf d = initialSamples X o.
Proof. intros H; inversion H; reflexivity. Qed.
Lemma empty_bottom E X o t d l r k : NewTree E X o = Ok t -> (forall row0, look X 0 row0 -> row0 <> []) ->
  subAt (Node d l r) (S k) t -> samplesOf d = [] -> Z.of_nat (S k) = to_maxdepth o /\ l = Nil /\ r = Nil.
Proof.
  intros HT Hr HS Hd. pose proof (NewTree_grown _ _ _ _ HT) as HG.
  destruct (grown_subAt _ _ _ _ _ _ _ HG HS) as (o' & G & Hk & HC & _ & HA); [discriminate|].
  specialize (HA ltac:(discriminate)).
  assert (Hs : initialSamples X o' = []) by (rewrite <- (grown_samplesOf _ _ _ _ _ _ _ G); exact Hd).
  assert (look0 : forall row0, idx X 0 = Ok row0 -> row0 <> []).
  { intros row0 H. apply Hr. apply look_idx. exact H. }
  inversion G as [n1 o1 value row0 b HV HX HB HL1|n1 o1 value row0 b col l1 r1 HV HX HF HL1 HCc Hl Hrr]; subst.
  - destruct HB as [[H0 _]|[_ HB]].
    + split; [lia|auto].
    + exfalso. rewrite Hs, HA in HB. eapply scan_nothing; [apply (look0 _ HX)|exact HB].
  - exfalso. rewrite Hs, HA in HF. eapply scan_nothing; [apply (look0 _ HX)|exact HF].
Qed.
Lemma sum_nil_is E : EnvOk E -> exists b, e_sum E [] = B754_zero b.
Proof.
  intros HE. destruct (sum_nil_zero _ (ok_sum _ HE [])) as [H1 H2]. destruct (e_sum E []) as [b| | |b m e p]; try discriminate H2; [eauto|].
  exfalso. cbn [B2R] in H1. apply Float_prop.eq_0_F2R in H1. destruct b; discriminate H1.
Qed.
Lemma empty_value E X o t d l r k : EnvOk E -> NewTree E X o = Ok t -> subAt (Node d l r) k t -> samplesOf d = [] ->
  (t_nsamples d = 0)%Z /\ (to_xgb o = false -> fnanb (t_value d) = true) /\
  (to_xgb o = true -> fltb fzero (to_lambda o) = true -> feqb (t_value d) fzero = true).
Proof.
  intros HE HT HS Hd. assert (HS' : sub (Node d l r) t) by (apply sub_subAt; eauto).
  destruct (node_value E X o t d l r HT HS') as (ix & Hi & Hn & _ & H).
  unfold samplesOf in Hd. rewrite Hi in Hd. subst ix. split; [exact Hn|]. destruct (sum_nil_is E HE) as [b Hb].
  split; intros Hx; rewrite Hx in H.
  - destruct H as (y & Hy & ->). inversion Hy; subst. rewrite Hb. destruct b; vm_compute; reflexivity.
  - intros Hl. destruct H as (g & h & Hg & Hh & ->). inversion Hg; subst. inversion Hh; subst. rewrite Hb.
    destruct (to_lambda o) as [c|c| |c m e p]; try discriminate Hl; destruct c; try discriminate Hl; destruct b; reflexivity.
Qed.
Lemma nan_below X f thr i : fnanb thr = true -> below X f thr i = false.
Proof.
  intros H. unfold below. destruct (nth_error X (Z.to_nat i)) as [row|]; [|reflexivity].
  destruct (nth_error row (Z.to_nat f)) as [v|]; [|reflexivity].
  destruct (fleb v thr) eqn:Hf; [|reflexivity]. apply fleb_true in Hf. destruct Hf as (_ & Hf & _). congruence.
Qed.
Lemma nan_threshold E X o t d l r k : EnvOk E -> NewTree E X o = Ok t -> (forall row0, look X 0 row0 -> row0 <> []) ->
  subAt (Node d l r) k t -> t_leaf d = false -> fnanb (t_thr d) = true ->
  Z.of_nat (S k) = to_maxdepth o /\
  exists dl dr, l = Node dl Nil Nil /\ r = Node dr Nil Nil /\ samplesOf dl = [] /\ samplesOf dr = samplesOf d.
Proof.
  intros HE HT Hr HS HL HN. assert (HS' : sub (Node d l r) t) by (apply sub_subAt; eauto).
  destruct (split_partition E X o t d l r HT HS' HL) as (ix & dl & ll & lr & dr & rl & rr & Hi & -> & -> & _ & Hsl & Hsr & _).
  assert (Hdl : samplesOf dl = []).
  { unfold samplesOf. rewrite Hsl. clear -HN. induction ix as [|i ix IH]; [reflexivity|]. cbn [filter]. rewrite (nan_below _ _ _ _ HN). exact IH. }
  assert (Hdr : samplesOf dr = ix).
  { unfold samplesOf. rewrite Hsr. clear -HN. induction ix as [|i ix IH]; [reflexivity|]. cbn [filter]. rewrite (nan_below _ _ _ _ HN). cbn [negb]. rewrite IH. reflexivity. }
  assert (Hleft : subAt (Node dl ll lr) (S k) t).
  { clear -HS. remember (Node d (Node dl ll lr) (Node dr rl rr)) as s. revert Heqs. induction HS; intros Heqs; subst.
    - apply subAt_l, subAt_0.
    - apply subAt_l. apply IHHS. reflexivity.
    - apply subAt_r. apply IHHS. reflexivity. }
  assert (Hright : subAt (Node dr rl rr) (S k) t).
  { clear -HS. remember (Node d (Node dl ll lr) (Node dr rl rr)) as s. revert Heqs. induction HS; intros Heqs; subst.
    - apply subAt_r, subAt_0.
    - apply subAt_l. apply IHHS. reflexivity.
    - apply subAt_r. apply IHHS. reflexivity. }
  destruct (empty_bottom _ _ _ _ _ _ _ _ HT Hr Hleft Hdl) as (Hk & -> & ->). split; [exact Hk|].
  exists dl, dr. split; [reflexivity|]. split.
  { pose proof (NewTree_grown _ _ _ _ HT) as HG. destruct (grown_subAt _ _ _ _ _ _ _ HG Hright) as (o' & G & _); [discriminate|].
    replace (Z.to_nat (to_maxdepth o) - S k)%nat with O in G by lia. inversion G; reflexivity. }
  split; [exact Hdl|]. rewrite Hdr. unfold samplesOf. rewrite Hi. reflexivity.
Qed.
(** a candidate of a column without any value has no threshold *)
Lemma nan_candidate E X o ix f i sc thr : EnvOk E -> (forall j v, In j ix -> cell X j f v -> fnanb v = true) -> candidate E X o ix f i sc thr -> fnanb thr = true.
Proof.
  intros HE HN (col & a & b & HC & Hi & Ha & Hb & _ & _ & _ & -> & _). apply nth_error_In in Ha.
  assert (Hin : In a col).
  { unfold ArgSort in Ha. cbn [snd] in Ha. apply in_map_iff in Ha as ([j a'] & Hj & Ha). cbn [snd] in Hj. subst a'.
    apply (Permutation_in _ (Permutation_sym (ok_sort_perm _ HE _ idLess _))) in Ha. apply in_combine_r in Ha. exact Ha. }
  assert (Hna : fnanb a = true).
  { clear -HC Hin HN. induction HC as [|j v ix col Hc HF IH]; [contradiction|]. destruct Hin as [-> | Hin]; [apply (HN j); [left; reflexivity|exact Hc]|].
    apply IH; [|exact Hin]. intros j' v' Hj. apply HN. right. exact Hj. }
  destruct a as [| | |]; try discriminate Hna. reflexivity.
Qed.
Lemma all_missing E X o t d l r k : EnvOk E -> NewTree E X o = Ok t -> (forall row0, look X 0 row0 -> row0 <> []) -> subAt (Node d l r) k t ->
  (forall j v, In j (samplesOf d) -> cell X j (t_split d) v -> fnanb v = true) -> Z.of_nat (S k) < to_maxdepth o -> t_leaf d = true.
Proof.
  intros HE HT Hr HS HN Hk. destruct (t_leaf d) eqn:HL; [reflexivity|exfalso].
  destruct (c07_lemma E X o t d l r k HE HT HS) as (row0 & _ & H & _). destruct (H HL) as (i & _ & Hc & _).
  apply (nan_candidate _ _ _ _ _ _ _ _ HE HN) in Hc. destruct (nan_threshold _ _ _ _ _ _ _ _ HE HT Hr HS HL Hc) as [Hk' _]. lia.
Qed.
Lemma missing_table E X o : EnvOk E -> (forall row0, look X 0 row0 -> row0 <> []) -> (forall i f v, cell X i f v -> fnanb v = true) -> 2 <= to_maxdepth o ->
  (forall t, NewTree E X o = Ok t -> exists d, t = Node d Nil Nil /\ t_leaf d = true) /\
  (forall row0 f j sc thr, look X 0 row0 -> scannedAt o (length row0) 0 f -> candidate E X o (initialSamples X o) f j sc thr ->
     betterScore (to_xgb o) sc (startScore (to_xgb o)) = true -> forall t, NewTree E X o <> Ok t).
Proof.
  intros HE Hr HN Hm.
  assert (A : forall t, NewTree E X o = Ok t -> exists d, t = Node d Nil Nil /\ t_leaf d = true).
  { intros t Ht. pose proof (NewTree_grown _ _ _ _ Ht) as HG. destruct (grown_node _ _ _ _ _ HG) as (d & l & r & ->). exists d.
    assert (HL : t_leaf d = true).
    { apply (all_missing E X o _ d l r 0 HE Ht Hr (subAt_0 _)); [|lia]. intros j v _. apply HN. }
    destruct (grown_leaf_iff _ _ _ _ _ _ _ HG) as [H1 _]. destruct (H1 HL) as [-> ->]. auto. }
  split; [exact A|]. intros row0 f j sc thr H0 Hs Hc Hb t Ht. destruct (A t Ht) as (d & -> & HL).
  destruct (c07_lemma E X o _ d Nil Nil 0 HE Ht (subAt_0 _)) as (row0' & H0' & _ & H).
  assert (row0' = row0) as -> by (destruct H0 as [_ H0], H0' as [_ H0']; congruence).
  assert (Hd : samplesOf d = initialSamples X o) by (apply NewTree_grown in Ht; inversion Ht; reflexivity).
  assert (Hk : Z.of_nat 0 < to_maxdepth o) by lia. rewrite <- Hd in Hc. pose proof (H HL Hk f j sc thr Hs Hc) as Hb'. rewrite Hb in Hb'. discriminate Hb'.
Qed.
Lemma empty_nodes E X o t d l r k : EnvOk E -> NewTree E X o = Ok t -> (forall row0, look X 0 row0 -> row0 <> []) ->
  subAt (Node d l r) (S k) t -> samplesOf d = [] ->
  Z.of_nat (S k) = to_maxdepth o /\ l = Nil /\ r = Nil /\ t_nsamples d = 0 /\
  (to_xgb o = false -> fnanb (t_value d) = true) /\
  (to_xgb o = true -> fltb fzero (to_lambda o) = true -> feqb (t_value d) fzero = true).
Proof.
  intros HE HT Hr HS Hd. destruct (empty_bottom _ _ _ _ _ _ _ _ HT Hr HS Hd) as (H1 & H2 & H3).
  destruct (empty_value _ _ _ _ _ _ _ _ HE HT HS Hd) as (H4 & H5 & H6). auto 10.
Qed.
