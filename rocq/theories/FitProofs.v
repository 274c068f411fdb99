(** What the splits of a tree achieve in exact arithmetic (proof support for C118). *)
From Coq Require Import Reals Lra.
From Verif Require Import Base F64 Env Utils Tree Spec RealProofs UtilsProofs TreeProofs SpecTot Options Train SpecInv InvMore SpecFit.
Open Scope R_scope.

Lemma rsum_app l1 l2 : rsum (l1 ++ l2) = rsum l1 + rsum l2.
Proof. induction l1 as [|x l1 IH]; cbn [rsum app]; lra. Qed.
Lemma rsum_perm l1 l2 : Permutation l1 l2 -> rsum l1 = rsum l2.
Proof. induction 1; cbn [rsum]; lra. Qed.

(** a quantity of the sample list that does not depend on its order and changes by [G] at a split *)
Lemma leafSum_grown (F : list Z -> R) (G : list Z -> list Z -> R) E X n o t :
  (forall l1 l2, Permutation l1 l2 -> F l1 = F l2) -> (forall il ir, F il + F ir = F (il ++ ir) + G il ir) ->
  grown E X n o t -> leafSum F t = F (rootSamples t) + innerSum G t.
Proof.
  intros HP HG HT. induction HT as [n o value row0 b HV HX HB HL|n o value row0 b col l r HV HX HF HL HC Hl IHl Hr IHr].
  - unfold leafSum. cbn [leaves map rsum rootSamples innerSum]. lra.
  - destruct (grown_node _ _ _ _ _ Hl) as (dl & ll & lr & El). destruct (grown_node _ _ _ _ _ Hr) as (dr & rl & rr & Er).
    assert (Sl : rootSamples l = filter (below X (b_split b) (b_thr b)) (initialSamples X o)) by (inversion Hl; reflexivity).
    assert (Sr : rootSamples r = filter (fun i => negb (below X (b_split b) (b_thr b) i)) (initialSamples X o)) by (inversion Hr; reflexivity).
    assert (HLS : forall d, leafSum F (Node d l r) = leafSum F l + leafSum F r).
    { intros d. subst l r. unfold leafSum. rewrite leaves_split, map_app, rsum_app. reflexivity. }
    assert (HIS : forall d, innerSum G (Node d l r) = G (rootSamples l) (rootSamples r) + innerSum G l + innerSum G r).
    { intros d. subst l r. reflexivity. }
    rewrite HLS, HIS, IHl, IHr. cbn [rootSamples]. unfold samplesOf. cbn [t_samples].
    rewrite (HP _ _ (filter_split_perm (below X (b_split b) (b_thr b)) (initialSamples X o))). rewrite <- Sl, <- Sr.
    pose proof (HG (rootSamples l) (rootSamples r)). lra.
Qed.

Lemma pairs_app g h a b : pairsOf g h (a ++ b) = pairsOf g h a ++ pairsOf g h b.
Proof. apply map_app. Qed.
Lemma sumG_perm g h a b : Permutation a b -> sumG (pairsOf g h a) = sumG (pairsOf g h b).
Proof. intros H. unfold sumG, pairsOf. apply rsum_perm. apply Permutation_map, Permutation_map, H. Qed.
Lemma sumH_perm g h a b : Permutation a b -> sumH (pairsOf g h a) = sumH (pairsOf g h b).
Proof. intros H. unfold sumH, pairsOf. apply rsum_perm. apply Permutation_map, Permutation_map, H. Qed.
Lemma sumG_app g h a b : sumG (pairsOf g h (a ++ b)) = sumG (pairsOf g h a) + sumG (pairsOf g h b).
Proof. unfold sumG. rewrite pairs_app, map_app, rsum_app. reflexivity. Qed.
Lemma sumH_app g h a b : sumH (pairsOf g h (a ++ b)) = sumH (pairsOf g h a) + sumH (pairsOf g h b).
Proof. unfold sumH. rewrite pairs_app, map_app, rsum_app. reflexivity. Qed.
Lemma sumH_nonneg g h a : (forall i, 0 <= h i) -> 0 <= sumH (pairsOf g h a).
Proof.
  intros Hh. unfold sumH, pairsOf. induction a as [|z a IH]; cbn [map rsum fst snd]; [lra|]. specialize (Hh z). cbn [snd] in *. lra.
Qed.

Lemma innerSum_ext G G' t : (forall a b, G a b = G' a b) -> innerSum G t = innerSum G' t.
Proof. intros H. induction t as [|d l IHl r IHr]; cbn [innerSum]; [reflexivity|]. destruct l; destruct r; rewrite ?H, ?IHl, ?IHr; reflexivity. Qed.

Lemma c118_xgb_lemma E X o t g h lambda gamma : NewTree E X o = Ok t -> (forall i, 0 <= h i) -> 0 < lambda ->
  leafSum (fun ix => bestObjective g h lambda ix + gamma / 2) t =
  bestObjective g h lambda (initialSamples X o) + gamma / 2 - innerSum (exactGain g h lambda gamma) t.
Proof.
  intros HT Hh Hl. destruct (root_samples _ _ _ _ HT) as (d & l & r & Et & Sd & _). apply NewTree_grown in HT.
  assert (HRS : rootSamples t = initialSamples X o) by (subst t; cbn [rootSamples]; unfold samplesOf; rewrite Sd; reflexivity).
  rewrite (leafSum_grown _ (fun il ir => - exactGain g h lambda gamma il ir) _ _ _ _ _) with (3 := HT).
  - rewrite HRS. replace (innerSum (fun il ir => - exactGain g h lambda gamma il ir) t) with (- innerSum (exactGain g h lambda gamma) t); [lra|].
    clear. induction t as [|d l IHl r IHr]; cbn [innerSum]; [lra|]. destruct l, r; rewrite <- ?IHl, <- ?IHr; cbn [innerSum] in *; lra.
  - intros a b HP. unfold bestObjective. rewrite (sumG_perm _ _ _ _ HP), (sumH_perm _ _ _ _ HP). reflexivity.
  - intros il ir. unfold bestObjective, exactGain. rewrite sumG_app, sumH_app.
    pose proof (sumH_nonneg g h il Hh). pose proof (sumH_nonneg g h ir Hh).
    set (a := sumG (pairsOf g h il)) in *. set (b := sumG (pairsOf g h ir)) in *. set (p := sumH (pairsOf g h il)) in *. set (q := sumH (pairsOf g h ir)) in *.
    field. lra.
Qed.
Lemma c118_best_lemma g h lambda ix : 0 < sumH (pairsOf g h ix) + lambda ->
  (forall w, bestObjective g h lambda ix <= leafObjective (pairsOf g h ix) lambda w) /\
  leafObjective (pairsOf g h ix) lambda (- sumG (pairsOf g h ix) / (sumH (pairsOf g h ix) + lambda)) = bestObjective g h lambda ix.
Proof.
  intros HP. set (G := sumG (pairsOf g h ix)). set (H := sumH (pairsOf g h ix)) in *.
  assert (HO : forall w, leafObjective (pairsOf g h ix) lambda w = G * w + (H + lambda) * (w * w) / 2).
  { intros w. unfold leafObjective, G, H, sumG, sumH. generalize (pairsOf g h ix). intros l. 
    assert (HS : rsum (map (fun p => fst p * w + snd p * (w * w) / 2) l) = rsum (map fst l) * w + rsum (map snd l) * (w * w) / 2).
    { induction l as [|p l IH]; cbn [map rsum]; [lra|]. rewrite IH. field. }
    rewrite HS. field. }
  assert (HB : bestObjective g h lambda ix = - (G * G) / (2 * (H + lambda))) by reflexivity.
  split.
  - intros w. rewrite HO, HB. assert (0 <= (G + (H + lambda) * w) * (G + (H + lambda) * w)) by apply Rle_0_sqr.
    apply Rmult_le_reg_r with (2 * (H + lambda)); [lra|]. replace (- (G * G) / (2 * (H + lambda)) * (2 * (H + lambda))) with (- (G * G)) by (field; lra).
    nra.
  - rewrite HO, HB. field. lra.
Qed.

Lemma spread_perm y a b : Permutation a b -> spread y a = spread y b.
Proof.
  intros H. unfold spread. assert (HM : mean (map y a) = mean (map y b)).
  { unfold mean. rewrite (rsum_perm _ _ (Permutation_map y H)), !map_length, (Permutation_length H). reflexivity. }
  rewrite HM. unfold deviations. apply rsum_perm. apply Permutation_map, Permutation_map, H.
Qed.
Lemma spread_nil y : spread y [] = 0. Proof. reflexivity. Qed.
Lemma c118_reg_lemma E X o t y : NewTree E X o = Ok t ->
  leafSum (spread y) t = spread y (initialSamples X o) - innerSum (fun il ir => spread y (il ++ ir) - spread y il - spread y ir) t /\
  leafSum (spread y) t <= spread y (initialSamples X o).
Proof.
  intros HT. destruct (root_samples _ _ _ _ HT) as (d & l & r & Et & Sd & _). apply NewTree_grown in HT.
  assert (HRS : rootSamples t = initialSamples X o) by (subst t; cbn [rootSamples]; unfold samplesOf; rewrite Sd; reflexivity).
  assert (HS : leafSum (spread y) t = spread y (rootSamples t) + innerSum (fun il ir => - (spread y (il ++ ir) - spread y il - spread y ir)) t).
  { eapply (leafSum_grown (spread y)); [apply spread_perm| |exact HT]. intros il ir. lra. }
  assert (HN : forall G t, innerSum (fun a b => - G a b) t = - innerSum G t).
  { clear. intros G t. induction t as [|d l IHl r IHr]; cbn [innerSum]; [lra|]. destruct l, r; rewrite ?IHl, ?IHr; cbn [innerSum] in *; lra. }
  rewrite (HN (fun il ir => spread y (il ++ ir) - spread y il - spread y ir)), HRS in HS.
  split; [lra|]. assert (HG : forall il ir, 0 <= spread y (il ++ ir) - spread y il - spread y ir).
  { intros il ir. destruct il as [|i il]; [rewrite spread_nil; cbn [app]; lra|]. destruct ir as [|j ir]; [rewrite spread_nil, app_nil_r; lra|].
    unfold spread. rewrite map_app. destruct (c14_score_lemma (map y (i :: il)) (map y (j :: ir))) as [H1 H2]; try discriminate. rewrite H1 in H2. lra. }
  assert (HI : 0 <= innerSum (fun il ir => spread y (il ++ ir) - spread y il - spread y ir) t).
  { clear -HG. induction t as [|d l IHl r IHr]; cbn [innerSum]; [lra|]. destruct l, r; try lra;
      match goal with |- context [spread y (?a ++ ?b) - _ - _] => pose proof (HG a b) end; cbn [innerSum] in *; lra. }
  lra.
Qed.

(** *** deeper trees *)
Lemma grown_fit y E X n o t : grown E X n o t -> leafSum (spread y) t <= spread y (rootSamples t).
Proof.
  intros HT. rewrite (leafSum_grown (spread y) (fun il ir => - (spread y (il ++ ir) - spread y il - spread y ir)) E X n o t (spread_perm y) ltac:(intros; lra) HT).
  assert (HI : innerSum (fun il ir => - (spread y (il ++ ir) - spread y il - spread y ir)) t <= 0); [|lra].
  assert (HG : forall il ir, 0 <= spread y (il ++ ir) - spread y il - spread y ir).
  { intros il ir. destruct il as [|i il]; [rewrite spread_nil; cbn [app]; lra|]. destruct ir as [|j ir]; [rewrite spread_nil, app_nil_r; lra|].
    unfold spread. rewrite map_app. destruct (c14_score_lemma (map y (i :: il)) (map y (j :: ir))) as [H1 H2]; try discriminate. rewrite H1 in H2. lra. }
  clear -HG. induction t as [|d l IHl r IHr]; cbn [innerSum]; [lra|]. destruct l, r; try lra;
    match goal with |- context [spread y (?a ++ ?b) - _ - _] => pose proof (HG a b) end; cbn [innerSum] in *; lra.
Qed.
Lemma cut_fit y E X : forall k u t, cutAt k u t -> forall n o, grown E X n o u -> leafSum (spread y) u <= leafSum (spread y) t.
Proof.
  induction 1 as [du l r d H1 H2 H3 H4 H5|k d H1|k du d ul ur l r H1 H2 H3 H4 H5 H6 H7 Cl IHl Cr IHr]; intros m o HG.
  - apply (grown_fit y) in HG. unfold leafSum at 2. cbn [leaves map rsum rootSamples] in *. unfold samplesOf in *. rewrite H1. lra.
  - lra.
  - inversion HG as [|n1 o1 value row0 b col l1 r1 HV HX HF HL1 HC Hl Hr]; subst.
    + inversion Cl.
    + specialize (IHl _ _ Hl). specialize (IHr _ _ Hr).
      destruct (grown_node _ _ _ _ _ Hl) as (dl & ll & lr & ->). destruct (grown_node _ _ _ _ _ Hr) as (dr & rl & rr & ->).
      assert (Nl : l <> Nil) by (inversion Cl; discriminate). assert (Nr : r <> Nil) by (inversion Cr; discriminate).
      destruct l as [|d1 l1 l2]; [congruence|]. destruct r as [|d2 r1 r2]; [congruence|].
      unfold leafSum in *. rewrite !leaves_split, !map_app, !rsum_app. lra.
Qed.
Lemma c118_depth_lemma E X o n m u t y : (n <= m)%Z -> NewTree E X (withDepth o m) = Ok u -> NewTree E X (withDepth o n) = Ok t ->
  leafSum (spread y) u <= leafSum (spread y) t.
Proof.
  intros Hnm Hu Ht. destruct (c102_lemma _ _ _ _ _ _ Hnm Hu) as (t' & Ht' & HC). rewrite Ht in Ht'. injection Ht' as <-.
  apply NewTree_grown in Hu. eapply cut_fit; eauto.
Qed.
