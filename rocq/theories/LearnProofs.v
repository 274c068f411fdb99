(** Gradient boosting with deep trees learns its training set (proof support for C121). *)
From Coq Require Import Reals Lra Permutation Sorting.Sorted.
From Flocq Require Import Core.
From Verif Require Import Base F64 F64Lemmas Env EnvLemmas Utils Tree Spec Options Train SpecTrain SpecTot SpecFit SpecErr SpecLearn
  UtilsProofs UtilsThms ActProofs NumErr ErrProofs TreeProofs TreeSplit TreeThms TrainProofs TrainThms TrainMore TrainSteps MemProofs SatProofs TreeShort TrainTot LearnNum.
Open Scope R_scope.

(** ** Accumulated scores *)
Lemma accumulated_app lr row start ts t s : accumulated lr row start (ts ++ [t]) s <->
  exists a v, accumulated lr row start ts a /\ PredictSingle t row = Ok v /\ s = fadd a (fmul v lr).
Proof.
  split.
  - intros (ps & HF & Hs). apply Forall2_app_inv_l in HF as (ps1 & ps2 & H1 & H2 & ->). inversion H2 as [|? v ? l' Hv H3]; subst. inversion H3; subst.
    rewrite fold_left_app. exists (fold_left (fun a p => fadd a (fmul p lr)) ps1 start), v. split; [exists ps1; auto|]. split; [exact Hv|reflexivity].
  - intros (a & v & (ps & HF & ->) & Hv & ->). exists (ps ++ [v]). split; [apply Forall2_app; auto|]. rewrite fold_left_app. reflexivity.
Qed.
Lemma accumulated_nil lr row start s : accumulated lr row start [] s -> s = start.
Proof. intros (ps & HF & ->). inversion HF; subst. reflexivity. Qed.
Lemma accumulated_fun lr row start ts s s' : accumulated lr row start ts s -> accumulated lr row start ts s' -> s = s'.
Proof.
  intros (ps & HF & ->) (ps' & HF' & ->). f_equal. revert ps' HF'. induction HF as [|t p ts ps H1 H2 IH]; intros ps' HF'; inversion HF'; subst; [reflexivity|].
  f_equal; [congruence|auto].
Qed.
Lemma classTrees_app es e k : classTrees (es ++ [e]) k = classTrees es k ++ (if Nat.eqb (g_class e) k then [g_tree e] else []).
Proof. unfold classTrees. rewrite filter_app, map_app. cbn [filter]. destruct (Nat.eqb (g_class e) k); reflexivity. Qed.

(** ** A deep tree with updated leaves *)
Lemma iota_range n z : In z (iota n) -> (0 <= z < Z.of_nat n)%Z.
Proof. intros H. apply in_map_iff in H as (k & <- & Hk). apply in_seq in Hk. lia. Qed.
Lemma iota_NoDup n : NoDup (iota n).
Proof. unfold iota. apply FinFun.Injective_map_NoDup; [intros a b Hab; lia|apply seq_NoDup]. Qed.
Lemma distinct_same X : distinctRows X -> forall i j, (0 <= i < Z.of_nat (length X))%Z -> (0 <= j < Z.of_nat (length X))%Z -> sameRow X i j -> i = j.
Proof.
  intros HD i j Hi Hj HS. destruct (Z.eq_dec i j) as [e|ne]; [exact e|exfalso].
  destruct (nth_error X (Z.to_nat i)) as [r|] eqn:Er; [|apply nth_error_None in Er; lia].
  destruct (nth_error X (Z.to_nat j)) as [s|] eqn:Es; [|apply nth_error_None in Es; lia].
  destruct (HD _ _ _ _ Er Es ltac:(lia)) as (f & a & b & Ha & Hb & Hab).
  assert (HT : feqb a b = true).
  { apply (HS (Z.of_nat f)); [exists r|exists s]; (split; [split; [lia|assumption]|split; [lia|rewrite Nat2Z.id; assumption]]). }
  congruence.
Qed.
Lemma deep_leaf E X o g h t0 t : EnvOk E -> goodTable X -> NewTree E X o = Ok t0 -> leavesUpdated g h t0 t -> to_xgb o = false -> to_allowed o = [] -> to_indexes o = None ->
  (forall y, In y (to_y o) -> moderate y) -> (ftoZ (to_mcw o) <= 1)%Z -> (Z.of_nat (length X) <= to_maxdepth o)%Z -> (Z.of_nat (length X) < 2 ^ 51)%Z ->
  distinctRows X -> forall i row gi hi, look X i row -> look g i gi -> look h i hi -> PredictSingle t row = Ok (leafValue gi hi).
Proof.
  intros HE HG HT HU HX HA HI HY HM HDp HS HDis i row gi hi Hrow Hgi Hhi.
  assert (EI : initialSamples X o = iota (length X)) by (unfold initialSamples; rewrite HI; reflexivity).
  assert (HL : length (iota (length X)) = length X) by (unfold iota; rewrite map_length, seq_length; reflexivity).
  assert (Hi : In i (initialSamples X o)).
  { rewrite EI. destruct Hrow as [H0 Hrow]. unfold iota. apply in_map_iff. exists (Z.to_nat i). split; [lia|]. apply in_seq.
    assert (Z.to_nat i < length X)%nat by (apply nth_error_Some; congruence). lia. }
  assert (HNE : X <> []) by (apply gt_rows; auto).
  assert (HNE2 : initialSamples X o <> []) by (intros H0; rewrite H0 in Hi; destruct Hi).
  assert (HG2 := NewTree_grown _ _ _ _ HT). destruct (grown_updated _ _ _ _ _ _ _ HG2 _ HU) as (HSL & HV & HPr).
  destruct (c02_lemma _ _ _ _ _ _ HT Hi Hrow) as (k & d0 & Hk & Hid & _ & _).
  assert (Hd0 : In d0 (leaves t0)) by (eapply nth_error_In; eauto).
  assert (HOne : samplesOf d0 = [i]).
  { assert (HN : NoDup (samplesOf d0)).
    { pose proof (grown_leaves_perm _ _ _ _ _ HG2) as HPm. rewrite EI in HPm. assert (HN := Permutation_NoDup HPm (iota_NoDup _)). clear -HN Hd0.
      induction (leaves t0) as [|d1 l IH]; [destruct Hd0|]. cbn [map concat] in HN. destruct Hd0 as [->|Hd]; [exact (proj1 (NoDup_parts _ _ HN))|].
      apply IH; auto. exact (proj2 (NoDup_parts _ _ HN)). }
    assert (HAll : forall j, In j (samplesOf d0) -> j = i).
    { intros j Hj. symmetry. rewrite EI in Hi. pose proof (iota_range _ _ Hi).
      apply (c119_separated_lemma E HE X HG o t0 HT HX HA HY HM HNE2 ltac:(rewrite EI, HL; exact HDp) ltac:(rewrite EI, HL; exact HS) ltac:(intros z; rewrite EI; apply iota_range) d0 i Hd0 Hid) in Hj as [Hj HSm].
      rewrite EI in Hj. pose proof (iota_range _ _ Hj). apply (distinct_same X HDis); auto. }
    destruct (samplesOf d0) as [|a [|b l]]; [destruct Hid| |].
    - rewrite (HAll a) by (left; auto). reflexivity.
    - exfalso. pose proof (HAll a ltac:(left; auto)). pose proof (HAll b ltac:(right; left; auto)). subst. inversion HN as [|? ? H1 _]. apply H1. left; auto. }
  assert (Hd : exists d, In d (leaves t) /\ samplesOf d = [i]).
  { assert (HIn : In [i] (map samplesOf (leaves t))) by (rewrite HSL, <- HOne; apply in_map; exact Hd0). apply in_map_iff in HIn as (d & H1 & H2). exists d. auto. }
  destruct Hd as (d & Hd & Hsd). rewrite (HPr i row d Hrow Hd) by (rewrite Hsd; left; auto). f_equal.
  destruct (HV d Hd) as (gs & hs & Fg & Fh & ->). rewrite Hsd in Fg, Fh. inversion Fg as [|? g1 ? gl Lg Fg1]; subst. inversion Fg1; subst. inversion Fh as [|? h1 ? hl Lh Fh1]; subst. inversion Fh1; subst.
  rewrite (look_fun _ _ _ _ Lg Hgi), (look_fun _ _ _ _ Lh Hhi). reflexivity.
Qed.

(** ** The order of the trees in the history *)
Lemma round_classes {K} E rnd (D : DataBunch K) O0 tr : NewMultiClass E rnd D O0 = Ok tr -> (o_earlystop O0 <= 0)%Z ->
  forall cl, In cl (tr_hist tr) -> map g_class cl = seq 0 (length (ClassLabels (tr_model tr))).
Proof.
  intros H HE cl Hcl. unfold ClassLabels. destruct (NewMultiClass_inv E rnd D O0 tr H) as (EO & Eb & _ & _ & _ & _ & _ & _ & [_ _ _ _ I5]). cbn [fst snd] in *.
  destruct (In_nth_error _ _ Hcl) as [m Hm]. rewrite (I5 m cl Hm). unfold stoppedBy. rewrite EO.
  apply filter_seq_full. rewrite <- (seq_length (length (mc_labels (tr_model tr))) 0) at 2. f_equal.
  rewrite <- (filter_ext (fun _ => true)).
  - clear. induction (seq 0 (length (mc_labels (tr_model tr)))) as [|x l IH]; simpl; congruence.
  - intros k. rewrite esStep_off; [reflexivity|exact HE].
Qed.
Definition cnt (es : list entryG) (k : nat) : nat := length (classTrees es k).
Lemma cnt_app es es' k : cnt (es ++ es') k = (cnt es k + cnt es' k)%nat.
Proof. unfold cnt, classTrees. rewrite filter_app, map_app, app_length. reflexivity. Qed.
Lemma cnt_seq es k a n : map g_class es = seq a n -> cnt es k = if (Nat.leb a k && Nat.ltb k (a + n))%bool then 1%nat else 0%nat.
Proof.
  revert a n. induction es as [|e es IH]; intros a [|n] H; cbn [map seq] in H; try discriminate.
  - destruct (Nat.leb_spec a k); destruct (Nat.ltb_spec k (a + 0)); cbn [andb]; try reflexivity. lia.
  - injection H as H1 H2. unfold cnt, classTrees in *. cbn [filter]. specialize (IH _ _ H2). destruct (Nat.eqb_spec (g_class e) k) as [Hk|Hk].
    + cbn [map length]. rewrite IH. subst k. rewrite H1. rewrite Nat.leb_refl. destruct (Nat.leb_spec (Datatypes.S a) a); [lia|]. destruct (Nat.ltb_spec a (a + Datatypes.S n)); [reflexivity|lia].
    + rewrite IH. replace (Datatypes.S a + n)%nat with (a + Datatypes.S n)%nat by lia. destruct (Nat.leb_spec (Datatypes.S a) k); destruct (Nat.leb_spec a k); try reflexivity; lia.
Qed.
Lemma cnt_concat hist nl k : (forall cl, In cl hist -> map g_class cl = seq 0 nl) -> (k < nl)%nat -> cnt (concat hist) k = length hist.
Proof.
  intros H Hk. induction hist as [|cl hist IH]; [reflexivity|]. cbn [concat length]. rewrite cnt_app, IH by (intros; apply H; right; auto).
  rewrite (cnt_seq cl k 0 nl) by (apply H; left; auto). destruct (Nat.ltb_spec k (0 + nl)); [reflexivity|lia].
Qed.
Lemma first_round hist nl es1 e es2 c j : (forall cl, In cl hist -> map g_class cl = seq 0 nl) -> concat hist = es1 ++ e :: es2 -> (c < nl)%nat ->
  classTrees es1 c = [] -> (cnt es1 j <= 1)%nat.
Proof.
  intros H HC Hc H0. destruct hist as [|cl hist]; [cbn [concat] in HC; destruct es1; discriminate HC|]. cbn [concat] in HC.
  pose proof (H cl ltac:(left; auto)) as Hcl. apply app_eq_app in HC as (l & [[-> Hr]|[-> Hr]]).
  - rewrite map_app in Hcl. assert (Hs : map g_class es1 = seq 0 (length es1)).
    { assert (Hf : firstn (length es1) (seq 0 nl) = map g_class es1) by (rewrite <- Hcl, firstn_app, map_length, Nat.sub_diag, firstn_O, app_nil_r; apply firstn_all2; rewrite map_length; lia).
      rewrite <- Hf. assert (Hle : (length es1 <= nl)%nat) by (apply (f_equal (@length nat)) in Hcl; rewrite app_length, !map_length, seq_length in Hcl; lia).
      replace nl with (length es1 + (nl - length es1))%nat by lia. rewrite seq_app, firstn_app, seq_length, Nat.sub_diag, firstn_O, app_nil_r. apply firstn_all2. rewrite seq_length. lia. }
    rewrite (cnt_seq es1 j 0 _ Hs). destruct (_ && _)%bool; lia.
  - exfalso. assert (Hz : cnt (cl ++ l) c = 0%nat) by (unfold cnt; rewrite H0; reflexivity). rewrite cnt_app, (cnt_seq cl c 0 nl Hcl) in Hz.
    destruct (Nat.ltb_spec c (0 + nl)); cbn [Nat.leb andb] in Hz; lia.
Qed.
Lemma positions_classes hist nl j : (forall cl, In cl hist -> map g_class cl = seq 0 nl) -> positionTrees (map (map g_tree) hist) j = classTrees (concat hist) j.
Proof.
  assert (H1 : forall cl a n, map g_class cl = seq a n -> forall j, (match nth_error (map g_tree cl) j with Some t => [t] | None => [] end) = classTrees cl (a + j)).
  { clear. induction cl as [|e cl IH]; intros a n H j; [destruct j; reflexivity|]. destruct n as [|n]; [discriminate H|]. cbn [map seq] in H. injection H as H1 H2.
    unfold classTrees in *. cbn [filter map]. destruct j as [|j]; cbn [nth_error].
    - rewrite Nat.add_0_r, H1, Nat.eqb_refl. cbn [map]. f_equal. replace (filter _ cl) with (@nil entryG); [reflexivity|]. symmetry.
      apply length_zero_iff_nil. rewrite <- (map_length g_tree). change (cnt cl a = 0%nat). rewrite (cnt_seq cl a _ _ H2). destruct (Nat.leb_spec (Datatypes.S a) a); [lia|reflexivity].
    - rewrite (IH _ _ H2 j). destruct (Nat.eqb_spec (g_class e) (a + Datatypes.S j)) as [Hk|Hk]; [lia|]. replace (Datatypes.S a + j)%nat with (a + Datatypes.S j)%nat by lia. reflexivity. }
  intros H. unfold positionTrees, classTrees. induction hist as [|cl hist IH]; [reflexivity|]. cbn [map flat_map concat]. rewrite filter_app, map_app.
  rewrite IH by (intros; apply H; right; auto). f_equal. apply (H1 cl 0%nat nl). apply H. left. auto.
Qed.

Lemma sq_not_mse id id' : SQErrLoss id <> MSELoss id'.
Proof.
  intros H. pose proof (f_equal (fun l => match l_hess l [fzero] with x :: _ => feqb x fzero | [] => true end) H) as H1.
  assert (A : (match l_hess (SQErrLoss id) [fzero] with x :: _ => feqb x fzero | [] => true end) = false) by (vm_compute; reflexivity).
  assert (B : (match l_hess (MSELoss id') [fzero] with x :: _ => feqb x fzero | [] => true end) = true) by (vm_compute; reflexivity).
  cbv beta in H1. rewrite A, B in H1. discriminate H1.
Qed.

Section Learn.
Context {K : Type} (E : Env) (HE : EnvOk E) (HA : expAccurate E) (rnd : draws) (D : DataBunch K) (O0 : Options) (tr : trained).
Context (H : NewMultiClass E rnd D O0 = Ok tr) (HG : goodTable (Data D)) (HLn : length (Labels D) = length (Data D)) (HDis : distinctRows (Data D)).
Context (Hsz : (Z.of_nat (length (Data D)) <= 2 ^ 40)%Z) (HX : o_xgb O0 = false) (Hes : (o_earlystop O0 <= 0)%Z) (Hms : (o_minsample O0 <= 0)%Z).
Context (Hdep : (Z.of_nat (length (Data D)) <= o_maxdepth O0)%Z) (Hmcw : (ftoZ (o_mcw O0) <= 1)%Z) (Hrounds : (1 <= o_rounds O0)%Z).
Context (Flr : ffinite (o_lr O0) = true) (Fbase : ffinite (o_base O0) = true) (Hlr : bpow radix2 (-30) <= B2R (o_lr O0) <= 1).
Let nl := length (ClassLabels (tr_model tr)).
Let lr := B2R (o_lr O0).
Let base := B2R (o_base O0).
Let Rn := IZR (o_rounds O0).
Context (Hnl : (2 <= nl)%nat) (V : R) (HV : 1 <= V).
Let W := V * lr * (1 + bpow radix2 (-10)).
Context (HB : Rabs base + Rn * W <= 610).
Context (Hloss : (exists id, o_loss O0 = SQErrLoss id /\ V = 1) \/ (exists id, o_loss O0 = MSELoss id /\ V = 2 * INR nl /\ 2 * (Rn * W) <= 29)).
Let hist := tr_hist tr.

Lemma EO : tr_opts tr = fixMCW O0. Proof. exact (proj1 (NewMultiClass_inv E rnd D O0 tr H)). Qed.
Lemma R_ge1 : 1 <= Rn. Proof. apply (IZR_le 1). exact Hrounds. Qed.
Lemma lr_num : / 1073741824 <= lr <= 1. Proof. exact Hlr. Qed.
Lemma W_pos : lr <= W.
Proof. unfold W. pose proof lr_num. pose proof (bpow_gt_0 radix2 (-10)). assert (1 * lr <= V * lr) by (apply Rmult_le_compat_r; lra). nra. Qed.
Lemma nl_size : (Z.of_nat nl <= 2 ^ 40)%Z.
Proof.
  destruct (NewMultiClass_inv E rnd D O0 tr H) as (_ & _ & _ & _ & _ & _ & (HN & HI & _) & _).
  assert (HL : (length (mc_labels (tr_model tr)) <= length (Labels D))%nat) by (apply NoDup_incl_length; [exact HN|intros x Hx; apply HI; exact Hx]).
  unfold nl, ClassLabels. lia.
Qed.
Lemma hist_len : (length hist <= Z.to_nat (o_rounds O0))%nat /\ (1 <= length hist)%nat.
Proof.
  destruct (NewMultiClass_inv E rnd D O0 tr H) as (_ & Eb & _). pose proof (c31_lemma E rnd D O0 tr H) as H31. rewrite Eb, map_length in H31. unfold hist. rewrite H31.
  replace (filter _ _) with (seq 0 (Z.to_nat (o_rounds O0))); [rewrite seq_length; lia|].
  symmetry. rewrite <- (filter_ext (fun _ => true)).
  - clear. induction (seq 0 (Z.to_nat (o_rounds O0))) as [|x l IH]; simpl; congruence.
  - intros a. symmetry. apply Z.leb_le. unfold sampledRows. rewrite HX, Bool.andb_false_r. exact Hms.
Qed.
Lemma full_rounds : forall cl, In cl hist -> map g_class cl = seq 0 nl.
Proof. exact (round_classes E rnd D O0 tr H Hes). Qed.
Lemma cnt_le es1 es2 k : concat hist = es1 ++ es2 -> (k < nl)%nat -> INR (cnt es1 k) <= Rn.
Proof.
  intros HC Hk. pose proof (cnt_concat hist nl k full_rounds Hk) as HN. rewrite HC, cnt_app in HN. pose proof hist_len. unfold Rn. rewrite INR_IZR_INZ. apply IZR_le. lia.
Qed.

Definition learning (es : list entryG) (row : list f64) (c : nat) : Prop := forall k s, (k < nl)%nat ->
  accumulated (o_lr O0) row (o_base O0) (classTrees es k) s ->
  ffinite s = true /\ Rabs (B2R s - base) <= INR (cnt es k) * W /\
  (k = c -> base <= B2R s /\ (classTrees es c <> [] -> base + lr / 16 <= B2R s)) /\ (k <> c -> B2R s <= base).
Definition trueClass (i c : nat) : Prop := exists y, nth_error (Labels D) i = Some y /\ nth_error (ClassLabels (tr_model tr)) c = Some y.

(** what is known about a list of scores *)
Lemma scores_ok es1 es2 row c ss : concat hist = es1 ++ es2 -> (c < nl)%nat -> learning es1 row c -> length ss = nl ->
  (forall j, (j < nl)%nat -> exists s, nth_error ss j = Some s /\ accumulated (o_lr O0) row (o_base O0) (classTrees es1 j) s) ->
  (forall s, In s ss -> ffinite s = true /\ Rabs (B2R s) <= 610) /\ exists sc, nth_error ss c = Some sc /\ base <= B2R sc /\
  (classTrees es1 c = [] -> B2R sc = base) /\ (classTrees es1 c <> [] -> base + lr / 16 <= B2R sc) /\ Rabs (B2R sc - base) <= Rn * W /\
  (forall s, In s ss -> B2R s <= B2R sc) /\
  forall j s, j <> c -> nth_error ss j = Some s -> B2R s <= base /\ Rabs (B2R s - base) <= INR (cnt es1 j) * W /\ Rabs (B2R s - base) <= Rn * W.
Proof.
  intros HC Hc HI HL HS. pose proof W_pos as HW. pose proof lr_num as HLr.
  assert (Hle : forall k, (k < nl)%nat -> INR (cnt es1 k) * W <= Rn * W) by (intros k Hk; apply Rmult_le_compat_r; [lra|apply (cnt_le es1 es2); auto]).
  assert (Hall : forall j s, nth_error ss j = Some s -> (j < nl)%nat /\ accumulated (o_lr O0) row (o_base O0) (classTrees es1 j) s).
  { intros j s Hj. assert (Hjn : (j < nl)%nat) by (rewrite <- HL; apply nth_error_Some; congruence). split; [exact Hjn|]. destruct (HS j Hjn) as (s' & Hs' & Ha). congruence. }
  split.
  { intros s Hs. apply In_nth_error in Hs as [j Hj]. destruct (Hall j s Hj) as [Hjn Ha]. destruct (HI j s Hjn Ha) as (F & B & _). split; [exact F|].
    specialize (Hle j Hjn). replace (B2R s) with ((B2R s - base) + base) by ring. eapply Rle_trans; [apply Rabs_triang|]. lra. }
  destruct (HS c Hc) as (sc & Hsc & Hac). destruct (HI c sc Hc Hac) as (F & B & [T1 T2] & _); [exact eq_refl|]. exists sc. split; [exact Hsc|]. split; [exact T1|].
  split. { intros H0. rewrite H0 in Hac. apply accumulated_nil in Hac. subst sc. reflexivity. }
  split; [exact T2|]. split; [pose proof (Hle c Hc); lra|].
  assert (Hoth : forall j s, j <> c -> nth_error ss j = Some s -> B2R s <= base /\ Rabs (B2R s - base) <= INR (cnt es1 j) * W /\ Rabs (B2R s - base) <= Rn * W).
  { intros j s Hj Hs. destruct (Hall j s Hs) as [Hjn Ha]. destruct (HI j s Hjn Ha) as (_ & B' & _ & T'). split; [apply T'; exact Hj|]. split; [exact B'|]. pose proof (Hle j Hjn). lra. }
  split; [|exact Hoth]. intros s Hs. apply In_nth_error in Hs as [j Hj]. destruct (Nat.eq_dec j c) as [->|Hn]; [assert (s = sc) by congruence; subst; lra|].
  pose proof (Hoth j s Hn Hj). lra.
Qed.

Definition hessAt (p : f64) (h : f64) : Prop :=
  (exists id, o_loss O0 = SQErrLoss id /\ h = fofZ 1) \/ (exists id, o_loss O0 = MSELoss id /\ h = fmul (fsub (fofZ 1) p) p).

Lemma value_ok es1 e es2 row c ss ps p h : concat hist = es1 ++ e :: es2 -> (c < nl)%nat -> learning es1 row c -> length ss = nl ->
  (forall j, (j < nl)%nat -> exists s, nth_error ss j = Some s /\ accumulated (o_lr O0) row (o_base O0) (classTrees es1 j) s) ->
  SoftMax E ss (repeat fzero nl) = Ok ps -> (g_class e < nl)%nat -> nth_error ps (g_class e) = Some p -> hessAt p h ->
  (ffinite p = true /\ 0 <= B2R p <= 1) /\
  let y := if Nat.eqb (g_class e) c then fone else fzero in
  let v := leafValue (fsub y p) h in
  ffinite v = true /\ Rabs (B2R v) <= V /\ (g_class e = c -> 0 <= B2R v /\ (classTrees es1 c = [] -> / 8 <= B2R v)) /\ (g_class e <> c -> B2R v <= 0).
Proof.
  intros HC Hc HI HL HS HSm Hk Hp Hh.
  destruct (scores_ok es1 (e :: es2) row c ss HC Hc HI HL HS) as (Hfin & sc & Hsc & Hbase & Hempty & Hgain & Hdev & Htop & Hoth).
  assert (Hne : ss <> []) by (intros ->; cbn [length] in HL; lia).
  assert (HK : (Z.of_nat (length ss) <= 2 ^ 40)%Z) by (rewrite HL; apply nl_size).
  destruct (c23_range_lemma E ss (repeat fzero nl) ps HE ltac:(rewrite repeat_length; lia) HSm) as [Hlp Hrange].
  assert (Eps : exists sk, nth_error ss (g_class e) = Some sk /\ p = fdiv (e_exp E sk) (e_sum E (map (e_exp E) ss))).
  { rewrite SoftMax_same in HSm by (rewrite repeat_length; lia). apply Ok_inj' in HSm. subst ps. unfold softmax in Hp. cbn [ndiv F carrier] in Hp.
    rewrite map_map, nth_error_map in Hp. destruct (nth_error ss (g_class e)) as [sk|]; [|discriminate Hp]. exists sk. split; [reflexivity|]. cbn [option_map] in Hp. congruence. }
  destruct Eps as (sk & Hsk & Ep).
  destruct (share E HE HA ss Hfin Hne HK sk (nth_error_In _ _ Hsk)) as [Fp _]. rewrite <- Ep in Fp.
  assert (P01 : 0 <= B2R p <= 1).
  { destruct (Hrange p (nth_error_In _ _ Hp)) as [Hn|Hr]; [apply finite_nnan in Fp; congruence|]. apply (in01_finite p Hr). }
  split; [split; [exact Fp|exact P01]|].
  assert (Hother : exists j sj, j <> c /\ nth_error ss j = Some sj).
  { destruct (nth_error ss (if Nat.eqb c 0 then 1 else 0)) as [sj|] eqn:Ej.
    - exists (if Nat.eqb c 0 then 1%nat else 0%nat), sj. split; [destruct (Nat.eqb_spec c 0); lia|exact Ej].
    - apply nth_error_None in Ej. destruct (Nat.eqb c 0); lia. }
  cbv zeta. destruct Hh as [(id & Eid & ->)|(id & Eid & ->)].
  - destruct Hloss as [(id' & Eid' & HV1)|(id' & Eid' & _)].
    2:{ exfalso. rewrite Eid in Eid'. exact (sq_not_mse _ _ Eid'). }
    destruct (Nat.eqb_spec (g_class e) c) as [Hkc|Hkc].
    + destruct (sq_true p Fp P01) as (Fv & Rv & Hv). split; [exact Fv|]. split; [rewrite HV1, Rabs_pos_eq; lra|]. split; [|intros; congruence].
      intros _. split; [lra|]. intros H0. apply Hv. destruct Hother as (j & sj & Hj & Hsj). assert (sk = sc) by congruence. subst sk.
      rewrite Ep. apply (share_not_all E HE HA ss Hfin Hne HK c sc Hsc j sj Hsj ltac:(congruence)). rewrite (Hempty H0).
      destruct (Hoth j sj Hj Hsj) as (_ & Hd & _). pose proof (first_round hist nl es1 e es2 c j full_rounds HC Hc H0) as H1.
      assert (INR (cnt es1 j) <= 1) by (apply (le_INR _ 1); exact H1). pose proof W_pos as HW. pose proof lr_num.
      assert (HW1 : W <= 1005 / 1000). { unfold W. rewrite HV1. assert (E10 : bpow radix2 (-10) = / 1024) by reflexivity. rewrite E10. lra. }
      assert (INR (cnt es1 j) * W <= 1 * W) by (apply Rmult_le_compat_r; lra). apply Rabs_le' in Hd. lra.
    + destruct (sq_other p Fp P01) as (Fv & Rv). split; [exact Fv|]. split; [rewrite HV1; apply Rabs_le; lra|]. split; [intros; congruence|]. intros _. lra.
  - destruct Hloss as [(id' & Eid' & _)|(id' & Eid' & HV1 & Hgap)].
    { exfalso. rewrite Eid in Eid'. exact (sq_not_mse _ _ (eq_sym Eid')). }
    rewrite fofZ_1.
    assert (HN : 2 <= INR nl <= 1099511627776).
    { split; [apply (le_INR 2); exact Hnl|]. rewrite INR_IZR_INZ. apply (IZR_le _ (2 ^ 40)). apply nl_size. }
    assert (Hg : forall j sj, j <> c -> nth_error ss j = Some sj -> B2R sc - B2R sj <= 29).
    { intros j sj Hj Hsj. destruct (Hoth j sj Hj Hsj) as (_ & _ & Hd). apply Rabs_le' in Hd, Hdev. lra. }
    destruct (Nat.eqb_spec (g_class e) c) as [Hkc|Hkc].
    + assert (sk = sc) by congruence. subst sk. destruct Hother as (j & sj & Hj & Hsj).
      assert (Hlow : 2 / 3 / INR nl <= B2R p). { rewrite Ep, <- HL. apply (share_top E HE HA ss Hfin Hne HK c sc Hsc Htop). }
      assert (Hup : B2R p <= 1 - bpow radix2 (-49)). { rewrite Ep. apply (share_below_one E HE HA ss Hfin Hne HK c sc Hsc j sj Hsj ltac:(congruence)). apply (Hg j sj Hj Hsj). }
      destruct (mse_true p (INR nl) Fp HN (conj Hlow Hup)) as (Fv & Rv). split; [exact Fv|]. split; [rewrite HV1, Rabs_pos_eq; lra|]. split; [|intros; congruence]. intros _. split; [lra|]. intros _. lra.
    + assert (Hlow : bpow radix2 (-100) <= B2R p). { rewrite Ep. apply (share_not_zero E HE HA ss Hfin Hne HK c sc Hsc (g_class e) sk Hsk ltac:(congruence) Htop). apply (Hg _ _ Hkc Hsk). }
      assert (Hup : B2R p <= 5 / 8). { rewrite Ep. apply (share_other E HE HA ss Hfin Hne HK c sc Hsc (g_class e) sk Hsk ltac:(congruence)). apply Htop. apply (nth_error_In _ _ Hsk). }
      destruct (mse_other p Fp (conj Hlow Hup)) as (Fv & Rv). split; [exact Fv|]. split; [rewrite HV1; apply Rabs_le; lra|]. split; [intros; congruence|]. intros _. lra.
Qed.

Lemma class_lt e : In e (concat hist) -> (g_class e < nl)%nat.
Proof.
  intros He. apply in_concat in He as (cl & Hcl & He). apply (in_map g_class) in He. rewrite (full_rounds cl Hcl) in He. apply in_seq in He. lia.
Qed.
Lemma class_of_row i : (i < length (Data D))%nat -> exists c, trueClass i c /\ (c < nl)%nat.
Proof.
  intros Hi. destruct (nth_error (Labels D) i) as [y|] eqn:Ey; [|apply nth_error_None in Ey; lia].
  destruct (NewMultiClass_inv E rnd D O0 tr H) as (_ & _ & _ & _ & _ & _ & (_ & HI & _) & _).
  assert (Hy : In y (mc_labels (tr_model tr))) by (apply HI; eapply nth_error_In; eauto). apply In_nth_error in Hy as [c Hc].
  exists c. split; [exists y; split; [exact Ey|exact Hc]|]. unfold nl, ClassLabels. apply nth_error_Some. congruence.
Qed.
Lemma target_of i c k y lab : trueClass i c -> (k < nl)%nat -> indicator (Labels D) (ClassLabels (tr_model tr)) k lab -> nth_error lab i = Some y ->
  y = if Nat.eqb k c then fone else fzero.
Proof.
  intros (yl & Hy & Hc) Hk [_ HI] Hl. destruct (nth_error (ClassLabels (tr_model tr)) k) as [ck|] eqn:Ek; [|apply nth_error_None in Ek; unfold nl in Hk; lia].
  rewrite (HI i yl ck Hy eq_refl) in Hl. injection Hl as <-.
  destruct (NewMultiClass_inv E rnd D O0 tr H) as (_ & _ & _ & _ & _ & _ & (HN & _ & _) & _).
  destruct (Nat.eqb_spec k c) as [->|Hn]; [assert (ck = yl) by congruence; subst; rewrite Z.eqb_refl; reflexivity|].
  destruct (Z.eqb_spec ck yl) as [He|_]; [|reflexivity]. exfalso. apply Hn. subst ck.
  apply (proj1 (NoDup_nth_error (mc_labels (tr_model tr))) HN); [unfold nl, ClassLabels in Hk; exact Hk|unfold ClassLabels in *; congruence].
Qed.

Lemma learning_nil row c : learning [] row c.
Proof.
  intros k s Hk Ha. apply accumulated_nil in Ha. subst s. split; [exact Fbase|]. fold base. unfold cnt, classTrees. cbn [filter map length INR].
  replace (base - base) with 0 by ring. rewrite Rabs_R0. split; [lra|]. split; [|intros; lra]. intros _. split; [lra|]. intros Hn. congruence.
Qed.
Lemma learning_step es1 e es2 : concat hist = es1 ++ e :: es2 ->
  (forall i row c, nth_error (Data D) i = Some row -> trueClass i c -> (c < nl)%nat -> learning es1 row c) ->
  forall i row c, nth_error (Data D) i = Some row -> trueClass i c -> (c < nl)%nat -> learning (es1 ++ [e]) row c.
Proof.
  intros HC HI i row c Hrow Htc Hc.
  assert (Hke : (g_class e < nl)%nat) by (apply class_lt; rewrite HC; apply in_or_app; right; left; auto).
  destruct (c81_lemma E rnd D O0 tr H ltac:(lia) es1 e es2 HC) as (lab & pr & _ & Hind & Hpr & Hfit & _).
  fold nl in Hpr. rewrite EO in Hpr, Hfit. unfold fitted in Hfit. change (o_xgb (fixMCW O0)) with (o_xgb O0) in Hfit. rewrite HX in Hfit.
  destruct Hfit as (topts & t0 & Eopts & Ey & HT & HU).
  assert (Etx : to_xgb topts = false) by congruence. assert (Etm : to_mcw topts = o_mcw (fixMCW O0)) by congruence. assert (Eta : to_allowed topts = []) by congruence.
  assert (Etd : to_maxdepth topts = o_maxdepth O0) by (change (o_maxdepth O0) with (o_maxdepth (fixMCW O0)); congruence). assert (Eti : to_indexes topts = None) by congruence.
  clear Eopts. change (o_loss (fixMCW O0)) with (o_loss O0) in *.
  (* the row's probability, target and derivatives *)
  assert (Hrowdata : forall i row, nth_error (Data D) i = Some row -> exists c y p h, (c < nl)%nat /\ trueClass i c /\ nth_error lab i = Some y /\ nth_error pr i = Some p /\
    y = (if Nat.eqb (g_class e) c then fone else fzero) /\ nth_error (l_neg (o_loss O0) lab pr) i = Some (fsub y p) /\ nth_error (l_hess (o_loss O0) pr) i = Some h /\ hessAt p h /\
    exists ss ps, length ss = nl /\ (forall j, (j < nl)%nat -> exists s, nth_error ss j = Some s /\ accumulated (o_lr O0) row (o_base O0) (classTrees es1 j) s) /\
      SoftMax E ss (repeat fzero nl) = Ok ps /\ nth_error ps (g_class e) = Some p).
  { clear i row c Hrow Htc Hc. intros i row Hrow. assert (Hi : (i < length (Data D))%nat) by (apply nth_error_Some; congruence).
    destruct (class_of_row i Hi) as (c & Htc & Hc). destruct (Hpr i row Hrow) as (ss & ps & p & HL & HS & HSm & Hp & Hpi).
    destruct (nth_error lab i) as [y|] eqn:El; [|apply nth_error_None in El; destruct Hind as [HLl _]; lia].
    assert (Hneg : nth_error (negGradients F lab pr) i = Some (fsub y p)).
    { unfold negGradients. cbn [nsub F carrier]. change (nth_error (map (fun q : f64 * f64 => fsub (fst q) (snd q)) (combine lab pr)) i = Some (fsub y p)).
      rewrite nth_error_map. assert (Hcmb : nth_error (combine lab pr) i = Some (y, p)).
      { clear -El Hpi. revert lab pr El Hpi. induction i as [|i IH]; intros [|a lab] [|b pr] El Hpi; cbn [nth_error] in *; try discriminate; cbn [combine nth_error]; [congruence|auto]. }
      rewrite Hcmb. reflexivity. }
    assert (Hh : exists h, nth_error (l_hess (o_loss O0) pr) i = Some h /\ hessAt p h /\ nth_error (l_neg (o_loss O0) lab pr) i = Some (fsub y p)).
    { unfold hessAt. destruct Hloss as [(id & Eid & _)|(id & Eid & _)]; rewrite Eid.
      - exists (fofZ 1). split; [|split; [left; exists id; auto|exact Hneg]]. change (nth_error (map (fun _ : f64 => fofZ 1) pr) i = Some (fofZ 1)). rewrite nth_error_map, Hpi. reflexivity.
      - exists (fmul (fsub (fofZ 1) p) p). split; [|split; [right; exists id; auto|exact Hneg]].
        change (nth_error (map (fun v : f64 => fmul (fsub (fofZ 1) v) v) pr) i = Some (fmul (fsub (fofZ 1) p) p)). rewrite nth_error_map, Hpi. reflexivity. }
    destruct Hh as (h & Hh1 & Hh2 & Hh3). exists c, y, p, h. split; [exact Hc|]. split; [exact Htc|]. split; [reflexivity|]. split; [exact Hpi|].
    split; [apply (target_of i c (g_class e) y lab Htc Hke Hind El)|]. split; [exact Hh3|]. split; [exact Hh1|]. split; [exact Hh2|].
    exists ss, ps. auto. }
  assert (Hmod : forall y, In y (to_y topts) -> moderate y).
  { rewrite Ey. intros y Hy. apply In_nth_error in Hy as [m Hm].
    assert (Hlen : (m < length (Data D))%nat).
    { assert (Hml : (m < length (l_neg (o_loss O0) lab pr))%nat) by (apply nth_error_Some; congruence). destruct Hind as [HLl _].
      assert (Hle : (length (l_neg (o_loss O0) lab pr) <= length lab)%nat); [|lia].
      destruct Hloss as [(id & Eid & _)|(id & Eid & _)]; rewrite Eid; change (length (map (fun q : f64 * f64 => fsub (fst q) (snd q)) (combine lab pr)) <= length lab)%nat; rewrite map_length, combine_length; lia. }
    destruct (nth_error (Data D) m) as [rowm|] eqn:Erm; [|apply nth_error_None in Erm; lia].
    destruct (Hrowdata m rowm Erm) as (cm & ym & pm & hm & Hcm & Htm & _ & _ & Eym & Hneg & _ & Hhm & ss & ps & HL & HS & HSm & Hp).
    rewrite Hm in Hneg. injection Hneg as ->.
    destruct (value_ok es1 e es2 rowm cm ss ps pm hm HC Hcm (HI m rowm cm Erm Htm Hcm) HL HS HSm Hke Hp Hhm) as ((Fp & P01) & _).
    assert (Hm1 : ffinite (fsub ym pm) = true /\ Rabs (B2R (fsub ym pm)) <= 1).
    { rewrite Eym. destruct (Nat.eqb (g_class e) cm).
      - destruct (diff_one pm Fp P01) as (F1 & R1 & _). split; [exact F1|]. rewrite Rabs_pos_eq; lra.
      - destruct (diff_zero pm Fp P01) as (F1 & E1). split; [exact F1|]. rewrite E1, Rabs_Ropp, Rabs_pos_eq; lra. }
    split; [apply Hm1|]. apply Rle_trans with 1; [apply Hm1|]. change 1 with (bpow radix2 0). apply bpow_le. lia. }
  destruct (Hrowdata i row Hrow) as (c' & y & p & h & Hc' & Htc' & Hlab & Hpi & Eyc & Hneg & Hhess & Hh & ss & ps & HL & HS & HSm & Hp).
  assert (c' = c).
  { destruct Htc as (y1 & A1 & A2). destruct Htc' as (y2 & B1 & B2). assert (y1 = y2) by congruence. subst y2.
    destruct (NewMultiClass_inv E rnd D O0 tr H) as (_ & _ & _ & _ & _ & _ & (HN & _ & _) & _).
    apply (proj1 (NoDup_nth_error (mc_labels (tr_model tr))) HN); [exact Hc'|unfold ClassLabels in *; congruence]. }
  subst c'.
  destruct (value_ok es1 e es2 row c ss ps p h HC Hc (HI i row c Hrow Htc Hc) HL HS HSm Hke Hp Hh) as (_ & Hv). cbv zeta in Hv. rewrite <- Eyc in Hv.
  assert (HPS : PredictSingle (g_tree e) row = Ok (leafValue (fsub y p) h)).
  { apply (deep_leaf E (Data D) topts (l_neg (o_loss O0) lab pr) (l_hess (o_loss O0) pr) t0 (g_tree e) HE HG HT HU Etx Eta Eti Hmod) with (i := Z.of_nat i).
    - rewrite Etm. cbn [fixMCW o_mcw]. destruct (fltb (o_mcw O0) fone); [vm_compute; discriminate|exact Hmcw].
    - rewrite Etd. exact Hdep.
    - lia.
    - exact HDis.
    - split; [lia|rewrite Nat2Z.id; exact Hrow].
    - split; [lia|rewrite Nat2Z.id; exact Hneg].
    - split; [lia|rewrite Nat2Z.id; exact Hhess]. }
  set (v := leafValue (fsub y p) h) in *. destruct Hv as (Fv & Bv & Tv & Ov). pose proof W_pos as HW. pose proof lr_num as HLr. pose proof R_ge1 as HR1.
  intros k s Hk Ha. rewrite classTrees_app in Ha. destruct (Nat.eqb_spec (g_class e) k) as [Hek|Hek].
  - apply accumulated_app in Ha as (a & v' & Ha & Hv' & ->). rewrite HPS in Hv'. apply Ok_inj' in Hv'. subst v'.
    destruct (HI i row c Hrow Htc Hc k a Hk Ha) as (Fa & Ba & Ta & Oa).
    assert (Hcnt : cnt (es1 ++ [e]) k = Datatypes.S (cnt es1 k)).
    { rewrite cnt_app. unfold cnt at 2. unfold classTrees. cbn [filter]. rewrite Hek, Nat.eqb_refl. cbn [map length]. lia. }
    assert (Hca : INR (cnt es1 k) * W <= Rn * W) by (apply Rmult_le_compat_r; [lra|apply (cnt_le es1 (e :: es2)); auto]).
    assert (Ha610 : Rabs (B2R a) <= 610). { replace (B2R a) with ((B2R a - base) + base) by ring. eapply Rle_trans; [apply Rabs_triang|]. lra. }
    assert (HVl : V * lr <= 1000).
    { assert (HRW : 1 * W <= Rn * W) by (apply Rmult_le_compat_r; lra). assert (HVlW : V * lr <= W). { unfold W. pose proof (bpow_gt_0 radix2 (-10)). assert (0 <= V * lr) by (apply Rmult_le_pos; lra). nra. }
      pose proof (Rabs_pos base). lra. }
    destruct (step_facts a v (o_lr O0) V Fa Fv Flr ltac:(lra) Bv HV Hlr HVl) as (Fs & Bs & Ps & Ns & Gs). fold lr W in Bs, Gs.
    split; [exact Fs|]. split.
    { rewrite Hcnt, S_INR. replace (B2R (fadd a (fmul v (o_lr O0))) - base) with ((B2R (fadd a (fmul v (o_lr O0))) - B2R a) + (B2R a - base)) by ring.
      eapply Rle_trans; [apply Rabs_triang|]. lra. }
    split.
    + intros ->. rewrite Hek in *. destruct (Tv eq_refl) as [Tv1 Tv2]. destruct (Ta eq_refl) as [Ta1 Ta2]. split; [specialize (Ps Tv1); lra|].
      intros _. destruct (classTrees es1 c) as [|t1 tl] eqn:Ec; [specialize (Gs (Tv2 eq_refl)); lra|]. specialize (Ta2 ltac:(discriminate)). specialize (Ps Tv1). lra.
    + intros Hn. rewrite Hek in *. specialize (Ov Hn). specialize (Oa Hn). specialize (Ns Ov). lra.
  - rewrite app_nil_r in Ha. destruct (HI i row c Hrow Htc Hc k s Hk Ha) as (Fa & Ba & Ta & Oa). split; [exact Fa|].
    assert (Hcnt : forall k', g_class e <> k' -> cnt (es1 ++ [e]) k' = cnt es1 k' /\ classTrees (es1 ++ [e]) k' = classTrees es1 k').
    { intros k' Hk'. unfold cnt. rewrite classTrees_app. destruct (Nat.eqb_spec (g_class e) k') as [He'|_]; [congruence|]. rewrite app_nil_r. auto. }
    rewrite (proj1 (Hcnt k Hek)). split; [exact Ba|]. split; [|exact Oa]. intros ->. rewrite (proj2 (Hcnt c Hek)). apply Ta. reflexivity.
Qed.
Lemma learning_all es1 : forall es2, concat hist = es1 ++ es2 -> forall i row c, nth_error (Data D) i = Some row -> trueClass i c -> (c < nl)%nat -> learning es1 row c.
Proof.
  induction es1 as [|e es1 IH] using rev_ind; intros es2 HC.
  - intros. apply learning_nil.
  - rewrite <- app_assoc in HC. cbn [app] in HC. apply (learning_step es1 e es2 HC). apply (IH (e :: es2) HC).
Qed.

Lemma full_b : mc_b (tr_model tr) <> [] /\ forall ens, In ens (mc_b (tr_model tr)) -> length ens = length (ClassLabels (tr_model tr)).
Proof.
  split; [|exact (no_earlystop_full E rnd D O0 tr H Hes)].
  destruct (NewMultiClass_inv E rnd D O0 tr H) as (_ & Eb & _). rewrite Eb. pose proof hist_len as HL. fold hist. destruct hist as [|a l]; [cbn [length] in HL; lia|discriminate].
Qed.
Lemma learned_class i row c bufs : nth_error (Data D) i = Some row -> trueClass i c -> (c < nl)%nat ->
  PredictSingleClass (tr_model tr) row bufs = Ok (Z.of_nat c, bufs).
Proof.
  intros Hrow Htc Hc. destruct full_b as [Hne Hfull].
  destruct (c28_lemma E rnd D O0 tr H ltac:(lia) Hne Hfull i row bufs Hrow) as [Hraw HPM].
  destruct (PredictMC_inv E rnd D O0 tr H row bufs _ _ HPM) as (_ & Hlp & ss & Hss & HLs & HSm).
  set (ps := rowView (s_probs (tr_state tr)) i) in *. clearbody ps. fold nl in Hlp, HLs, HSm.
  destruct (NewMultiClass_inv E rnd D O0 tr H) as (_ & Eb & Elr & Ebase & _). rewrite EO in Elr, Ebase. fold hist in Eb.
  change (o_lr (fixMCW O0)) with (o_lr O0) in Elr. change (o_base (fixMCW O0)) with (o_base O0) in Ebase.
  assert (HI : learning (concat hist) row c) by (apply (learning_all (concat hist) [] ltac:(rewrite app_nil_r; reflexivity) i row c Hrow Htc Hc)).
  assert (HS : forall j, (j < nl)%nat -> exists s, nth_error ss j = Some s /\ accumulated (o_lr O0) row (o_base O0) (classTrees (concat hist) j) s).
  { intros j Hj. destruct (rawScores_spec (tr_model tr) row ss Hss) as (b0 & rest & HBb & HLb & _ & HAc).
    destruct (HAc j) as (y & Hy & Hacc); [lia|]. rewrite Elr, Ebase, Eb, (positions_classes hist nl j full_rounds) in Hacc. eauto. }
  destruct (scores_ok (concat hist) [] row c ss ltac:(rewrite app_nil_r; reflexivity) Hc HI HLs HS) as (Hfin & sc & Hsc & _ & _ & Hgain & _ & Htop & Hoth).
  assert (Htrees : classTrees (concat hist) c <> []).
  { pose proof (cnt_concat hist nl c full_rounds Hc) as HN. unfold cnt in HN. pose proof hist_len as HL. intros H0. rewrite H0 in HN. cbn [length] in HN. lia. }
  specialize (Hgain Htrees).
  assert (Hne' : ss <> []) by (intros ->; cbn [length] in HLs; lia).
  assert (HK : (Z.of_nat (length ss) <= 2 ^ 40)%Z) by (rewrite HLs; apply nl_size).
  assert (Eps : forall j p, nth_error ps j = Some p -> exists sk, nth_error ss j = Some sk /\ p = fdiv (e_exp E sk) (e_sum E (map (e_exp E) ss))).
  { intros j p Hp. rewrite SoftMax_same in HSm by (rewrite repeat_length; lia). apply Ok_inj' in HSm. subst ps. unfold softmax in Hp. cbn [ndiv F carrier] in Hp.
    rewrite map_map, nth_error_map in Hp. destruct (nth_error ss j) as [sk|]; [|discriminate Hp]. exists sk. split; [reflexivity|]. cbn [option_map] in Hp. congruence. }
  assert (Fps : forall p, In p ps -> ffinite p = true).
  { intros p Hp. apply In_nth_error in Hp as [j Hj]. destruct (Eps j p Hj) as (sk & Hsk & ->). apply (share E HE HA ss Hfin Hne' HK sk (nth_error_In _ _ Hsk)). }
  unfold PredictSingleClass. rewrite HPM. cbn [bind].
  destruct (argmax_spec ps) as (k & Hk & Hrange & Hmax & _); [intros ->; cbn [length] in Hlp; lia|]. rewrite Hk. cbn [bind].
  assert (Hnn : forall x, In x ps -> fnanb x = false) by (intros x Hx; apply finite_nnan, Fps, Hx).
  destruct (Hmax Hnn) as (m & [Hk0 Hm] & Hle & _).
  destruct (Nat.eq_dec (Z.to_nat k) c) as [Ekc|Hn]; [replace k with (Z.of_nat c) by lia; reflexivity|]. exfalso.
  destruct (Eps _ m Hm) as (sk & Hsk & Em). destruct (nth_error ps c) as [pc|] eqn:Epc; [|apply nth_error_None in Epc; lia].
  destruct (Eps c pc Epc) as (sc' & Hsc' & Epc'). assert (sc' = sc) by congruence. subst sc'.
  destruct (Hoth (Z.to_nat k) sk Hn Hsk) as [Hb _].
  assert (Hgap : bpow radix2 (-34) <= B2R sc - B2R sk).
  { pose proof lr_num as HLr. assert (E34 : bpow radix2 (-34) = / 16 * bpow radix2 (-30)).
    { change (/ 16) with (bpow radix2 (-4)). rewrite <- bpow_plus. reflexivity. }
    rewrite E34. destruct Hlr as [Hlr1 _]. fold lr in Hlr1. lra. }
  pose proof (share_strict E HE HA ss Hfin Hne' HK c sc Hsc sk Htop (nth_error_In _ _ Hsk) Hgap) as HL.
  rewrite <- Em, <- Epc' in HL.
  pose proof (Hle pc (nth_error_In _ _ Epc)) as Hle'.
  apply fleb_true in Hle' as (_ & _ & Hle'). rewrite (ext_finite _ (Fps _ (nth_error_In _ _ Epc))), (ext_finite _ (Fps _ (nth_error_In _ _ Hm))) in Hle'. lra.
Qed.
Lemma learned_count rows : forall k right, (forall i row, nth_error rows i = Some row -> nth_error (Data D) (k + i) = Some row) ->
  countRight (tr_model tr) rows (Labels D) (Z.of_nat k) right = Ok (right + Z.of_nat (length rows))%Z.
Proof.
  induction rows as [|row rows IH]; intros k right Hin; cbn [countRight length]; [f_equal; lia|].
  pose proof (Hin 0%nat row eq_refl) as Hrow. rewrite Nat.add_0_r in Hrow.
  destruct (class_of_row k) as (c & Htc & Hc); [apply nth_error_Some; congruence|].
  rewrite (learned_class k row c [[]] Hrow Htc Hc). cbn [bind]. destruct Htc as (y & Hy & Hcy).
  assert (E1 : idx (mc_labels (tr_model tr)) (Z.of_nat c) = Ok y) by (apply idx_Ok; split; [lia|rewrite Nat2Z.id; exact Hcy]). rewrite E1. cbn [bind].
  assert (E2 : idx (Labels D) (Z.of_nat k) = Ok y) by (apply idx_Ok; split; [lia|rewrite Nat2Z.id; exact Hy]). rewrite E2. cbn [bind].
  rewrite Z.eqb_refl. replace (Z.of_nat k + 1)%Z with (Z.of_nat (Datatypes.S k)) by lia. rewrite IH; [f_equal; lia|].
  intros i r Hr. replace (Datatypes.S k + i)%nat with (k + Datatypes.S i)%nat by lia. apply Hin. exact Hr.
Qed.
Lemma learned_accuracy : exists a, Accuracy (tr_model tr) D = Ok a /\ feqb a (fofZ 100) = true.
Proof.
  unfold Accuracy. change 0%Z with (Z.of_nat 0) at 1. rewrite learned_count by auto. cbn [bind]. eexists. split; [reflexivity|].
  destruct HG as [Hne _]. assert (Hn : (0 < length (Data D))%nat) by (destruct (Data D); [congruence|cbn [length]; lia]).
  rewrite Z.add_0_l. set (n := Z.of_nat (length (Data D))) in *. assert (HZ : (0 < n)%Z) by lia.
  destruct (fofZ_exact50 n ltac:(lia)) as (Fn & En).
  destruct (fofZ_exact50 100 ltac:(lia)) as (F1 & E1).
  assert (Hp : 0 < IZR n) by (apply (IZR_lt 0); lia).
  destruct (fdiv_small (fofZ n) (fofZ n) 1 Fn Fn) as [Fq Eq]; [rewrite En; lra|rewrite En; unfold Rdiv; rewrite Rinv_r by lra; rewrite Rabs_R1; lra|apply (bpow_le radix2 0); lia|].
  assert (E2 : B2R (fdiv (fofZ n) (fofZ n)) = 1). { rewrite Eq, En. unfold Rdiv. rewrite Rinv_r by lra. exact rnd_1. }
  destruct (fmul_small (fofZ 100) (fdiv (fofZ n) (fofZ n)) F1 Fq) as [Fm Em]; [rewrite E2, E1, Rmult_1_r; rewrite Rabs_pos_eq; lra|].
  apply feqb_true. split; [apply finite_nnan, Fm|]. split; [apply finite_nnan, F1|]. rewrite (ext_finite _ Fm), (ext_finite _ F1), Em, E2, Rmult_1_r. apply rnd_B2R.
Qed.
End Learn.

(** *** C121 *)
Lemma class_count {K} E rnd (D : DataBunch K) O tr : NewMultiClass E rnd D O = Ok tr -> length (ClassLabels (tr_model tr)) = distinctCount (Labels D).
Proof.
  intros H. destruct (NewMultiClass_inv E rnd D O tr H) as (_ & _ & _ & _ & _ & _ & (HN & HI & _) & _). unfold ClassLabels, distinctCount.
  apply Nat.le_antisymm; apply NoDup_incl_length.
  - exact HN.
  - intros x Hx. apply nodup_In, HI, Hx.
  - apply NoDup_nodup.
  - intros x Hx. apply HI. apply nodup_In in Hx. exact Hx.
Qed.
Lemma c121_trained {K} E rnd (D : DataBunch K) O tr : EnvOk E -> expAccurate E -> NewMultiClass E rnd D O = Ok tr ->
  goodTable (Data D) -> length (Labels D) = length (Data D) -> distinctRows (Data D) -> (Z.of_nat (length (Data D)) <= 2 ^ 40)%Z ->
  (exists y z, In y (Labels D) /\ In z (Labels D) /\ y <> z) ->
  deepPlain O (length (Data D)) -> stepsBounded O (length (ClassLabels (tr_model tr))) ->
  (forall i row y, nth_error (Data D) i = Some row -> nth_error (Labels D) i = Some y -> predictsLabel (tr_model tr) row y) /\
  exists a, Accuracy (tr_model tr) D = Ok a /\ feqb a (fofZ 100) = true.
Proof.
  intros HE HA H HG HLn HDis Hsz Hdiff (HX & Hes & Hms & Hdep & Hmcw & Hrounds) (Flr & Fbase & Hlr & Hsteps).
  set (nl := length (ClassLabels (tr_model tr))) in *.
  assert (Hnl : (2 <= nl)%nat).
  { destruct (NewMultiClass_inv E rnd D O tr H) as (_ & _ & _ & _ & _ & _ & (HN & HI & _) & _). destruct Hdiff as (y & z & Hy & Hz & Hyz). apply HI in Hy. apply HI in Hz.
    unfold nl, ClassLabels. change 2%nat with (length [y; z]). apply NoDup_incl_length; [|intros x [<-|[<-|[]]]; auto].
    constructor; [intros [Hq|[]]; congruence|]. constructor; [intros []|constructor]. }
  assert (HV : exists V, 1 <= V /\ Rabs (B2R (o_base O)) + IZR (o_rounds O) * (V * B2R (o_lr O) * (1 + bpow radix2 (-10))) <= 610 /\
    ((exists id, o_loss O = SQErrLoss id /\ V = 1) \/ (exists id, o_loss O = MSELoss id /\ V = 2 * INR nl /\ 2 * (IZR (o_rounds O) * (V * B2R (o_lr O) * (1 + bpow radix2 (-10)))) <= 29))).
  { assert (E10 : bpow radix2 (-10) = / 1024) by reflexivity. rewrite E10. pose proof (Rabs_pos (B2R (o_base O))) as Hb.
    destruct Hsteps as [((id & Eid) & Hs)|((id & Eid) & Hb5 & Hs)].
    - exists 1. split; [lra|]. set (q := IZR (o_rounds O) * B2R (o_lr O)) in *.
      replace (IZR (o_rounds O) * (1 * B2R (o_lr O) * (1 + / 1024))) with (q * (1 + / 1024)) by (unfold q; ring). split; [lra|]. left. exists id. auto.
    - exists (2 * INR nl). assert (Hk : 2 <= INR nl) by (apply (le_INR 2); exact Hnl). split; [lra|]. set (q := INR nl * IZR (o_rounds O) * B2R (o_lr O)) in *.
      replace (IZR (o_rounds O) * (2 * INR nl * B2R (o_lr O) * (1 + / 1024))) with (2 * q * (1 + / 1024)) by (unfold q; ring). split; [lra|]. right. exists id. split; [exact Eid|]. split; [reflexivity|lra]. }
  destruct HV as (V & HV1 & HVB & HVl).
  split.
  - intros i row y Hrow Hy. destruct (class_of_row E rnd D O tr H HLn Hnl i) as (c & (y' & Hy' & Hc') & Hc); [apply nth_error_Some; congruence|]. assert (y' = y) by congruence. subst y'.
    exists (Z.of_nat c), [[]], [[]]. split; [|split; [lia|rewrite Nat2Z.id; exact Hc']].
    eapply learned_class with (E := E) (i := i) (V := V); eauto. exists y. auto.
  - eapply learned_accuracy with (E := E) (V := V); eauto.
Qed.
Lemma c121_lemma {K} E rnd (D : DataBunch K) O : EnvOk E -> expAccurate E ->
  goodTable (Data D) -> length (Labels D) = length (Data D) -> distinctRows (Data D) ->
  (Z.of_nat (length (Data D)) <= 2 ^ 40)%Z -> (forall row, In row (Data D) -> Z.of_nat (length row) < 2 ^ 62)%Z -> (2 <= distinctCount (Labels D))%nat ->
  deepPlain O (length (Data D)) -> stepsBounded O (distinctCount (Labels D)) -> fractionOk (o_ss O) -> fractionOk (o_css O) ->
  exists tr, NewMultiClass E rnd D O = Ok tr /\
  (forall i row y, nth_error (Data D) i = Some row -> nth_error (Labels D) i = Some y -> predictsLabel (tr_model tr) row y) /\
  exists a, Accuracy (tr_model tr) D = Ok a /\ feqb a (fofZ 100) = true.
Proof.
  intros HE HA HG HLn HDis Hsz Hw Hdiff HP HS Hss Hcss.
  destruct (c98_lemma E rnd D O HE HG HLn) as (tr & H); auto.
  - destruct HS as (_ & _ & _ & [((id & ->) & _)|((id & ->) & _)]); apply lossSized_std.
  - lia.
  - intros rd _. left. apply HP.
  - exists tr. split; [exact H|]. apply (c121_trained E rnd D O tr); auto.
    + unfold distinctCount in Hdiff. pose proof (NoDup_nodup Z.eq_dec (Labels D)) as HN. pose proof (nodup_In Z.eq_dec (Labels D)) as HI.
      destruct (nodup Z.eq_dec (Labels D)) as [|y [|z l]]; [cbn [length] in Hdiff; lia|cbn [length] in Hdiff; lia|]. exists y, z.
      split; [apply HI; left; auto|]. split; [apply HI; right; left; auto|]. intros ->. inversion HN as [|? ? Hn _]. apply Hn. left. auto.
    + rewrite (class_count E rnd D O tr H). exact HS.
Qed.
