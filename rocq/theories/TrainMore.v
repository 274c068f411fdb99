(** Lemmas behind C29-C40, C66 and C67. *)
From Coq Require Import Reals Lra Sorted.
From Verif Require Import Base F64 F64Lemmas Env EnvLemmas Utils Tree Spec UtilsProofs TreeProofs UtilsThms ActProofs Options Train SpecTrain TrainProofs TrainThms TrainSteps Examples TreeThms.
Open Scope Z_scope.

(** *** C29, C32 *)
Lemma seq_filter_sorted (P : nat -> bool) s n : StronglySorted lt (filter P (seq s n)).
Proof.
  revert s; induction n as [|n IH]; intros s; simpl; [constructor|]. destruct (P s); auto.
  constructor; auto. apply Forall_forall. intros x Hx. apply filter_In in Hx as [Hx _]. apply in_seq in Hx. lia.
Qed.

Lemma stoppedBy_iff O es k :
  (0 < o_earlystop O -> (forall j l, nth_error (lossesOf es k) j = Some (0%nat, l) -> j = 0%nat) /\
     forall n, (n < length (lossesOf es k))%nat -> fst (fst (run O (lossesOf es k) n)) = false) ->
  (stoppedBy O es k = true <-> hasStopped O es k) /\
  (stoppedBy O es k = true <-> 0 < o_earlystop O /\ mustStop (o_earlystop O) (lossesOf es k) (length (lossesOf es k))) /\
  (0 < o_earlystop O -> forall n, (n < length (lossesOf es k))%nat -> ~ mustStop (o_earlystop O) (lossesOf es k) n).
Proof.
  intros H. destruct (Z.ltb_spec 0 (o_earlystop O)) as [Hes|Hes].
  - destruct (H Hes) as [H0 Hal]. set (L := lossesOf es k) in *.
    destruct (run_char O L Hes H0 (length L)) as (R1 & R2 & _); [lia|auto|].
    assert (Hrun : stoppedBy O es k = fst (fst (run O L (length L)))) by (unfold stoppedBy, run; rewrite firstn_all; auto).
    rewrite Hrun. split; [|split].
    + rewrite R1. unfold hasStopped. fold L. split.
      * intros HM. split; auto. exists (length L). auto.
      * intros (_ & n & Hn & HM). destruct (Nat.eq_dec n (length L)) as [->|]; auto. exfalso. apply (R2 n); auto. lia.
    + tauto.
    + auto.
  - assert (Hrun : stoppedBy O es k = false) by (unfold stoppedBy; rewrite esStep_off by lia; reflexivity).
    rewrite Hrun. unfold hasStopped. repeat split; intros; try discriminate; lia.
Qed.

Lemma lossesOf_firstn hist m k : exists n, lossesOf (concat (firstn m hist)) k = firstn n (lossesOf (concat hist) k) /\
  (n <= length (lossesOf (concat hist) k))%nat.
Proof.
  exists (length (lossesOf (concat (firstn m hist)) k)).
  assert (HC : lossesOf (concat hist) k = lossesOf (concat (firstn m hist)) k ++ lossesOf (concat (skipn m hist)) k)
    by (rewrite <- lossesOf_app, <- concat_app, firstn_skipn; auto).
  rewrite HC, app_length. split; [|lia].
  rewrite firstn_app, firstn_all, Nat.sub_diag. simpl. symmetry. apply app_nil_r.
Qed.

Section Trained.
Context {K : Type} (E : Env) (rnd : draws) (D : DataBunch K) (O0 : Options) (tr : trained) (H : NewMultiClass E rnd D O0 = Ok tr).
Notation M := (tr_model tr).
Notation O := (tr_opts tr).
Notation nl := (length (ClassLabels (tr_model tr))).
Notation hist := (tr_hist tr).

Lemma tr_hinv : hinv E O (Data D) nl (length (Labels D)) rnd (seq 0 (Z.to_nat (o_rounds O))) (tr_state tr, hist).
Proof. apply (NewMultiClass_inv E rnd D O0 tr H). Qed.

Lemma alive_prefix m k : (k < nl)%nat ->
  (0 < o_earlystop O -> (forall j l, nth_error (lossesOf (concat (firstn m hist)) k) j = Some (0%nat, l) -> j = 0%nat) /\
     forall n, (n < length (lossesOf (concat (firstn m hist)) k))%nat -> fst (fst (run O (lossesOf (concat (firstn m hist)) k) n)) = false).
Proof.
  intros Hk _. destruct tr_hinv as [I1 I2 I3 I4 I5]. cbn [fst snd] in *. destruct (lossesOf_firstn hist m k) as (q & Hq & HqL). rewrite Hq. split.
  - intros j l Hj. assert (Hjq : (j < length (firstn q (lossesOf (concat hist) k)))%nat) by (apply nth_error_Some; congruence).
    rewrite firstn_length in Hjq. rewrite nth_firstn in Hj by lia. eauto.
  - intros n Hn. rewrite firstn_length in Hn. unfold run. rewrite firstn_firstn. replace (Nat.min n q) with n by lia.
    apply (inv_alive _ _ _ _ _ _ _ I1); auto. lia.
Qed.

(** the classes of the trees stored in round [m] *)
Lemma round_classes m cl : nth_error hist m = Some cl ->
  StronglySorted lt (map g_class cl) /\
  forall k, In k (map g_class cl) <-> (k < nl)%nat /\ ~ hasStopped O (concat (firstn m hist)) k.
Proof.
  intros Hm. destruct tr_hinv as [I1 I2 I3 I4 I5]. cbn [fst snd] in *. rewrite (I5 m cl Hm). split; [apply seq_filter_sorted|].
  intros k. rewrite filter_In, in_seq, negb_true_iff. split.
  - intros [Hk Hs]. split; [lia|]. intros HS. apply (stoppedBy_iff O (concat (firstn m hist)) k (alive_prefix m k ltac:(lia))) in HS. congruence.
  - intros [Hk Hs]. split; [lia|]. destruct (stoppedBy O (concat (firstn m hist)) k) eqn:Es; auto.
    exfalso. apply Hs, (stoppedBy_iff O (concat (firstn m hist)) k (alive_prefix m k ltac:(lia))). auto.
Qed.

(** the score accumulated in training, and the one the ensemble computes *)
Lemma training_score i row k : (length (Data D) <= length (Labels D))%nat -> nth_error (Data D) i = Some row -> (k < nl)%nat ->
  exists v, entry (s_raw (tr_state tr)) i k v /\ accumulated (o_lr O) row (o_base O) (classTrees (concat hist) k) v.
Proof.
  intros HL Hi Hk. destruct tr_hinv as [I1 _ _ _ _]. cbn [fst snd] in *.
  apply (inv_scores _ _ _ _ _ _ _ I1); auto. assert (i < length (Data D))%nat by (apply nth_error_Some; congruence). lia.
Qed.

Lemma c29_lemma :
  mc_b M = map (map g_tree) hist /\
  (forall m cl, nth_error hist m = Some cl ->
     StronglySorted lt (map g_class cl) /\
     forall k, In k (map g_class cl) <-> (k < nl)%nat /\ ~ hasStopped O (concat (firstn m hist)) k) /\
  (forall i row k, (length (Data D) <= length (Labels D))%nat -> nth_error (Data D) i = Some row -> (k < nl)%nat ->
     exists v, entry (s_raw (tr_state tr)) i k v /\ accumulated (o_lr O) row (o_base O) (classTrees (concat hist) k) v) /\
  (forall row out, rawScores M row = Ok out -> forall j, (j < length out)%nat ->
     exists y, nth_error out j = Some y /\ accumulated (o_lr O) row (o_base O) (positionTrees (mc_b M) j) y).
Proof.
  destruct (NewMultiClass_inv E rnd D O0 tr H) as (EO & Eb & Elr & Ebase & _).
  split; [exact Eb|]. split; [exact round_classes|]. split; [exact training_score|].
  intros row out Ho j Hj. destruct (rawScores_spec M row out Ho) as (b0 & rest & HB & HL & _ & HA).
  rewrite <- Elr, <- Ebase. apply HA. lia.
Qed.

Lemma c32_lemma k : (k < nl)%nat ->
  let L := lossesOf (concat hist) k in
  (nth_error (s_stopped (tr_state tr)) k = Some true <-> 0 < o_earlystop O /\ mustStop (o_earlystop O) L (length L)) /\
  (0 < o_earlystop O -> forall n, (n < length L)%nat -> ~ mustStop (o_earlystop O) L n) /\
  (forall m cl, nth_error hist m = Some cl -> ((exists e, In e cl /\ g_class e = k) <-> ~ hasStopped O (concat (firstn m hist)) k)).
Proof.
  intros Hk L. destruct tr_hinv as [I1 I2 I3 I4 I5]. cbn [fst snd] in *.
  assert (Hpre := alive_prefix (List.length hist) k Hk). rewrite firstn_all in Hpre.
  destruct (stoppedBy_iff O (concat hist) k Hpre) as (S1 & S2 & S3). fold L in S2, S3.
  split; [|split].
  - rewrite <- S2. pose proof (inv_es _ _ _ _ _ _ _ I1 k Hk) as He. unfold stoppedBy. rewrite <- He. unfold esv. cbn [fst].
    destruct (inv_wf _ _ _ _ _ _ _ I1) as (_ & _ & _ & _ & _ & _ & _ & W & _).
    destruct (nth_error (s_stopped (tr_state tr)) k) as [b|] eqn:En.
    + rewrite (nth_error_nth _ _ false En). split; congruence.
    + apply nth_error_None in En. lia.
  - auto.
  - intros m cl Hm. destruct (round_classes m cl Hm) as [_ HC]. specialize (HC k). rewrite in_map_iff in HC. split.
    + intros (e & He & Hek). apply HC. exists e. auto.
    + intros HS. destruct HC as [_ HC]. destruct HC as (e & Hek & He); [auto|]. exists e. auto.
Qed.

(** *** C30, C31, C35 *)
Lemma first_round_full b0 rest : mc_b M = b0 :: rest -> length b0 = nl.
Proof.
  intros HB. destruct (NewMultiClass_inv E rnd D O0 tr H) as (EO & Eb & _). rewrite Eb in HB.
  destruct hist as [|cl h] eqn:Eh; [discriminate|]. injection HB as <- _. destruct tr_hinv as [_ _ _ _ I5]. cbn [snd] in I5.
  rewrite Eh in I5. specialize (I5 0%nat cl eq_refl). simpl in I5. rewrite map_length, <- (map_length g_class), I5.
  assert (HFl : forall l, filter (fun k => negb (stoppedBy O [] k)) l = l) by (induction l as [|x l IH]; [reflexivity|]; cbn [filter]; change (stoppedBy O [] x) with false; cbn [negb]; rewrite IH; auto).
  rewrite HFl. apply seq_length.
Qed.

Lemma filter_le {A} (P : A -> bool) l : (List.length (filter P l) <= List.length l)%nat.
Proof. induction l as [|x l IH]; simpl; [lia|]. destruct (P x); simpl; lia. Qed.

Lemma c30_lemma :
  (Z.of_nat (length (mc_b M)) <= Z.max 0 (o_rounds O0)) /\
  (forall ens, In ens (mc_b M) -> (length ens <= nl)%nat) /\
  (forall b0 rest, mc_b M = b0 :: rest -> length b0 = nl) /\
  firstOccurrences (Labels D) (ClassLabels M) /\ ClassLabels M <> [].
Proof.
  destruct (NewMultiClass_inv E rnd D O0 tr H) as (EO & Eb & _ & _ & _ & _ & HF & Hne & _). destruct tr_hinv as [_ _ I3 _ I5]. cbn [snd] in *.
  split; [|split; [|split; [exact first_round_full|split; auto]]].
  - rewrite Eb, map_length, I3. pose proof (filter_le (trainedB O (Data D) rnd) (seq 0 (Z.to_nat (o_rounds O)))) as HL.
    rewrite seq_length in HL. rewrite EO in *. change (o_rounds (fixMCW O0)) with (o_rounds O0) in *. lia.
  - intros ens Hin. rewrite Eb in Hin. apply in_map_iff in Hin as (cl & <- & Hcl). apply In_nth_error in Hcl as [m Hm].
    rewrite map_length, <- (map_length g_class), (I5 m cl Hm). etransitivity; [apply filter_le|]. rewrite seq_length. lia.
Qed.

Lemma c31_lemma :
  length (mc_b M) = length (filter (fun rd => o_minsample O0 <=? sampledRows O0 (length (Data D)) (fst (rnd rd))) (seq 0 (Z.to_nat (o_rounds O0)))).
Proof.
  destruct (NewMultiClass_inv E rnd D O0 tr H) as (EO & Eb & _). destruct tr_hinv as [_ _ I3 _ _]. cbn [snd] in *.
  rewrite Eb, map_length, I3, EO. reflexivity.
Qed.

Lemma c31_empty_lemma : 1 <= o_minsample O0 -> o_xgb O0 = false \/ fltb (o_ss O0) fone = false ->
  mc_b M = [] /\ Rounds M None = Ok (-1) /\ forall row bufs, PredictMC M row bufs = Panic.
Proof.
  intros Hm Hs. pose proof c31_lemma as HL.
  assert (HB : mc_b M = []).
  { rewrite (filter_ext _ (fun _ => false)) in HL.
    - destruct (mc_b M); auto. exfalso. clear - HL. induction (seq 0 (Z.to_nat (o_rounds O0))); simpl in *; [discriminate|auto].
    - intros rd. unfold sampledRows. destruct Hs as [->| ->]; [rewrite andb_false_r|rewrite andb_false_l]; apply Z.leb_gt; lia. }
  split; [auto|]. split.
  - unfold Rounds, Classes. rewrite HB. reflexivity.
  - intros row bufs. unfold PredictMC, rawScores. rewrite HB. reflexivity.
Qed.

Lemma c35_lemma :
  Classes M = Z.of_nat (length (mc_b M)) /\
  (mc_b M <> [] -> Rounds M None = Ok (Z.of_nat (length (ClassLabels M)))) /\
  (mc_b M = [] -> Classes M = 0 /\ Rounds M None = Ok (-1)).
Proof.
  split; [reflexivity|]. split.
  - intros HB. unfold Rounds, Classes. destruct (mc_b M) as [|b0 rest] eqn:EB; [congruence|].
    rewrite (proj2 (orb_false_iff _ _)).
    + simpl. rewrite (first_round_full b0 rest); auto.
    + split; [apply Z.ltb_ge; lia|apply Z.leb_gt; simpl; lia].
  - intros HB. unfold Rounds, Classes. rewrite HB. auto.
Qed.

(** *** C36, index in range *)
End Trained.

(** *** conversions between int and float64 *)
Lemma fofZ_ext n : fnanb (fofZ n) = false /\ ext (fofZ n) = clamp (rnd (IZR n)).
Proof.
  pose proof (binary_normalize_correct 53 1024 Hprec Hemax mode_NE n 0 false) as H.
  fold (fofZ n) in H. cbn [round_mode] in H.
  assert (EF : F2R (Float radix2 n 0) = IZR n) by (unfold F2R; simpl; lra).
  rewrite EF in H. fold (rnd (IZR n)) in H. pose proof Mx_pos as HM. fold Mx in H.
  destruct (Rlt_bool_spec (Rabs (rnd (IZR n))) Mx) as [Hlt|Hge].
  - destruct H as (HB & HF & _). split; [apply finite_nnan; exact HF|]. rewrite ext_finite by exact HF. rewrite HB.
    apply Rabs_def2 in Hlt. rewrite clamp_id by lra. reflexivity.
  - simpl in H. apply B2SF_inf in H. rewrite H. split; [reflexivity|].
    destruct (Rlt_bool_spec (IZR n) 0) as [Hn|Hn]; simpl.
    + pose proof (rnd_le_0 (IZR n) ltac:(lra)). rewrite Rabs_left1 in Hge by auto. symmetry. apply clamp_lo. lra.
    + pose proof (rnd_ge_0 (IZR n) Hn). rewrite Rabs_pos_eq in Hge by auto. symmetry. apply clamp_hi. lra.
Qed.
Lemma rnd_bpow e : (-1000 <= e <= 1000)%Z -> rnd (bpow radix2 e) = bpow radix2 e.
Proof.
  intros He. unfold rnd. apply round_generic; [apply valid_rnd_N|]. apply generic_format_bpow. unfold SpecFloat.fexp, SpecFloat.emin. lia.
Qed.
Lemma fofZ_bound n e : (0 <= n)%Z -> (0 <= e <= 1000)%Z -> (n <= 2 ^ e)%Z ->
  ffinite (fofZ n) = true /\ (0 <= B2R (fofZ n) <= bpow radix2 e)%R /\ B2R (fofZ n) = rnd (IZR n).
Proof.
  intros Hn He Hb. destruct (fofZ_ext n) as [HN HE].
  assert (H1 : (rnd (IZR n) <= bpow radix2 e)%R).
  { rewrite <- (rnd_bpow e) by lia. apply rnd_mono. rewrite <- (IZR_Zpower radix2) by lia. apply IZR_le. exact Hb. }
  assert (H0 : (0 <= rnd (IZR n))%R) by (apply rnd_ge_0, IZR_le; auto).
  assert (HM : (bpow radix2 e < Mx)%R) by (unfold Mx; apply bpow_lt; lia).
  rewrite clamp_id in HE by lra.
  assert (HF : ffinite (fofZ n) = true) by (apply finite_ext; auto; rewrite HE; lra).
  rewrite ext_finite in HE by auto. rewrite HE. auto.
Qed.
Lemma ftoZ_nonneg x : ffinite x = true -> (0 <= B2R x < bpow radix2 63)%R -> ftoZ x = Ztrunc (B2R x) /\ 0 <= ftoZ x.
Proof.
  intros Hf [H0 H1]. assert (HT : Btrunc x = Ztrunc (B2R x)).
  { apply eq_IZR. rewrite (Btrunc_correct 53 1024 Hemax). rewrite round_FIX_IZR. reflexivity. }
  assert (Hge : 0 <= Ztrunc (B2R x)) by (rewrite <- (Ztrunc_IZR 0); apply Ztrunc_le; auto).
  assert (Hlt : Ztrunc (B2R x) < 2 ^ 63).
  { rewrite Ztrunc_floor by auto. apply lt_IZR. apply Rle_lt_trans with (B2R x); [apply Zfloor_lb|]. change (2 ^ 63) with (radix2 ^ 63). rewrite IZR_Zpower by lia. auto. }
  destruct x as [s|s| |s m e Hb]; try discriminate; unfold ftoZ.
  - simpl B2R. rewrite Ztrunc_IZR. split; [auto|lia].
  - rewrite HT. cbv zeta. destruct (Z.leb_spec (- (2 ^ 63)) (Ztrunc (B2R (B754_finite s m e Hb)))) as [_|Q]; [|lia].
    destruct (Z.ltb_spec (Ztrunc (B2R (B754_finite s m e Hb))) (2 ^ 63)) as [_|Q]; [|lia]. simpl andb. auto.
Qed.

(** *** C33 *)
Lemma c33_lemma n p draw : 0 <= n ->
  (forall l, SubSample n p draw = Ok l ->
     StronglySorted Z.lt l /\ (forall i, In i l <-> 0 <= i < n /\ fleb (draw (Z.to_nat i)) p = true) /\
     (fleb fone p = true -> (forall i, fleb fzero (draw i) = true /\ fltb (draw i) fone = true) -> l = iota (Z.to_nat n))) /\
  (SubSample n p draw <> Diverge) /\ (fleb fzero p = true -> n < 2 ^ 62 -> fleb p fone = true -> exists l, SubSample n p draw = Ok l).
Proof.
  intros Hn. split; [|split].
  - intros l. unfold SubSample. destruct (_ <? 0); [discriminate|]. intros [= <-]. split; [|split].
    + assert (HG : forall ns, StronglySorted lt ns -> StronglySorted Z.lt (map Z.of_nat ns)).
      { induction 1 as [|x ns HS IH HF]; simpl; constructor; auto. rewrite Forall_forall in *. intros y Hy.
        apply in_map_iff in Hy as (z & <- & Hz). specialize (HF z Hz). lia. }
      apply HG, seq_filter_sorted.
    + intros i. rewrite in_map_iff. split.
      * intros (j & <- & Hj). apply filter_In in Hj as [Hj Hd]. apply in_seq in Hj. rewrite Nat2Z.id. split; [lia|auto].
      * intros [Hi Hd]. exists (Z.to_nat i). split; [lia|]. apply filter_In. split; [apply in_seq; lia|auto].
    + intros Hp Hd. unfold iota. f_equal.
      assert (HA : forall ns, filter (fun i => fleb (draw i) p) ns = ns).
      { induction ns as [|x ns IH]; simpl; auto. destruct (Hd x) as [_ H2].
        assert (Hx : fleb (draw x) p = true) by (eapply fleb_trans; [apply fltb_leb; exact H2|exact Hp]).
        rewrite Hx, IH. auto. }
      apply HA.
  - unfold SubSample. destruct (_ <? 0); discriminate.
  - intros Hp Hb Hp1. unfold SubSample. destruct (Z.ltb_spec (ftoZ (fmul (fofZ n) p) + 1) 0) as [Q|Q]; [|eauto].
    exfalso.
    assert (Hz : 0 <= ftoZ (fmul (fofZ n) p)); [|lia].
    assert (Fp : ffinite p = true).
    { apply finite_ext; [apply fleb_true in Hp; tauto|]. apply fleb_true in Hp as (_ & _ & Hp). apply fleb_true in Hp1 as (_ & _ & Hp1).
      rewrite ext_fzero in Hp. rewrite ext_fone in Hp1. unfold Mx. assert (1 < bpow radix2 1024)%R by (change 1%R with (bpow radix2 0); apply bpow_lt; lia). lra. }
    pose proof (proj1 (fleb_true _ _) Hp) as (_ & _ & Hp0). pose proof (proj1 (fleb_true _ _) Hp1) as (_ & _ & Hp2).
    rewrite ext_fzero, ext_finite in Hp0 by auto. rewrite ext_fone, ext_finite in Hp2 by auto.
    destruct (fofZ_bound n 62) as (Fn & [Bn0 Bn1] & _); [lia|lia|lia|].
    destruct (fmul_ext (fofZ n) p Fn Fp) as [Nm Em].
    assert (Hm0 : (0 <= rnd (B2R (fofZ n) * B2R p))%R) by (apply rnd_ge_0, Rmult_le_pos; lra).
    assert (Hm1 : (rnd (B2R (fofZ n) * B2R p) <= bpow radix2 62)%R).
    { apply Rle_trans with (rnd (B2R (fofZ n))); [|rewrite rnd_B2R; auto]. apply rnd_mono.
      rewrite <- (Rmult_1_r (B2R (fofZ n))) at 2. apply Rmult_le_compat_l; lra. }
    assert (HM : (bpow radix2 62 < bpow radix2 63 /\ bpow radix2 63 < Mx)%R) by (unfold Mx; split; apply bpow_lt; lia).
    rewrite clamp_id in Em by lra.
    assert (Fm : ffinite (fmul (fofZ n) p) = true) by (apply finite_ext; auto; rewrite Em; lra).
    rewrite ext_finite in Em by auto. apply ftoZ_nonneg; auto. rewrite Em. lra.
Qed.

(** *** C36, C39 *)
Lemma argmaxLoop_spec l : forall pre i best m, i = Z.of_nat (length pre) -> (forall x, In x (pre ++ l) -> fnanb x = false) ->
  0 <= best -> nth_error pre (Z.to_nat best) = Some m \/ (pre = [] /\ best = 0 /\ exists t, l = m :: t) ->
  (forall x, In x pre -> fleb x m = true) -> (forall j x, (Z.of_nat j < best) -> nth_error pre j = Some x -> fltb x m = true) ->
  firstMax (pre ++ l) (argmaxLoop l i best m) \/ (pre = [] /\ l = []).
Proof.
  induction l as [|v l IH]; intros pre i best m Hi Hn Hb Hm Hmax Hlt; cbn [argmaxLoop].
  - destruct Hm as [Hm|(-> & _ & t & HX)]; [|discriminate]. left. rewrite app_nil_r. exists m. split; [split; auto|]. split; auto.
    intros j x Hj [_ Hx]. apply (Hlt (Z.to_nat j)); auto. lia.
  - assert (Nv : fnanb v = false) by (apply Hn, in_elt).
    assert (Nm : fnanb m = false).
    { destruct Hm as [Hm|(-> & _ & t & HX)]; [|injection HX as -> _; auto]. apply Hn, in_app_iff. left. eapply nth_error_In; eauto. }
    assert (Happ : pre ++ v :: l = (pre ++ [v]) ++ l) by (rewrite <- app_assoc; auto).
    rewrite Happ in *. left.
    assert (Hlen : i + 1 = Z.of_nat (length (pre ++ [v]))) by (rewrite app_length; simpl; lia).
    destruct (fltb m v) eqn:Ev.
    + destruct (IH (pre ++ [v]) (i + 1) i v) as [HR|[HR _]]; auto; try lia.
      * left. subst i. rewrite Nat2Z.id, nth_error_app2, Nat.sub_diag by lia. auto.
      * intros x Hx. apply in_app_iff in Hx as [Hx|[<-|[]]]; [|apply fleb_refl; auto].
        eapply fleb_trans; [apply Hmax; auto|apply fltb_leb; auto].
      * intros j x Hj Hx. rewrite nth_error_app1 in Hx by lia. eapply fleb_ltb_trans; [apply Hmax; eapply nth_error_In; eauto|auto].
      * destruct pre; discriminate HR.
    + assert (Hvm : fleb v m = true). { apply fleb_true. apply (fltb_false m v) in Ev; auto. }
      destruct (IH (pre ++ [v]) (i + 1) best m) as [HR|[HR _]]; auto.
      * left. destruct Hm as [Hm|(-> & -> & t & HX)].
        -- rewrite nth_error_app1; auto. apply nth_error_Some. congruence.
        -- injection HX as -> _. reflexivity.
      * intros x Hx. apply in_app_iff in Hx as [Hx|[<-|[]]]; auto.
      * intros j x Hj Hx. destruct Hm as [Hm|(-> & -> & t & HX)].
        -- assert (Z.to_nat best < length pre)%nat by (apply nth_error_Some; congruence).
           rewrite nth_error_app1 in Hx by lia. eauto.
        -- lia.
      * destruct pre; discriminate HR.
Qed.
Lemma argmaxLoop_range l : forall i best m, 0 <= best < i -> 0 <= argmaxLoop l i best m < i + Z.of_nat (length l).
Proof.
  induction l as [|v l IH]; intros i best m Hb; cbn [argmaxLoop length]; [lia|].
  destruct (fltb m v).
  - specialize (IH (i + 1) i v). lia.
  - specialize (IH (i + 1) best m). lia.
Qed.
Lemma argmaxLoop_nan l i best m : fnanb m = true -> argmaxLoop l i best m = best.
Proof.
  intros Hm. revert i; induction l as [|v l IH]; intros i; cbn [argmaxLoop]; auto.
  destruct (fltb m v) eqn:Ev; auto. apply fltb_nnan in Ev as [Ev _]. congruence.
Qed.
Lemma argmax_spec l : l <> [] -> exists k, argmax l = Ok k /\ 0 <= k < Z.of_nat (length l) /\
  ((forall x, In x l -> fnanb x = false) -> firstMax l k) /\ (forall x, nth_error l 0 = Some x -> fnanb x = true -> k = 0).
Proof.
  intros Hne. destruct l as [|m t]; [congruence|]. unfold argmax. change (idx (m :: t) 0) with (Ok m : res f64). cbn [bind].
  eexists. split; [reflexivity|]. split; [|split].
  - cbn [argmaxLoop]. destruct (fltb m m) eqn:Em; [rewrite fltb_irrefl in Em; discriminate|].
    pose proof (argmaxLoop_range t 1 0 m ltac:(lia)). cbn [length]. change (0 + 1) with 1. lia.
  - intros Hn. destruct (argmaxLoop_spec (m :: t) [] 0 0 m) as [HR|[_ HX]];
      [reflexivity|exact Hn|lia|right; split; [auto|split; eauto]|intros x []|intros j x Hj; lia|exact HR|discriminate HX].
  - intros x [= <-] Hx. apply argmaxLoop_nan. auto.
Qed.

(** probabilities of a trained model *)
Lemma softmax_row E nl out : (0 < nl)%nat -> length out = nl -> exists D', 
  bind (NewDense 1 (length out) out) (fun O => bind (NewDense 1 (length out) (repeat fzero (length out))) (fun D => SoftMaxDense E O (Some D))) = Ok D' /\
  length (d_data D') = nl /\ SoftMax E out (repeat fzero nl) = Ok (d_data D').
Proof.
  intros Hnl HLo.
  assert (HN : forall q : list f64, length q = nl -> NewDense 1 nl q = Ok (Dense 1 nl q)).
  { intros q Hq. unfold NewDense. destruct (Nat.eqb_spec nl 0) as [|_]; [lia|]. cbn [Nat.eqb orb]. rewrite Hq. simpl. rewrite Nat.add_0_r, Nat.eqb_refl. auto. }
  rewrite HLo, HN by auto. cbn [bind]. rewrite HN by apply repeat_length. cbn [bind].
  destruct (c80_lemma E (Dense 1 nl out) (Some (Dense 1 nl (repeat fzero nl)))) as (D' & HD' & HW' & Hr' & Hc' & HR).
  { repeat split; simpl; lia. }
  { intros d [= <-]. repeat split; simpl; try lia. rewrite repeat_length. lia. }
  exists D'. rewrite HD'. split; auto. cbn [d_c d_r] in *. destruct HW' as (_ & _ & HW'). rewrite Hr', Hc' in HW'. split; [lia|].
  specialize (HR 0%nat ltac:(lia)).
  assert (ER : rowView (Dense 1 nl out) 0 = out) by (unfold rowView; simpl; apply firstn_all2; lia).
  rewrite ER in HR. rewrite HR. f_equal. unfold rowView. rewrite Hc'. simpl. apply firstn_all2. lia.
Qed.

Lemma leavesUpdated_predict g h t t' row : leavesUpdated g h t t' -> (exists p, PredictSingle t row = Ok p) -> exists p, PredictSingle t' row = Ok p.
Proof.
  induction 1 as [|d l r l' r' Hl HL IHl HR IHr|d d' l r l' r' ix gs hs Hl Hix Hg Hh Hv Heq HL IHl HR IHr]; intros [p Hp]; cbn [PredictSingle] in *.
  - discriminate.
  - rewrite Hl in *. apply bind_Ok in Hp as (v & Hv & Hp). rewrite Hv. cbn [bind]. destruct (fleb v (t_thr d)); eauto.
  - assert (t_leaf d' = true).
    { unfold t_leaf in *. injection Heq as _ E1 _ _ _ E2 _. rewrite E1, E2. auto. }
    rewrite H. eauto.
Qed.

Section TrainedPredict.
Context {K : Type} (E : Env) (rnd : draws) (D : DataBunch K) (O0 : Options) (tr : trained) (H : NewMultiClass E rnd D O0 = Ok tr).
Notation M := (tr_model tr).
Notation nl := (length (ClassLabels (tr_model tr))).

Lemma PredictMC_inv row bufs preds bufs' : PredictMC M row bufs = Ok (preds, bufs') ->
  bufs' = bufs /\ length preds = nl /\ exists scores, rawScores M row = Ok scores /\ length scores = nl /\
  SoftMax E scores (repeat fzero nl) = Ok preds.
Proof.
  intros HP. unfold PredictMC in HP. apply bind_Ok in HP as (out & Ho & HP).
  destruct (NewMultiClass_inv E rnd D O0 tr H) as (_ & _ & _ & _ & _ & Ept & _ & Hne & _).
  assert (Hnl : (0 < nl)%nat) by (unfold ClassLabels; destruct (mc_labels M); [congruence|simpl; lia]).
  destruct (rawScores_spec M row out Ho) as (b0 & rest & HB & HL & _).
  assert (HLo : length out = nl) by (rewrite HL; eapply first_round_full; eauto).
  destruct (softmax_row E nl out Hnl HLo) as (D' & HD & HDL & HS).
  apply bind_Ok in HP as (O1 & HO1 & HP). apply bind_Ok in HP as (D1 & HD1 & HP). rewrite Ept in HP.
  apply bind_Ok in HP as (D2 & HD2 & HP). rewrite HO1 in HD. cbn [bind] in HD. rewrite HD1 in HD. cbn [bind] in HD.
  assert (D2 = D') by congruence. subst D2. injection HP as <- <-. split; auto. split; auto. exists out. auto.
Qed.

Lemma trained_trees_total ens t row0 row : (length (Data D) <= length (Labels D))%nat -> In ens (mc_b M) -> In t ens ->
  nth_error (Data D) 0 = Some row0 -> (length row0 <= length row)%nat -> exists p, PredictSingle t row = Ok p.
Proof.
  intros HL He Ht H0 Hw. destruct (NewMultiClass_inv E rnd D O0 tr H) as (_ & Eb & _). rewrite Eb in He.
  apply in_map_iff in He as (cl & <- & Hcl). apply in_map_iff in Ht as (e & <- & Hin).
  assert (Hc : In e (concat (tr_hist tr))) by (apply in_concat; eauto).
  apply in_split in Hc as (es1 & es2 & Heq).
  destruct (c81_lemma E rnd D O0 tr H HL es1 e es2 Heq) as (lab & pr & pr' & _ & _ & HF & _).
  assert (HG : forall o t0, NewTree E (Data D) o = Ok t0 -> exists p, PredictSingle t0 row = Ok p).
  { intros o t0 HT. destruct (c15_lemma E (Data D) o t0 HT) as (r0 & [_ Hr0] & HP). change (nth_error (Data D) 0 = Some r0) in Hr0.
    assert (r0 = row0) by congruence. subst r0. destruct (HP row Hw) as [(d & _ & Hd) _]. eauto. }
  unfold fitted in HF. destruct (o_xgb (tr_opts tr)).
  - destruct HF as (rows & cols & topts & _ & _ & _ & _ & _ & HT). eauto.
  - destruct HF as (topts & t0 & _ & _ & HT & HU). eapply leavesUpdated_predict; eauto.
Qed.

Lemma c82_lemma row0 row bufs : (length (Data D) <= length (Labels D))%nat -> mc_b M <> [] ->
  nth_error (Data D) 0 = Some row0 -> (length row0 <= length row)%nat ->
  exists preds k, PredictMC M row bufs = Ok (preds, bufs) /\ length preds = nl /\
    PredictSingleClass M row bufs = Ok (k, bufs) /\ 0 <= k < Z.of_nat nl.
Proof.
  intros HL HB H0 Hw. destruct (mc_b M) as [|b0 rest] eqn:EB; [congruence|].
  destruct (c30_lemma E rnd D O0 tr H) as (_ & C2 & C3 & _).
  destruct (NewMultiClass_inv E rnd D O0 tr H) as (_ & _ & _ & _ & _ & Ept & _ & Hne & _).
  assert (Hnl : (0 < nl)%nat) by (unfold ClassLabels; destruct (mc_labels M); [congruence|simpl; lia]).
  destruct (rawScores_ok M row b0 rest EB) as [out Ho].
  - intros ens He. rewrite (C3 b0 rest EB). apply C2. auto.
  - intros ens t He Ht. eapply trained_trees_total; eauto.
  - destruct (rawScores_spec M row out Ho) as (b0' & rest' & EB' & HLo & _). assert (b0' = b0) by congruence. subst b0'.
    rewrite (C3 b0 rest EB) in HLo.
    destruct (softmax_row E nl out Hnl HLo) as (D' & HD & HDL & HS).
    assert (HP : PredictMC M row bufs = Ok (d_data D', bufs)).
    { unfold PredictMC. rewrite Ho. cbn [bind]. apply bind_Ok in HD as (O1 & HO1 & HD). apply bind_Ok in HD as (D1 & HD1 & HD).
      rewrite HO1. cbn [bind]. rewrite HD1. cbn [bind]. rewrite Ept, HD. reflexivity. }
    destruct (argmax_spec (d_data D')) as (k & Hk & Hr & _).
    { intros Hn. rewrite Hn in HDL. simpl in HDL. lia. }
    exists (d_data D'), k. split; auto. split; auto. split; [|lia]. unfold PredictSingleClass. rewrite HP. cbn [bind]. rewrite Hk. reflexivity.
Qed.

Lemma c36_trained row bufs k bufs' : PredictSingleClass M row bufs = Ok (k, bufs') -> 0 <= k < Z.of_nat nl.
Proof.
  unfold PredictSingleClass. intros HP. apply bind_Ok in HP as ([preds b] & HP & HQ). apply bind_Ok in HQ as (p & Hp & HQ). injection HQ as <- <-.
  apply PredictMC_inv in HP as (_ & HL & _). destruct (argmax_spec preds) as (k & Hk & Hr & _).
  - intros Hn. subst preds. discriminate Hp.
  - assert (k = p) by congruence. subst k. lia.
Qed.
End TrainedPredict.

Lemma c36_lemma M row bufs k bufs' : PredictSingleClass M row bufs = Ok (k, bufs') -> exists preds,
  PredictMC M row bufs = Ok (preds, bufs') /\ 0 <= k < Z.of_nat (length preds) /\
  ((forall x, In x preds -> fnanb x = false) -> firstMax preds k) /\ (forall x, nth_error preds 0 = Some x -> fnanb x = true -> k = 0).
Proof.
  unfold PredictSingleClass. intros HP. apply bind_Ok in HP as ([preds b] & HP & HQ). apply bind_Ok in HQ as (p & Hp & HQ). injection HQ as <- <-.
  exists preds. split; auto. destruct (argmax_spec preds) as (k & Hk & Hr).
  - intros Hn. subst preds. discriminate Hp.
  - assert (k = p) by congruence. subst k. auto.
Qed.

Lemma F2_length {A B} (P : A -> B -> Prop) l l' : Forall2 P l l' -> length l = length l'.
Proof. induction 1; simpl; congruence. Qed.

Lemma F2_impl {A B} (P Q : A -> B -> Prop) l l' : (forall a b, P a b -> Q a b) -> Forall2 P l l' -> Forall2 Q l l'.
Proof. intros HI. induction 1; constructor; auto. Qed.

(** *** C37 *)
Definition agree (p : Z * Z) : bool := fst p =? snd p.
Lemma skipn_nth {A} (l : list A) n x : nth_error l n = Some x -> skipn n l = x :: skipn (S n) l.
Proof. revert n; induction l as [|y l IH]; intros [|n] H; simpl in *; try discriminate; [congruence|auto]. Qed.
Lemma countRight_spec M rows actual : forall i right out, 0 <= i -> countRight M rows actual i right = Ok out ->
  exists ps, Forall2 (predictsLabel M) rows ps /\ (Z.to_nat i + length rows <= Nat.max (Z.to_nat i) (length actual))%nat /\
  out = right + Z.of_nat (length (filter agree (combine ps (skipn (Z.to_nat i) actual)))).
Proof.
  induction rows as [|v rows IH]; intros i right out Hi H; cbn [countRight] in H.
  - injection H as <-. exists []. split; [constructor|]. simpl. split; lia.
  - apply bind_Ok in H as ([p b] & Hp & H). apply bind_Ok in H as (lab & Hl & H). apply bind_Ok in H as (act & Ha & H).
    apply IH in H as (ps & HF & HL & ->); [|lia]. apply idx_Ok in Hl as [Hp0 Hl]. apply idx_Ok in Ha as [_ Ha].
    assert (Hia : (Z.to_nat i < length actual)%nat) by (apply nth_error_Some; congruence).
    exists (lab :: ps). split; [|split].
    + constructor; auto. exists p, [[]], b. split; auto. split; auto.
    + cbn [length]. lia.
    + rewrite (skipn_nth _ _ _ Ha). cbn [combine filter]. replace (Z.to_nat (i + 1)) with (S (Z.to_nat i)) by lia.
      unfold agree at 2. cbn [fst snd]. destruct (lab =? act); cbn [length]; lia.
Qed.
Lemma PredictMC_bufs M row b b' : 
  match PredictMC M row b, PredictMC M row b' with
  | Ok (p, c), Ok (p', c') => p = p' /\ c = b /\ c' = b'
  | Panic, Panic => True | Diverge, Diverge => True | _, _ => False end.
Proof.
  unfold PredictMC. destruct (rawScores M row) as [tmp| |]; cbn [bind]; auto.
  destruct (NewDense 1 (length tmp) tmp); cbn [bind]; auto.
  destruct (NewDense 1 (length tmp) (repeat fzero (length tmp))); cbn [bind]; auto.
  destruct (mc_pt M); auto. destruct (r _ _); cbn [bind]; auto.
Qed.
Lemma PredictSingleClass_bufs M row b b' :
  match PredictSingleClass M row b, PredictSingleClass M row b' with
  | Ok (p, c), Ok (p', c') => p = p' /\ c = b /\ c' = b'
  | Panic, Panic => True | Diverge, Diverge => True | _, _ => False end.
Proof.
  unfold PredictSingleClass. pose proof (PredictMC_bufs M row b b') as H.
  destruct (PredictMC M row b) as [[p c]| |], (PredictMC M row b') as [[p' c']| |]; try contradiction; cbn [bind]; auto.
  destruct H as (-> & -> & ->). destruct (argmax p'); cbn [bind]; auto.
Qed.

Lemma percent_range r n : (0 <= r <= n)%Z -> (0 < n < 2 ^ 63)%Z ->
  let a := fmul (fofZ 100) (fdiv (fofZ r) (fofZ n)) in fleb fzero a = true /\ fleb a (fofZ 100) = true.
Proof.
  intros Hr Hn. cbv zeta.
  destruct (fofZ_bound r 63) as (Fr & [Br0 Br1] & Er); [lia|lia|lia|].
  destruct (fofZ_bound n 63) as (Fn & [Bn0 Bn1] & En); [lia|lia|lia|].
  destruct (fofZ_bound 100 63) as (F1 & [B10 B11] & E1); [lia|lia|lia|].
  assert (Hle : (B2R (fofZ r) <= B2R (fofZ n))%R) by (rewrite Er, En; apply rnd_mono, IZR_le; lia).
  assert (Hpos : (1 <= B2R (fofZ n))%R) by (rewrite En, <- rnd_1; apply rnd_mono, IZR_le; lia).
  destruct (fdiv_ext (fofZ r) (fofZ n) Fr Fn ltac:(lra)) as [Nq Eq].
  assert (Hq : (0 <= rnd (B2R (fofZ r) / B2R (fofZ n)) <= 1)%R).
  { split.
    - apply rnd_ge_0. apply Rmult_le_pos; [lra|]. apply Rlt_le, Rinv_0_lt_compat. lra.
    - apply Rle_trans with (rnd 1); [|rewrite rnd_1; lra]. apply rnd_mono. apply Rmult_le_reg_r with (B2R (fofZ n)); [lra|]. unfold Rdiv. rewrite Rmult_assoc, Rinv_l; lra. }
  assert (HM : (1 < Mx)%R) by (unfold Mx; change 1%R with (bpow radix2 0); apply bpow_lt; lia).
  rewrite clamp_id in Eq by lra.
  assert (Fq : ffinite (fdiv (fofZ r) (fofZ n)) = true) by (apply finite_ext; auto; rewrite Eq; lra).
  rewrite ext_finite in Eq by auto.
  destruct (fmul_ext (fofZ 100) (fdiv (fofZ r) (fofZ n)) F1 Fq) as [Na Ea]. rewrite Eq in Ea.
  set (q := rnd (B2R (fofZ r) / B2R (fofZ n))) in *.
  assert (Ha : (0 <= rnd (B2R (fofZ 100) * q) <= B2R (fofZ 100))%R).
  { split; [apply rnd_ge_0, Rmult_le_pos; lra|]. rewrite <- (rnd_B2R (fofZ 100)) at 2. apply rnd_mono.
    rewrite <- (Rmult_1_r (B2R (fofZ 100))) at 2. apply Rmult_le_compat_l; lra. }
  pose proof (B2R_bounds (fofZ 100)).
  rewrite clamp_id in Ea by lra. split; apply fleb_true.
  - rewrite ext_fzero, Ea. split; [reflexivity|]. split; [auto|lra].
  - rewrite Ea, ext_finite by auto. split; [auto|]. split; [apply finite_nnan; auto|lra].
Qed.

Lemma c37_lemma {K} M (D : DataBunch K) a : Accuracy M D = Ok a -> exists ps,
  Forall2 (predictsLabel M) (Data D) ps /\ (length (Data D) <= length (Labels D))%nat /\
  let right := Z.of_nat (length (filter (fun p => fst p =? snd p) (combine ps (Labels D)))) in
  a = fmul (fofZ 100) (fdiv (fofZ right) (fofZ (Z.of_nat (length (Data D))))) /\
  (Data D = [] -> fnanb a = true) /\
  (Data D <> [] -> Z.of_nat (length (Data D)) < 2 ^ 63 -> fleb fzero a = true /\ fleb a (fofZ 100) = true).
Proof.
  unfold Accuracy. intros H. apply bind_Ok in H as (r & Hr & H). injection H as <-.
  apply countRight_spec in Hr as (ps & HF & HL & ->); [|lia]. exists ps. split; auto. simpl in HL. split; [lia|]. cbv zeta.
  change (skipn (Z.to_nat 0) (Labels D)) with (Labels D). rewrite Z.add_0_l. split; [reflexivity|]. split.
  - intros HD. rewrite HD in HF |- *. inversion HF. subst. vm_compute. reflexivity.
  - intros HD Hlt. apply percent_range.
    + split; [lia|]. apply Nat2Z.inj_le. etransitivity; [apply filter_le|]. rewrite combine_length.
      rewrite <- (F2_length _ _ _ HF). lia.
    + split; [|auto]. destruct (Data D); [congruence|]. cbn [length]. lia.
Qed.

(** *** C39 *)
Lemma mapM_Forall2 {A B} (f : A -> res B) l out : mapM f l = Ok out <-> Forall2 (fun a b => f a = Ok b) l out.
Proof.
  revert out; induction l as [|a l IH]; intros out; simpl.
  - split; [intros [= <-]; constructor|]. inversion 1. auto.
  - split.
    + intros H. apply bind_Ok in H as (b & Hb & H). apply bind_Ok in H as (bs & Hbs & H). injection H as <-. constructor; auto. apply IH; auto.
    + inversion 1 as [|x b l' bs Hb HF]; subst. rewrite Hb. simpl. rewrite (proj2 (IH bs) HF). auto.
Qed.
Lemma Forall2_seq {B} (P : nat -> B -> Prop) n : (forall i, (i < n)%nat -> exists b, P i b) -> exists l, Forall2 P (seq 0 n) l.
Proof.
  intros H. assert (HG : forall k s, (s + k <= n)%nat -> exists l, Forall2 P (seq s k) l).
  { induction k as [|k IH]; intros s Hs; simpl; [exists []; constructor|].
    destruct (H s) as [b Hb]; [lia|]. destruct (IH (S s)) as [l Hl]; [lia|]. exists (b :: l). constructor; auto. }
  apply HG. lia.
Qed.
Lemma Forall2_seq_nth {B} (P : nat -> B -> Prop) n l : Forall2 P (seq 0 n) l -> forall i b, nth_error l i = Some b -> P i b.
Proof.
  intros HF. assert (HG : forall k s l, Forall2 P (seq s k) l -> forall i b, nth_error l i = Some b -> P (s + i)%nat b).
  { induction k as [|k IH]; intros s l' HF' i b Hb; simpl in HF'; inversion HF' as [|x y a c H1 H2]; subst.
    - destruct i; discriminate.
    - destruct i as [|i]; simpl in Hb; [injection Hb as <-; rewrite Nat.add_0_r; auto|].
      replace (s + S i)%nat with (S s + i)%nat by lia. eauto. }
  intros i b Hb. apply (HG n 0%nat l HF i b Hb).
Qed.

Lemma c39_lemma P : wfDense P -> (forall x, In x (d_data P) -> fnanb x = false) ->
  exists D, ClassesFromProbs P = Ok D /\ d_r D = d_r P /\ d_c D = 1%nat /\
  forall i, (i < d_r P)%nat -> exists k, entry D i 0 (fofZ k) /\ firstMax (rowView P i) k.
Proof.
  intros HW Hn. pose proof HW as (Hr & Hc & HL).
  destruct (Forall2_seq (fun i b => exists k, argmax (rowView P i) = Ok k /\ b = fofZ k /\ firstMax (rowView P i) k) (d_r P)) as [l Hl].
  { intros i Hi. pose proof (rowView_len P i Hi HL) as HLr. destruct (argmax_spec (rowView P i)) as (k & Hk & _ & HF & _).
    - intros HX. rewrite HX in HLr. simpl in HLr. lia.
    - exists (fofZ k), k. split; auto. split; auto. apply HF. intros x Hx. apply Hn. unfold rowView in Hx.
      assert (HIn : forall n (q : list f64), In x (firstn n q) -> In x q).
      { intros n q Hq. rewrite <- (firstn_skipn n q). apply in_app_iff. auto. }
      apply HIn in Hx. rewrite <- (firstn_skipn (i * d_c P) (d_data P)). apply in_app_iff. auto. }
  assert (HM : mapM (fun i => bind (argmax (rowView P i)) (fun a => Ok (fofZ a))) (seq 0 (d_r P)) = Ok l).
  { apply mapM_Forall2. eapply F2_impl; [|exact Hl]. intros i b (k & Hk & -> & _). simpl. rewrite Hk. reflexivity. }
  exists (Dense (d_r P) 1 l). unfold ClassesFromProbs. rewrite HM. cbn [bind].
  assert (HLl : length l = d_r P) by (rewrite <- (F2_length _ _ _ Hl); apply seq_length).
  split; [|split; [reflexivity|split; [reflexivity|]]].
  - unfold NewDense. destruct (Nat.eqb_spec (d_r P) 0) as [|_]; [lia|]. cbn [Nat.eqb orb]. rewrite HLl, Nat.mul_1_r, Nat.eqb_refl. auto.
  - intros i Hi. destruct (nth_error l i) as [b|] eqn:Eb; [|apply nth_error_None in Eb; lia].
    destruct (Forall2_seq_nth _ _ _ Hl i b Eb) as (k & Hk & -> & HF). exists k. split; auto. split; [simpl; lia|].
    cbn [d_data d_c]. rewrite Nat.mul_1_r, Nat.add_0_r. auto.
Qed.

(** *** C40 *)
Lemma c40_real s v : (0 < v < s)%R -> let e : R := logOddsEntry RN ln s v in
  e = ln (v * (s - v)) /\ (e = ln (v / (s - v)) <-> (s - v = 1)%R).
Proof.
  intros [H1 H2]. unfold logOddsEntry. cbn [RN nmul nsub carrier]. cbv zeta. split; [reflexivity|]. split.
  - intros He. apply ln_inv in He; [|nra|apply Rdiv_lt_0_compat; lra].
    assert (Hv : (v * (s - v) * (s - v) = v)%R) by (rewrite He; field; lra).
    assert (H0 : (v * (((s - v) - 1) * ((s - v) + 1)) = 0)%R) by lra.
    apply Rmult_integral in H0 as [H0|H0]; [lra|]. apply Rmult_integral in H0 as [H0|H0]; lra.
  - intros Hs. rewrite Hs. f_equal. field.
Qed.
Lemma map_seq_concat {A} (f : nat -> list A) c n : (forall i, (i < n)%nat -> length (f i) = c) -> length (concat (map f (seq 0 n))) = (n * c)%nat /\
  forall i j, (i < n)%nat -> (j < c)%nat -> nth_error (concat (map f (seq 0 n))) (i * c + j) = nth_error (f i) j.
Proof.
  induction n as [|n IH]; intros H; [split; [reflexivity|intros; lia]|].
  rewrite seq_S, map_app, concat_app. simpl. rewrite app_nil_r. destruct IH as [IH1 IH2]; [intros; apply H; lia|]. split.
  - rewrite app_length, IH1, H by lia. lia.
  - intros i j Hi Hj. destruct (Nat.eq_dec i n) as [->|Hne].
    + rewrite nth_error_app2 by lia. rewrite IH1. f_equal. lia.
    + rewrite nth_error_app1 by (rewrite IH1; nia). apply IH2; lia.
Qed.
Lemma c40_float E P : wfDense P -> exists D, LogOddsFromProbs E P = Ok D /\ d_r D = d_r P /\ d_c D = d_c P /\
  forall i j v, entry P i j v -> (i < d_r P)%nat -> entry D i j (e_log E (fmul v (fsub (e_sum E (rowView P i)) v))).
Proof.
  intros HW. pose proof HW as (Hr & Hc & HL).
  set (f := (fun i => map (fun v : f64 => e_log E (fmul v (fsub (e_sum E (rowView P i)) v))) (rowView P i)) : nat -> list f64).
  assert (HE : LogOddsFromProbs E P = NewDense (d_r P) (d_c P) (concat (map f (seq 0 (d_r P))))) by reflexivity.
  rewrite HE. clear HE.
  destruct (map_seq_concat f (d_c P) (d_r P)) as [H1 H2].
  { intros i Hi. unfold f. rewrite map_length. apply rowView_len; auto. }
  exists (Dense (d_r P) (d_c P) (concat (map f (seq 0 (d_r P))))). split; [|split; [reflexivity|split; [reflexivity|]]].
  - unfold NewDense. destruct (Nat.eqb_spec (d_r P) 0) as [|_]; [lia|]. destruct (Nat.eqb_spec (d_c P) 0) as [|_]; [lia|]. cbn [orb].
    rewrite H1, Nat.eqb_refl. reflexivity.
  - intros i j v He Hi. pose proof He as [Hj _]. split; [exact Hj|]. cbn [d_data d_c]. rewrite H2 by auto. unfold f.
    apply rowView_entry in He; auto. rewrite nth_error_map, He. reflexivity.
Qed.
