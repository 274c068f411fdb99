(** A regression tree without depth limit separates all different rows (proof support for C119). *)
From Coq Require Import Reals Lra.
From Flocq Require Import Core.
From Verif Require Import Base F64 F64Lemmas Env EnvLemmas Utils Tree Spec UtilsProofs TreeProofs TreeSplit TreeMid TreeThms Options Train SpecTot NumErr TrainMore SpecFit.
Open Scope R_scope.

(** ** magnitudes *)
Definition within (B : R) (x : f64) : Prop := ffinite x = true /\ Rabs (B2R x) <= B.
Definition level (B : R) : Prop := rnd B = B /\ 0 <= B < Mx.
Lemma within_ext B (x : f64) r : level B -> fnanb x = false -> ext x = clamp (rnd r) -> Rabs r <= B -> within B x.
Proof.
  intros [HB [HB0 HM]] Hn He Hr. assert (HR : - B <= rnd r <= B).
  { apply Rabs_le_inv in Hr. rewrite <- HB. rewrite <- rnd_opp. split; apply rnd_mono; lra. }
  rewrite clamp_id in He by lra. assert (Hf : ffinite x = true) by (apply finite_ext; [auto|rewrite He; lra]).
  split; [auto|]. rewrite ext_finite in He by auto. rewrite He. apply Rabs_le. lra.
Qed.
Lemma within_add B a b : level B -> ffinite a = true -> ffinite b = true -> Rabs (B2R a + B2R b) <= B -> within B (fadd a b).
Proof. intros L Fa Fb H. destruct (fadd_ext a b Fa Fb) as [H1 H2]. eapply within_ext; eauto. Qed.
Lemma within_sub B a b : level B -> ffinite a = true -> ffinite b = true -> Rabs (B2R a - B2R b) <= B -> within B (fsub a b).
Proof. intros L Fa Fb H. destruct (fsub_ext a b Fa Fb) as [H1 H2]. eapply within_ext; eauto. Qed.
Lemma within_mul B a b : level B -> ffinite a = true -> ffinite b = true -> Rabs (B2R a * B2R b) <= B -> within B (fmul a b).
Proof. intros L Fa Fb H. destruct (fmul_ext a b Fa Fb) as [H1 H2]. eapply within_ext; eauto. Qed.
Lemma within_div B a b : level B -> ffinite a = true -> ffinite b = true -> B2R b <> 0 -> Rabs (B2R a / B2R b) <= B -> within B (fdiv a b).
Proof. intros L Fa Fb Hb H. destruct (fdiv_ext a b Fa Fb Hb) as [H1 H2]. eapply within_ext; eauto. Qed.
Lemma within_opp B a : within B a -> within B (fopp a).
Proof. intros [H1 H2]. split; [rewrite ffinite_opp; auto|]. unfold fopp. rewrite B2R_Bopp, Rabs_Ropp. auto. Qed.
Lemma level_pow m e : (0 <= m < 2 ^ 53)%Z -> (-1000 <= e <= 970)%Z -> level (IZR m * bpow radix2 e).
Proof.
  intros Hm He. assert (HI : IZR m <= bpow radix2 53) by (change (bpow radix2 53) with (IZR (2 ^ 53)); apply IZR_le; lia).
  assert (H0 : 0 <= IZR m) by (apply IZR_le; lia). pose proof (bpow_gt_0 radix2 e) as Hp. pose proof (bpow_le radix2 e 970 ltac:(lia)) as Hq. split.
  - apply round_generic; [apply valid_rnd_N|]. apply (generic_format_FLT radix2 (-1074) 53). exists (Float radix2 m e); simpl; auto; [|lia]. rewrite Z.abs_eq by lia. lia.
  - split; [apply Rmult_le_pos; lra|]. apply Rle_lt_trans with (bpow radix2 53 * bpow radix2 970); [apply Rmult_le_compat; lra|].
    rewrite <- bpow_plus. apply bpow_lt. lia.
Qed.

(** sums of numbers that are at most 2^400 *)
Local Notation U := (bpow radix2 400).
Definition bd (m : Z) (x : f64) : Prop := within (IZR m * U) x.
Lemma U_pos : 0 < U. Proof. apply bpow_gt_0. Qed.
Lemma bd_mono m k x : (m <= k)%Z -> bd m x -> bd k x.
Proof. intros H [H1 H2]. split; [auto|]. pose proof U_pos. apply IZR_le in H. nra. Qed.
Lemma bd_add m k a b : (0 <= m)%Z -> (0 <= k)%Z -> (m + k < 2 ^ 53)%Z -> bd m a -> bd k b -> bd (m + k) (fadd a b).
Proof.
  intros Hm Hk H [A1 A2] [B1 B2]. apply within_add; auto; [apply level_pow; lia|]. rewrite plus_IZR. eapply Rle_trans; [apply Rabs_triang|]. lra.
Qed.
Lemma bd_sub m k a b : (0 <= m)%Z -> (0 <= k)%Z -> (m + k < 2 ^ 53)%Z -> bd m a -> bd k b -> bd (m + k) (fsub a b).
Proof.
  intros Hm Hk H [A1 A2] [B1 B2]. apply within_sub; auto; [apply level_pow; lia|]. rewrite plus_IZR. unfold Rminus. eapply Rle_trans; [apply Rabs_triang|]. rewrite Rabs_Ropp. lra.
Qed.
Lemma bd_zero : bd 0 fzero.
Proof. split; [reflexivity|]. simpl (B2R fzero). rewrite Rabs_R0. lra. Qed.
Lemma bd_sum l s : is_sum l s -> (forall x, In x l -> bd 1 x) -> (Z.of_nat (length l) < 2 ^ 53)%Z -> bd (Z.of_nat (length l)) s.
Proof.
  induction 1 as [|x|l1 l2 a b H1 IH1 H2 IH2|l1 l2 a HP H IH]; intros Hb Hl.
  - apply bd_zero.
  - apply Hb. left; auto.
  - rewrite app_length in Hl |- *. rewrite Nat2Z.inj_add. apply bd_add; try lia.
    + apply IH1; [intros x Hx; apply Hb, in_or_app; auto|lia].
    + apply IH2; [intros x Hx; apply Hb, in_or_app; auto|lia].
  - rewrite <- (Permutation_length HP) in Hl |- *. apply IH; auto. intros x Hx. apply Hb. eapply Permutation_in; eauto.
Qed.
Lemma bd_fold_add l : forall m a, (0 <= m)%Z -> (m + Z.of_nat (length l) < 2 ^ 53)%Z -> bd m a -> (forall x, In x l -> bd 1 x) -> bd (m + Z.of_nat (length l)) (fold_left fadd l a).
Proof.
  induction l as [|x l IH]; intros m a Hm Hl Ha Hx; cbn [fold_left length] in *; [rewrite Z.add_0_r; auto|].
  rewrite Nat2Z.inj_succ in *. replace (m + Z.succ (Z.of_nat (length l)))%Z with (m + 1 + Z.of_nat (length l))%Z by lia.
  apply IH; [lia|lia| |intros; apply Hx; right; auto]. apply bd_add; [lia|lia|lia|auto|apply Hx; left; auto].
Qed.
Lemma bd_fold_sub l : forall m a, (0 <= m)%Z -> (m + Z.of_nat (length l) < 2 ^ 53)%Z -> bd m a -> (forall x, In x l -> bd 1 x) -> bd (m + Z.of_nat (length l)) (fold_left fsub l a).
Proof.
  induction l as [|x l IH]; intros m a Hm Hl Ha Hx; cbn [fold_left length] in *; [rewrite Z.add_0_r; auto|].
  rewrite Nat2Z.inj_succ in *. replace (m + Z.succ (Z.of_nat (length l)))%Z with (m + 1 + Z.of_nat (length l))%Z by lia.
  apply IH; [lia|lia| |intros; apply Hx; right; auto]. apply bd_sub; [lia|lia|lia|auto|apply Hx; left; auto].
Qed.
(** the term y*y/k of a score *)
Local Notation Q := (bpow radix2 910).
Lemma level_Q m : (0 <= m < 2 ^ 53)%Z -> level (IZR m * Q).
Proof. intros H. apply level_pow; lia. Qed.
Lemma square_within m a : (0 <= m < 2 ^ 53)%Z -> bd m a -> within Q (fmul a a).
Proof.
  intros Hm [F H]. apply within_mul; auto.
  - pose proof (level_Q 1 ltac:(lia)) as HL. rewrite Rmult_1_l in HL. exact HL.
  - rewrite Rabs_mult. assert (HI : IZR m <= bpow radix2 53) by (change (bpow radix2 53) with (IZR (2 ^ 53)); apply IZR_le; lia).
    assert (H3 : Rabs (B2R a) <= bpow radix2 453).
    { eapply Rle_trans; [exact H|]. apply Rle_trans with (bpow radix2 53 * U); [apply Rmult_le_compat_r; [apply bpow_ge_0|lra]|]. rewrite <- bpow_plus. apply bpow_le. lia. }
    pose proof (Rabs_pos (B2R a)). apply Rle_trans with (bpow radix2 453 * bpow radix2 453); [apply Rmult_le_compat; auto|]. rewrite <- bpow_plus. apply bpow_le. lia.
Qed.
Lemma quot_within k a : (0 < k < 2 ^ 53)%Z -> within Q a -> within Q (fdiv a (fofZ k)).
Proof.
  intros Hk [F H]. destruct (fofZ_exact50 k ltac:(lia)) as [K1 K2]. assert (HK : 1 <= IZR k) by (apply IZR_le; lia). apply within_div; auto.
  - pose proof (level_Q 1 ltac:(lia)) as HL. rewrite Rmult_1_l in HL. exact HL.
  - rewrite K2. lra.
  - rewrite K2. unfold Rdiv. rewrite Rabs_mult. rewrite (Rabs_pos_eq (/ IZR k)) by (left; apply Rinv_0_lt_compat; lra).
    assert (/ IZR k <= 1) by (rewrite <- Rinv_1; apply Rinv_le_contravar; lra). pose proof (Rabs_pos (B2R a)).
    apply Rle_trans with (Rabs (B2R a) * 1); [|lra]. apply Rmult_le_compat_l; auto.
Qed.
Lemma score_finite a b c ka kb kc m : (0 <= m < 2 ^ 53)%Z -> bd m a -> bd m b -> bd m c -> (0 < ka < 2 ^ 53)%Z -> (0 < kb < 2 ^ 53)%Z -> (0 < kc < 2 ^ 53)%Z ->
  ffinite (fadd (fsub (fdiv (fopp (fmul a a)) (fofZ ka)) (fdiv (fmul b b) (fofZ kb))) (fdiv (fmul c c) (fofZ kc))) = true.
Proof.
  intros Hm Ha Hb Hc Hka Hkb Hkc.
  pose proof (quot_within _ _ Hka (within_opp _ _ (square_within _ _ Hm Ha))) as [A1 A2].
  pose proof (quot_within _ _ Hkb (square_within _ _ Hm Hb)) as [B1 B2].
  pose proof (quot_within _ _ Hkc (square_within _ _ Hm Hc)) as [C1 C2].
  assert (HS : within (IZR 2 * Q) (fsub (fdiv (fopp (fmul a a)) (fofZ ka)) (fdiv (fmul b b) (fofZ kb)))).
  { apply within_sub; auto; [apply level_Q; lia|]. unfold Rminus. eapply Rle_trans; [apply Rabs_triang|]. rewrite Rabs_Ropp. lra. }
  destruct HS as [S1 S2].
  assert (HT : within (IZR 3 * Q) (fadd (fsub (fdiv (fopp (fmul a a)) (fofZ ka)) (fdiv (fmul b b) (fofZ kb))) (fdiv (fmul c c) (fofZ kc)))).
  { apply within_add; auto; [apply level_Q; lia|]. eapply Rle_trans; [apply Rabs_triang|]. lra. }
  apply HT.
Qed.

(** ** a column with two different values has an admissible candidate *)
Lemma neighbours_differ (l : list f64) : (forall x, In x l -> fnanb x = false) ->
  (exists k a b, nth_error l k = Some a /\ nth_error l (S k) = Some b /\ feqb a b = false) \/ (forall x y, In x l -> In y l -> feqb x y = true).
Proof.
  induction l as [|x [|y t] IH]; intros HN.
  - right. intros x y [].
  - right. intros a b [<-|[]] [<-|[]]. apply feqb_true. repeat split; apply HN; left; auto.
  - destruct (feqb x y) eqn:E1.
    + destruct IH as [(k & a & b & H1 & H2 & H3)|IH]; [intros; apply HN; right; auto| |].
      * left. exists (S k), a, b. auto.
      * right. assert (HY : forall z, In z (x :: y :: t) -> feqb y z = true).
        { intros z [<-|Hz]; [|apply IH; [left; auto|auto]]. apply feqb_true in E1 as (? & ? & ?). apply feqb_true. auto. }
        intros a b Ha Hb. apply HY, feqb_true in Ha as (? & ? & Ha). apply HY, feqb_true in Hb as (? & ? & Hb). apply feqb_true. repeat split; auto. congruence.
    + left. exists 0%nat, x, y. auto.
Qed.

Lemma is_sum_short l s : is_sum l s -> forall y, ffinite y = true -> l = [] \/ l = [y] ->
  ffinite s = true /\ B2R s = match l with [] => 0 | _ => B2R y end.
Proof.
  induction 1 as [|x|l1 l2 a b H1 IH1 H2 IH2|l1 l2 a HP H IH]; intros y Fy Hl.
  - split; reflexivity.
  - destruct Hl as [Hl|Hl]; [discriminate|]. injection Hl as ->. auto.
  - assert (HC : (l1 = [] \/ l1 = [y]) /\ (l2 = [] \/ l2 = [y]) /\ (l1 = [] \/ l2 = [])).
    { destruct l1 as [|p1 [|q1 l1]]; destruct l2 as [|p2 [|q2 l2]]; cbn [app] in Hl; destruct Hl as [Hl|Hl]; try discriminate; try (injection Hl as -> ); auto. }
    destruct HC as (C1 & C2 & C3). destruct (IH1 y Fy C1) as [Fa Ba]. destruct (IH2 y Fy C2) as [Fb Bb].
    assert (HB : B2R a + B2R b = match l1 ++ l2 with [] => 0 | _ => B2R y end).
    { rewrite Ba, Bb. destruct C3 as [-> | ->]; cbn [app]; rewrite ?app_nil_r; lra. }
    destruct (fadd_ext a b Fa Fb) as [N1 N2]. rewrite HB in N2.
    assert (HR : clamp (rnd match l1 ++ l2 with [] => 0 | _ => B2R y end) = match l1 ++ l2 with [] => 0 | _ => B2R y end).
    { destruct (l1 ++ l2); [rewrite rnd_0|rewrite rnd_B2R]; apply clamp_id; [pose proof Mx_pos; lra|pose proof (B2R_bounds y); lra]. }
    rewrite HR in N2. assert (HF : ffinite (fadd a b) = true).
    { apply finite_ext; [exact N1|]. rewrite N2. destruct (l1 ++ l2); [pose proof Mx_pos; lra|apply B2R_bounds]. }
    split; [exact HF|]. rewrite <- N2. symmetry. apply ext_finite. exact HF.
  - assert (l1 = l2).
    { destruct Hl as [->| ->]; [apply Permutation_sym, Permutation_nil in HP; auto|apply Permutation_sym, Permutation_length_1_inv in HP; auto]. }
    subst l2. apply IH; auto.
Qed.

Lemma NoDup_parts {A} (l1 l2 : list A) : NoDup (l1 ++ l2) -> NoDup l1 /\ NoDup l2.
Proof.
  induction l1 as [|x l1 IH]; cbn [app]; intros H; [split; [constructor|auto]|]. inversion H as [|? ? H1 H2]; subst. destruct (IH H2) as [H3 H4].
  split; [constructor; auto|auto]. intros Hx. apply H1. apply in_or_app. auto.
Qed.
Section Mem.
Context (E : Env) (HE : EnvOk E) (X : list (list f64)) (HG : goodTable X).

Definition targetsOk (ys : list f64) : Prop := forall y, In y ys -> moderate y.

Lemma candidate_exists o ix f i j a b : to_xgb o = false -> targetsOk (to_y o) -> (ftoZ (to_mcw o) <= 1)%Z -> (Z.of_nat (length ix) < 2 ^ 51)%Z ->
  (forall z, In z ix -> exists v, cell X z f v) -> (forall z, In z ix -> exists y, look (to_y o) z y) ->
  In i ix -> In j ix -> cell X i f a -> cell X j f b -> feqb a b = false ->
  exists k sc thr, candidate E X o ix f k sc thr /\ ffinite sc = true.
Proof.
  intros Hx HT Hm HL HCx HYx Hi Hj Ca Cb Hab.
  assert (HC : exists col, Forall2 (fun j v => cell X j f v) ix col).
  { clear -HCx. induction ix as [|z ix IH]; [exists []; constructor|]. destruct IH as [col Hc]; [intros; apply HCx; right; auto|].
    destruct (HCx z ltac:(left; auto)) as [v Hv]. exists (v :: col). constructor; auto. }
  destruct HC as [col HC].
  assert (HY : exists y, Forall2 (look (to_y o)) ix y).
  { clear -HYx. induction ix as [|z ix IH]; [exists []; constructor|]. destruct IH as [col Hc]; [intros; apply HYx; right; auto|].
    destruct (HYx z ltac:(left; auto)) as [v Hv]. exists (v :: col). constructor; auto. }
  destruct HY as [y HY].
  pose proof (Forall2_len _ _ _ HC) as LC. pose proof (Forall2_len _ _ _ HY) as LY.
  assert (HN : forall v, In v col -> fnanb v = false).
  { intros v Hv. apply In_nth_error in Hv as [k Hk]. destruct (Forall2_nth2 _ _ _ HC _ _ Hk) as (z & _ & Hc). eapply (gt_nan X HG); eauto. }
  pose proof (ArgSort_perm_vals E HE col) as HP. pose proof (ArgSort_len E HE col) as [Lp Lx]. pose proof (ArgSort_perm E HE col) as HPi.
  assert (HIn : forall z v, In z ix -> cell X z f v -> In v (snd (ArgSort E col))).
  { intros z v Hz Hv. eapply Permutation_in; [exact HP|]. apply In_nth_error in Hz as [k Hk]. destruct (Forall2_nth1 _ _ _ HC _ _ Hk) as (v' & Hv' & Hc).
    assert (v' = v) by (eapply cell_fun; eauto). subst. eapply nth_error_In; eauto. }
  destruct (neighbours_differ (snd (ArgSort E col))) as [(k & a1 & b1 & K1 & K2 & K3)|HA].
  { intros v Hv. apply HN. eapply Permutation_in; [apply Permutation_sym; exact HP|auto]. }
  2: { rewrite (HA a b) in Hab; [discriminate|exact (HIn i a Hi Ca)|exact (HIn j b Hj Cb)]. }
  assert (HK : (S k < length ix)%nat) by (rewrite LC, <- Lx; apply nth_error_Some; congruence).
  assert (HSY : exists sy, Forall2 (look y) (fst (ArgSort E col)) sy).
  { assert (HR : forall z, In z (fst (ArgSort E col)) -> exists w, look y z w).
    { intros z Hz. eapply Permutation_in in Hz; [|apply Permutation_sym; exact HPi]. apply iota_In in Hz. apply look_ex. lia. }
    clear -HR. induction (fst (ArgSort E col)) as [|z l IH]; [exists []; constructor|]. destruct IH as [sy Hs]; [intros; apply HR; right; auto|].
    destruct (HR z ltac:(left; auto)) as [w Hw]. exists (w :: sy). constructor; auto. }
  destruct HSY as [sy HSY]. pose proof (Forall2_len _ _ _ HSY) as LS.
  assert (HTy : forall v, In v y -> bd 1 v).
  { intros v Hv. apply In_nth_error in Hv as [n Hn]. destruct (Forall2_nth2 _ _ _ HY _ _ Hn) as (z & _ & [_ Hz]). apply nth_error_In in Hz.
    destruct (HT v Hz) as [T1 T2]. split; [auto|]. lra. }
  assert (HTs : forall v, In v sy -> bd 1 v).
  { intros v Hv. apply In_nth_error in Hv as [n Hn]. destruct (Forall2_nth2 _ _ _ HSY _ _ Hn) as (z & _ & [_ Hz]). apply nth_error_In in Hz. auto. }
  exists (S k). eexists. eexists. split.
  - exists col, a1, b1. cbv zeta. split; [exact HC|]. split; [lia|]. split; [replace (S k - 1)%nat with k by lia; exact K1|]. split; [exact K2|]. split; [exact K3|].
    split; [lia|]. split; [lia|]. split; [reflexivity|]. rewrite Hx. exists y, sy. split; [exact HY|]. split; [exact HSY|]. reflexivity.
  - set (n := Z.of_nat (length ix)) in *.
    assert (HF : forall v, In v (firstn (S k) sy) -> bd 1 v) by (intros v Hv; apply HTs; rewrite <- (firstn_skipn (S k) sy); apply in_or_app; auto).
    assert (LF : (Z.of_nat (length (firstn (S k) sy)) <= n)%Z) by (rewrite firstn_length; lia).
    assert (HSum : bd n (e_sum E sy)).
    { apply bd_mono with (m := Z.of_nat (length sy)); [lia|]. apply bd_sum; [apply (ok_sum E HE)|auto|lia]. }
    apply (score_finite _ _ _ _ _ _ (2 * n)); try lia.
    + apply bd_mono with (m := (0 + Z.of_nat (length (firstn (S k) sy)))%Z); [lia|]. apply bd_fold_add; [lia|lia|apply bd_zero|auto].
    + apply bd_mono with (m := (n + Z.of_nat (length (firstn (S k) sy)))%Z); [lia|]. apply bd_fold_sub; [lia|lia|exact HSum|auto].
    + apply bd_mono with (m := n); [lia|exact HSum].
Qed.


Lemma grown_pure n o t : grown E X n o t -> to_xgb o = false -> to_allowed o = [] -> targetsOk (to_y o) -> (ftoZ (to_mcw o) <= 1)%Z ->
  (length (initialSamples X o) <= n)%nat -> initialSamples X o <> [] -> (Z.of_nat (length (initialSamples X o)) < 2 ^ 51)%Z ->
  (forall z, In z (initialSamples X o) -> (0 <= z < Z.of_nat (length X))%Z /\ exists y, look (to_y o) z y) ->
  forall d, In d (leaves t) -> forall i j, In i (samplesOf d) -> In j (samplesOf d) -> sameRow X i j.
Proof.
  induction 1 as [n o value row0 b HV HX HB HL|n o value row0 b col l r HV HX HF HL HC Hl IHl Hr IHr]; intros Hx Ha HT Hm Hlen Hne HL2 HZ d Hd i j Hi Hj.
  - assert (Hn : n <> O). { intros ->. destruct (initialSamples X o); [congruence|]. simpl in Hlen. lia. }
    assert (HGr := grown_leaf E X n o value row0 b HV HX HB HL). destruct (leaf_no_candidate _ HE _ _ _ _ _ _ HGr) as (row1 & R1 & R2); [unfold t_leaf; exact HL|exact Hn|].
    cbn [leaves] in Hd. destruct Hd as [<-|[]]. unfold samplesOf in Hi, Hj. cbn [t_samples] in Hi, Hj.
    intros f x y Cx Cy. destruct (feqb x y) eqn:Exy; [reflexivity|]. exfalso.
    assert (HR1 : forall row, In row X -> length row = length row1).
    { intros row Hr. apply (gt_rect X HG); auto. destruct R1 as [_ R1]. eapply nth_error_In; eauto. }
    assert (Hf : (0 <= f < Z.of_nat (length row1))%Z).
    { destruct Cx as (rw & [_ W1] & W2). apply look_range in W2. rewrite <- (HR1 rw); [auto|eapply nth_error_In; eauto]. }
    destruct (candidate_exists o (initialSamples X o) f i j x y) as (k & sc & thr & K1 & K2); auto.
    + intros z Hz. destruct (HZ z Hz) as [[Z1 Z2] _]. destruct (look_ex X z) as [rw Hrw]; [lia|]. 
      destruct (look_ex rw f) as [v Hv]; [rewrite (HR1 rw); [auto|destruct Hrw as [_ Hrw]; eapply nth_error_In; eauto]|]. exists v, rw. auto.
    + intros z Hz. apply HZ; auto.
    + specialize (R2 f k sc thr). rewrite Hx in R2. cbn [betterScore startScore] in R2. unfold betterScore, startScore in R2.
      assert (HFl : fltb sc finf = true). { apply fltb_true. split; [apply finite_nnan; auto|]. split; [reflexivity|]. rewrite ext_finite by auto. destruct (B2R_bounds sc). exact H0. }
      rewrite R2 in HFl; [discriminate| |exact K1]. split; [exact Hf|left; exact Ha].
  - assert (HGr := grown_split E X n o value row0 b col l r HV HX HF HL HC Hl Hr).
    destruct (chosen_split _ HE _ _ _ _ _ _ HGr) as (row1 & k & R1 & _ & R2 & _); [unfold t_leaf; exact HL|]. cbn [t_split t_best t_thr] in R2.
    destruct (candidate_counts E HE X o _ _ _ _ _ R2) as (a & c & ja & jb & J1 & J2 & Ca & Cb & Lab & Et & K & _ & _ & _ & N1 & N2).
    { intros z v Hz Cv. eapply (gt_nan X HG); eauto. }
    destruct (gt_mid X HG _ _ _ _ _ Ca Cb Lab) as [M1 M2]. rewrite <- Et in M1, M2. specialize (N1 M1). specialize (N2 M2).
    set (ix := initialSamples X o) in *. set (fl := filter (below X (b_split b) (b_thr b)) ix) in *.
    set (fr := filter (fun z => negb (below X (b_split b) (b_thr b) z)) ix) in *.
    assert (HLen : (length fl + length fr = length ix)%nat).
    { pose proof (Permutation_length (filter_split_perm (below X (b_split b) (b_thr b)) ix)) as HPl. rewrite app_length in HPl. unfold fl, fr. lia. }
    destruct (grown_node _ _ _ _ _ Hl) as (dl & ll & lr & ->). destruct (grown_node _ _ _ _ _ Hr) as (dr & rl & rr & ->).
    rewrite leaves_split in Hd. apply in_app_or in Hd as [Hd|Hd].
    + apply (IHl Hx eq_refl HT Hm) with (d := d); auto; change (initialSamples X (childOpts (prepare X o) fl)) with fl.
      * lia.
      * intros H0. rewrite H0 in *. simpl in *. lia.
      * lia.
      * intros z Hz. apply filter_In in Hz as [Hz _]. exact (HZ z Hz).
    + apply (IHr Hx eq_refl HT Hm) with (d := d); auto; change (initialSamples X (childOpts (prepare X o) fr)) with fr.
      * lia.
      * intros H0. rewrite H0 in *. simpl in *. lia.
      * lia.
      * intros z Hz. apply filter_In in Hz as [Hz _]. exact (HZ z Hz).
Qed.

(** equal rows stay together *)
Lemma grown_together n o t : grown E X n o t -> forall i j, In i (initialSamples X o) -> In j (initialSamples X o) -> sameRow X i j ->
  forall d, In d (leaves t) -> In i (samplesOf d) -> In j (samplesOf d).
Proof.
  induction 1 as [n o value row0 b HV HX HB HL|n o value row0 b col l r HV HX HF HL HC Hl IHl Hr IHr]; intros i j Hi Hj HS d Hd Hid.
  - cbn [leaves] in Hd. destruct Hd as [<-|[]]. exact Hj.
  - destruct (column_Ok _ _ _ _ HC) as [_ HC'].
    assert (HCell : forall z, In z (initialSamples X o) -> exists v, cell X z (b_split b) v).
    { intros z Hz. apply In_nth_error in Hz as [m Hm]. destruct (Forall2_nth1 _ _ _ HC' _ _ Hm) as (v & _ & Hv). exists v. exact Hv. }
    assert (HB : below X (b_split b) (b_thr b) i = below X (b_split b) (b_thr b) j).
    { destruct (HCell i Hi) as [vi Ci]. destruct (HCell j Hj) as [vj Cj]. rewrite (cell_below _ _ _ _ _ Ci), (cell_below _ _ _ _ _ Cj).
      pose proof (HS _ _ _ Ci Cj) as HE1. apply feqb_true in HE1 as (N1 & N2 & HE1).
      destruct (fleb vi (b_thr b)) eqn:L1; destruct (fleb vj (b_thr b)) eqn:L2; auto.
      - apply fleb_true in L1 as (_ & NT & L1). assert (fleb vj (b_thr b) = true); [|congruence]. apply fleb_true. repeat split; auto. rewrite <- HE1. exact L1.
      - apply fleb_true in L2 as (_ & NT & L2). assert (fleb vi (b_thr b) = true); [|congruence]. apply fleb_true. repeat split; auto. rewrite HE1. exact L2. }
    assert (HGl := Hl). assert (HGr := Hr).
    destruct (grown_node _ _ _ _ _ Hl) as (dl & ll & lr & ->). destruct (grown_node _ _ _ _ _ Hr) as (dr & rl & rr & ->).
    rewrite leaves_split in Hd. apply in_app_or in Hd as [Hd|Hd]; apply In_nth_error in Hd as [m Hm].
    + pose proof (leaf_sample_in _ _ _ _ _ _ _ _ HGl Hm Hid) as HI. apply filter_In in HI as [_ HI].
      eapply IHl; [| |exact HS|eapply nth_error_In; eauto|exact Hid]; apply filter_In; split; auto; congruence.
    + pose proof (leaf_sample_in _ _ _ _ _ _ _ _ HGr Hm Hid) as HI. apply filter_In in HI as [_ HI].
      eapply IHr; [| |exact HS|eapply nth_error_In; eauto|exact Hid]; apply filter_In; split; auto. rewrite <- HB. exact HI.
Qed.
Lemma leaf_sub t d : In d (leaves t) -> sub (Node d Nil Nil) t.
Proof.
  induction t as [|d0 l IHl r IHr]; cbn [leaves]; [intros []|]. intros H. destruct l as [|dl ll lr]; [destruct r as [|dr rl rr]|].
  - destruct H as [->|[]]. constructor.
  - cbn [leaves app] in H. apply sub_r. apply IHr. exact H.
  - apply in_app_or in H as [H|H]; [apply sub_l; apply IHl; exact H|apply sub_r; apply IHr; exact H].
Qed.

Context (o : TreeOptions) (t : tree) (HT : NewTree E X o = Ok t) (Hx : to_xgb o = false) (Hal : to_allowed o = [])
  (HY : forall y, In y (to_y o) -> moderate y) (Hm : (ftoZ (to_mcw o) <= 1)%Z) (Hne : initialSamples X o <> [])
  (Hdep : (Z.of_nat (length (initialSamples X o)) <= to_maxdepth o)%Z) (Hsz : (Z.of_nat (length (initialSamples X o)) < 2 ^ 51)%Z)
  (Hrg : forall z, In z (initialSamples X o) -> (0 <= z < Z.of_nat (length X))%Z).

Lemma c119_separated_lemma d i : In d (leaves t) -> In i (samplesOf d) ->
  forall j, In j (samplesOf d) <-> In j (initialSamples X o) /\ sameRow X i j.
Proof.
  intros Hd Hi j. assert (HG2 := NewTree_grown _ _ _ _ HT). destruct (root_samples _ _ _ _ HT) as (d0 & l0 & r0 & Et & Sd & _).
  assert (HL : forall z, In z (initialSamples X o) -> exists y, look (to_y o) z y).
  { destruct (node_value _ _ _ _ d0 l0 r0 HT) as (ix & S1 & _ & _ & HV); [subst t; constructor|]. rewrite Hx in HV. destruct HV as (y & F & _).
    rewrite S1 in Sd. assert (ix = initialSamples X o) by congruence. subst ix. intros z Hz. apply In_nth_error in Hz as [k Hk].
    destruct (Forall2_nth1 _ _ _ F _ _ Hk) as (v & _ & Hv). exists v. exact Hv. }
  split.
  - intros Hj. split; [apply In_nth_error in Hd as [k Hk]; eapply leaf_sample_in; eauto|].
    eapply (grown_pure _ _ _ HG2); eauto. lia.
  - intros [Hj HS]. apply (grown_together _ _ _ HG2 i j) with (d := d); auto. apply In_nth_error in Hd as [k Hk]. eapply leaf_sample_in; eauto.
Qed.

Lemma c119_memorised_lemma : NoDup (initialSamples X o) ->
  (forall i j, In i (initialSamples X o) -> In j (initialSamples X o) -> sameRow X i j -> i = j) ->
  forall i row y, In i (initialSamples X o) -> look X i row -> look (to_y o) i y ->
  exists v, PredictSingle t row = Ok v /\ feqb v y = true.
Proof.
  intros HND HDiff i row y Hi Hrow Hy. destruct (c02_lemma _ _ _ _ _ _ HT Hi Hrow) as (k & d & Hk & Hid & HP & _). exists (t_value d). split; [exact HP|].
  assert (Hd : In d (leaves t)) by (eapply nth_error_In; eauto). assert (HG2 := NewTree_grown _ _ _ _ HT).
  assert (HOne : samplesOf d = [i]).
  { assert (HN : NoDup (samplesOf d)).
    { pose proof (grown_leaves_perm _ _ _ _ _ HG2) as HPm. assert (HN := Permutation_NoDup HPm HND). clear -HN Hd.
      induction (leaves t) as [|d1 l IH]; [destruct Hd|]. cbn [map concat] in HN. destruct Hd as [->|Hd]; [exact (proj1 (NoDup_parts _ _ HN))|].
      apply IH; auto. exact (proj2 (NoDup_parts _ _ HN)). }
    assert (HA : forall j, In j (samplesOf d) -> j = i).
    { intros j Hj. symmetry. apply (c119_separated_lemma d i Hd Hid) in Hj as [Hj HS]. apply HDiff; auto. }
    destruct (samplesOf d) as [|a [|b l]]; [destruct Hid| |].
    - rewrite (HA a) by (left; auto). reflexivity.
    - exfalso. pose proof (HA a ltac:(left; auto)). pose proof (HA b ltac:(right; left; auto)). subst. inversion HN as [|? ? H1 _]. apply H1. left; auto. }
  destruct (node_value _ _ _ _ d Nil Nil HT (leaf_sub _ _ Hd)) as (ix & S1 & _ & _ & HV). rewrite Hx in HV. destruct HV as (ys & F & HV).
  unfold samplesOf in HOne. rewrite S1 in HOne. subst ix. inversion F as [|? y' ? l' Hl F']; subst. inversion F'; subst.
  assert (y' = y) by (eapply look_fun; eauto). subst y'. destruct (HY y) as [Fy By]; [destruct Hy; eapply nth_error_In; eauto|].
  rewrite HV. cbn [length]. pose proof (ok_sum E HE [y]) as HS.
  assert (HS' : ffinite (e_sum E [y]) = true /\ B2R (e_sum E [y]) = B2R y) by (apply (is_sum_short _ _ HS y Fy); right; reflexivity). destruct HS' as [F1 B1].
  destruct (fofZ_exact50 1 ltac:(lia)) as [K1 K2].
  destruct (fdiv_ext (e_sum E [y]) (fofZ 1) F1 K1) as [D1 D2]; [rewrite K2; lra|]. change (Z.of_nat (Datatypes.S O)) with 1%Z.
  rewrite K2, B1 in D2. replace (B2R y / 1) with (B2R y) in D2 by field. rewrite rnd_B2R, clamp_id in D2 by (pose proof (B2R_bounds y); lra).
  apply feqb_true. split; [exact D1|]. split; [apply finite_nnan; auto|]. rewrite D2. symmetry. apply ext_finite. exact Fy.
Qed.
End Mem.
