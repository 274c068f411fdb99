(** Thresholds, child sizes and absence of panics (proof support). *)
From Coq Require Import Reals Lra Sorted.
From Verif Require Import Base F64 F64Lemmas Env EnvLemmas Utils Tree Spec UtilsProofs TreeProofs TreeSplit.

(** ** C09 *)
Section Midpoint.
Open Scope R_scope.
Lemma rnd_double (a : f64) : rnd (2 * B2R a) = 2 * B2R a.
Proof.
  unfold rnd. apply round_generic; [apply valid_rnd_N|].
  pose proof (generic_format_B2R 53 1024 a) as H.
  unfold SpecFloat.fexp in *. change (SpecFloat.emin 53 1024) with (-1074)%Z in *.
  apply (FLT_format_generic radix2 (-1074) 53) in H. destruct H as [f H1 H2 H3].
  apply generic_format_FLT. exists (Float radix2 (Fnum f) (Fexp f + 1)); simpl; [|auto|lia].
  rewrite H1. unfold F2R; simpl. rewrite bpow_plus. simpl. lra.
Qed.

Lemma B2R_fofZ2 : B2R (fofZ 2) = 2.
Proof.
  assert (E : fofZ 2 = fadd fone fone) by (apply B2SF_inj; vm_compute; reflexivity).
  rewrite E. assert (Ff : ffinite (fadd fone fone) = true) by reflexivity.
  destruct (fadd_ext fone fone) as [_ H]; [reflexivity|reflexivity|].
  rewrite ext_finite in H by auto.
  replace (B2R fone + B2R fone) with (2 * B2R fone) in H by lra. rewrite rnd_double, B2R_fone in H.
  rewrite H. rewrite clamp_id; [lra|]. assert (2 <= Mx); [|lra].
  unfold Mx. apply Rle_trans with (bpow radix2 1); [simpl; lra|].
  apply bpow_le. lia.
Qed.

Lemma midpoint_real (a b : f64) : ffinite a = true -> ffinite b = true -> ffinite (fadd a b) = true ->
  ffinite (midpoint a b) = true /\ B2R (midpoint a b) = rnd (rnd (B2R a + B2R b) / 2).
Proof.
  intros Fa Fb Fs. unfold midpoint.
  destruct (fadd_ext a b Fa Fb) as [_ Es]. rewrite ext_finite in Es by auto.
  assert (F2 : ffinite (fofZ 2) = true) by reflexivity.
  destruct (fdiv_ext (fadd a b) (fofZ 2) Fs F2) as [N Ed]; [rewrite B2R_fofZ2; lra|].
  rewrite B2R_fofZ2 in Ed.
  pose proof (B2R_bounds (fadd a b)) as HBs.
  assert (Es' : B2R (fadd a b) = rnd (B2R a + B2R b)).
  { unfold clamp in Es. revert Es. unfold Rmax, Rmin. repeat destruct Rle_dec; lra. }
  set (s := B2R (fadd a b)) in *.
  assert (Hrs : rnd s = s) by apply rnd_B2R.
  assert (Hs : Rabs (rnd (s / 2)) <= Rabs s).
  { destruct (Rle_or_lt 0 s).
    - assert (0 <= rnd (s / 2)) by (apply rnd_ge_0; lra). rewrite !Rabs_pos_eq by auto.
      apply Rle_trans with (rnd s); [apply rnd_mono; lra|lra].
    - assert (rnd (s / 2) <= 0) by (apply rnd_le_0; lra). rewrite !Rabs_left1 by lra.
      apply Ropp_le_contravar. apply Rle_trans with (rnd s); [lra|apply rnd_mono; lra]. }
  assert (HB : - Mx < rnd (s / 2) < Mx).
  { assert (Rabs s < Mx) by (apply Rabs_def1; lra).
    assert (Rabs (rnd (s / 2)) < Mx) by lra. apply Rabs_def2 in H0. lra. }
  rewrite clamp_id in Ed by lra.
  assert (Ff : ffinite (fdiv (fadd a b) (fofZ 2)) = true).
  { apply finite_ext; auto. rewrite Ed. lra. }
  split; auto. rewrite <- (ext_finite _ Ff), Ed. rewrite Es'. reflexivity.
Qed.

Lemma midpoint_between (a b : f64) : ffinite a = true -> ffinite b = true -> fltb a b = true ->
  ffinite (fadd a b) = true ->
  fleb a (midpoint a b) = true /\ fleb (midpoint a b) b = true /\
  forall c, ffinite c = true -> fltb c b = true -> B2R a + B2R b <= 2 * B2R c -> fleb (midpoint a b) c = true /\ fltb (midpoint a b) b = true.
Proof.
  intros Fa Fb L Fs. destruct (midpoint_real a b Fa Fb Fs) as [Fm Em].
  apply fltb_true in L as (Na & Nb & L). rewrite !ext_finite in L by auto.
  pose proof (finite_nnan _ Fm) as Nm.
  assert (A1 : 2 * B2R a <= rnd (B2R a + B2R b)) by (rewrite <- rnd_double; apply rnd_mono; lra).
  assert (A2 : rnd (B2R a + B2R b) <= 2 * B2R b) by (rewrite <- rnd_double; apply rnd_mono; lra).
  assert (B1 : B2R a <= B2R (midpoint a b)) by (rewrite Em; apply Rle_trans with (rnd (B2R a)); [rewrite rnd_B2R; lra|apply rnd_mono; lra]).
  assert (B2 : B2R (midpoint a b) <= B2R b) by (rewrite Em; apply Rle_trans with (rnd (B2R b)); [apply rnd_mono; lra|rewrite rnd_B2R; lra]).
  split; [apply fleb_true; rewrite !ext_finite by auto; auto|].
  split; [apply fleb_true; rewrite !ext_finite by auto; auto|].
  intros c Fc Lc Hc. apply fltb_true in Lc as (Nc & _ & Lc). rewrite !ext_finite in Lc by auto.
  assert (A3 : rnd (B2R a + B2R b) <= 2 * B2R c) by (rewrite <- rnd_double; apply rnd_mono; lra).
  assert (B3 : B2R (midpoint a b) <= B2R c) by (rewrite Em; apply Rle_trans with (rnd (B2R c)); [apply rnd_mono; lra|rewrite rnd_B2R; lra]).
  split.
  - apply fleb_true. rewrite !ext_finite by auto. auto.
  - apply fltb_true. rewrite !ext_finite by auto. repeat split; auto; lra.
Qed.

(** an overflowing sum gives an infinite threshold *)
Lemma midpoint_overflow (a b : f64) : ffinite a = true -> ffinite b = true -> ffinite (fadd a b) = false ->
  midpoint a b = finf \/ midpoint a b = fninf.
Proof.
  intros Fa Fb Fs. destruct (fadd_ext a b Fa Fb) as [N _]. unfold midpoint.
  destruct (fadd a b) as [s|[|]| |s m e H]; try discriminate; [right|left]; reflexivity.
Qed.
Lemma inf_separates_nothing v : ffinite v = true -> fleb v finf = true /\ fleb v fninf = false.
Proof.
  intros Fv. pose proof (finite_nnan _ Fv). pose proof (B2R_bounds v). pose proof Mx_pos. split.
  - apply fleb_true. rewrite (ext_finite v) by auto. simpl. repeat split; auto. lra.
  - apply fleb_false; auto. rewrite (ext_finite v) by auto. simpl. lra.
Qed.
End Midpoint.

Open Scope Z_scope.
(** ** C08 *)
Lemma filter_all {A} (p : A -> bool) l : (forall x, In x l -> p x = true) -> length (filter p l) = length l.
Proof.
  induction l as [|a l IH]; intros H; simpl; auto. rewrite H by (left; auto). simpl.
  rewrite IH; auto. intros; apply H; right; auto.
Qed.
Lemma filter_perm_len {A} (p : A -> bool) l l' : Permutation l l' -> length (filter p l) = length (filter p l').
Proof.
  induction 1; simpl; auto.
  - destruct (p x); simpl; lia.
  - destruct (p x), (p y); simpl; lia.
  - lia.
Qed.
Lemma count_prefix {A} (p : A -> bool) (l : list A) i : (i <= length l)%nat ->
  (forall k x, (k < i)%nat -> nth_error l k = Some x -> p x = true) -> (i <= length (filter p l))%nat.
Proof.
  intros Hi H. rewrite <- (firstn_skipn i l), filter_app, app_length.
  rewrite filter_all.
  - rewrite firstn_length. lia.
  - intros x Hx. apply In_nth_error in Hx as [k Hk].
    assert (k < length (firstn i l))%nat by (apply nth_error_Some; congruence).
    rewrite firstn_length in H0. apply (H k); [lia|].
    rewrite <- (firstn_skipn i l). rewrite nth_error_app1; auto. rewrite firstn_length. lia.
Qed.
Lemma count_suffix {A} (p : A -> bool) (l : list A) i :
  (forall k x, (i <= k)%nat -> nth_error l k = Some x -> p x = true) -> (length l - i <= length (filter p l))%nat.
Proof.
  intros H. rewrite <- (firstn_skipn i l) at 2. rewrite filter_app, app_length.
  rewrite (filter_all p (skipn i l)).
  - rewrite skipn_length. lia.
  - intros x Hx. apply In_nth_error in Hx as [k Hk]. apply (H (i + k)%nat); [lia|].
    rewrite <- (firstn_skipn i l).
    assert (Hi : (i <= length l)%nat).
    { destruct (Nat.le_gt_cases i (length l)); auto. rewrite skipn_all2 in Hk by lia. destruct k; discriminate. }
    rewrite nth_error_app2 by (rewrite firstn_length; lia). rewrite firstn_length.
    replace (i + k - Nat.min i (length l))%nat with k by lia. auto.
Qed.

Lemma filter_cells X f thr ix col : Forall2 (fun j v => cell X j f v) ix col ->
  length (filter (below X f thr) ix) = length (filter (fun v => fleb v thr) col) /\
  length (filter (fun i => negb (below X f thr i)) ix) = length (filter (fun v => negb (fleb v thr)) col).
Proof.
  induction 1 as [|j v ix col Hc HF [IH1 IH2]]; simpl; auto.
  rewrite (cell_below _ _ _ _ _ Hc). destruct (fleb v thr); simpl; lia.
Qed.

Section Counts.
Context (E : Env) (HE : EnvOk E).

Lemma candidate_counts X o ix f i sc thr : candidate E X o ix f i sc thr ->
  (forall j v, In j ix -> cell X j f v -> fnanb v = false) ->
  exists a b ja jb, In ja ix /\ In jb ix /\ cell X ja f a /\ cell X jb f b /\ fltb a b = true /\
    thr = fdiv (fadd a b) (fofZ 2) /\ (0 < i < length ix)%nat /\
    ftoZ (to_mcw o) <= Z.of_nat i /\ ftoZ (to_mcw o) <= Z.of_nat (length ix - i) /\
    (forall j v, In j ix -> cell X j f v -> fleb v a = true \/ fleb b v = true) /\
    (fleb a thr = true -> (i <= length (filter (below X f thr) ix))%nat) /\
    (fltb thr b = true -> (length ix - i <= length (filter (fun j => negb (below X f thr j)) ix))%nat).
Proof.
  intros (col & a & b & HC & Hi & Ha & Hb & Hab & M1 & M2 & Ht & _) HN.
  pose proof (Forall2_len _ _ _ HC) as HL.
  assert (Hin : forall v, In v col -> exists j, In j ix /\ cell X j f v).
  { intros v Hv. apply In_nth_error in Hv as [k Hk]. destruct (Forall2_nth2 _ _ _ HC _ _ Hk) as (j & Hj & Hc).
    exists j. split; auto. eapply nth_error_In; eauto. }
  assert (HNc : forall v, In v col -> fnanb v = false).
  { intros v Hv. destruct (Hin v Hv) as (j & Hj & Hc). eauto. }
  set (xs := snd (ArgSort E col)) in *.
  assert (HP : Permutation col xs) by apply (ArgSort_perm_vals E HE).
  assert (Hsort : forall k k' x y, (k <= k')%nat -> nth_error xs k = Some x -> nth_error xs k' = Some y -> fleb x y = true).
  { intros. eapply (ArgSort_sorted E HE col); eauto. }
  assert (Hxs : forall v, In v xs -> In v col) by (intros v; apply Permutation_in, Permutation_sym; auto).
  pose proof (nth_error_In _ _ Ha) as HaI. pose proof (nth_error_In _ _ Hb) as HbI.
  destruct (Hin a (Hxs a HaI)) as (ja & Hja & Hca). destruct (Hin b (Hxs b HbI)) as (jb & Hjb & Hcb).
  assert (Na : fnanb a = false) by auto. assert (Nb : fnanb b = false) by auto.
  assert (Hlt : fltb a b = true).
  { assert (fleb a b = true) by (eapply (Hsort (i - 1)%nat i); eauto; lia).
    rewrite fleb_split in H. rewrite Hab, orb_false_r in H. auto. }
  assert (Nthr_l : forall v, fleb v thr = true -> fnanb thr = false).
  { intros v H. apply fleb_nnan in H. tauto. }
  pose proof (Permutation_length HP) as HLP.
  destruct (filter_cells X f thr ix col HC) as [F1 F2].
  exists a, b, ja, jb. do 10 (split; [auto|]).
  { intros j v Hj Hv. assert (Hvx : In v xs).
    { eapply Permutation_in; [exact HP|]. apply In_nth_error in Hj as [k Hk].
      destruct (Forall2_nth1 _ _ _ HC _ _ Hk) as (v' & Hk' & Hc').
      assert (v' = v) by (eapply cell_fun; eauto). subst. eapply nth_error_In; eauto. }
    apply In_nth_error in Hvx as [k Hk]. destruct (Nat.lt_ge_cases k i) as [Hk'|Hk'].
    - left. eapply (Hsort k (i - 1)%nat); eauto. lia.
    - right. eapply (Hsort i k); eauto. }
  split.
  - intros Hle. rewrite F1, (filter_perm_len _ _ _ HP). apply count_prefix.
    + lia.
    + intros k x Hk Hx. eapply fleb_trans; [|exact Hle]. eapply (Hsort k (i - 1)%nat); eauto. lia.
  - intros Hl2. rewrite F2, (filter_perm_len _ _ _ HP). rewrite HL, HLP. apply count_suffix.
    intros k x Hk Hx. assert (fleb b x = true) by (eapply (Hsort i k); eauto).
    assert (fltb thr x = true) by (eapply fltb_leb_trans; eauto).
    apply fltb_true in H0 as (N1 & N2 & H0). apply negb_true_iff. apply fleb_false; auto.
Qed.

(** ** C10 *)
Definition goodMidpoints (X : list (list f64)) : Prop :=
  forall f i j a b, cell X i f a -> cell X j f b -> fltb a b = true ->
    fleb a (fdiv (fadd a b) (fofZ 2)) = true /\ fltb (fdiv (fadd a b) (fofZ 2)) b = true.

Lemma filter_NoDup {A} (p : A -> bool) l : NoDup l -> NoDup (filter p l).
Proof.
  induction 1 as [|a l Hn HN IH]; simpl; [constructor|]. destruct (p a); auto. constructor; auto.
  rewrite filter_In. tauto.
Qed.
Lemma range_length l n : NoDup l -> (forall z, In z l -> 0 <= z < Z.of_nat n) -> (length l <= n)%nat.
Proof.
  intros HN H. rewrite <- (iota_length n). apply NoDup_incl_length; auto. intros z Hz. apply iota_In; auto.
Qed.
Lemma SampleSlice_ex {A} (s : list A) ix : NoDup ix -> (forall z, In z ix -> 0 <= z < Z.of_nat (length s)) ->
  exists r, SampleSlice s ix = Ok r.
Proof.
  intros HN H. unfold SampleSlice. pose proof (range_length ix (length s) HN H).
  destruct (Nat.ltb_spec (length s) (length ix)); [lia|]. apply mapM_all_Ok. intros z Hz. apply idx_range; auto.
Qed.

Section NoPanic.
Context (X : list (list f64)) (row0 : list f64) (rest : list (list f64)) (HX : X = row0 :: rest)
        (Hrect : forall row, In row X -> length row = length row0)
        (HNaN : forall i f v, cell X i f v -> fnanb v = false)
        (Hmid : goodMidpoints X).

Definition okOpts (o : TreeOptions) : Prop :=
  let ix := initialSamples X o in
  ix <> [] /\ NoDup ix /\ (forall i, In i ix -> 0 <= i < Z.of_nat (length X)) /\
  (if to_xgb o then exists g h, to_grads o = Some g /\ to_hess o = Some h /\ length g = length X /\ length h = length X
   else length (to_y o) = length X) /\
  (forall b, to_in o = Some b -> (length ix <= length b)%nat) /\
  (forall b, to_val o = Some b -> (length ix <= length b)%nat).

Lemma cell_ex i f : 0 <= i < Z.of_nat (length X) -> 0 <= f < Z.of_nat (length row0) -> exists v, cell X i f v.
Proof.
  intros Hi Hf. destruct (look_ex X i Hi) as [row Hr]. destruct (look_ex row f) as [v Hv].
  - rewrite (Hrect row); auto. destruct Hr as [_ Hr]. eapply nth_error_In; eauto.
  - exists v, row; auto.
Qed.

Lemma nodeValue_ex o : okOpts o -> exists v, nodeValue E (prepare X o) (initialSamples X o) = Ok v.
Proof.
  intros (Hne & HN & HR & HG & _). unfold nodeValue. cbn [prepare to_xgb to_grads to_hess to_y to_lambda].
  destruct (to_xgb o).
  - destruct HG as (g & h & -> & -> & Lg & Lh). simpl orNil.
    destruct (SampleSlice_ex g (initialSamples X o)) as [r1 E1]; [auto|rewrite Lg; auto|].
    destruct (SampleSlice_ex h (initialSamples X o)) as [r2 E2]; [auto|rewrite Lh; auto|].
    rewrite E1, E2. simpl. eauto.
  - destruct (SampleSlice_ex (to_y o) (initialSamples X o)) as [r1 E1]; [auto|rewrite HG; auto|].
    rewrite E1. simpl. eauto.
Qed.

Lemma findBetterSplit_ex o b f : okOpts o -> 0 <= f < Z.of_nat (length row0) ->
  exists b', findBetterSplit E X (prepare X o) (initialSamples X o) b f = Ok b'.
Proof.
  intros (Hne & HN & HR & HG & HB1 & HB2) Hf. unfold findBetterSplit.
  destruct (column_ex X (initialSamples X o) f Hne) as [col Hcol].
  { intros j Hj. apply cell_ex; auto. }
  rewrite Hcol. cbn [bind]. apply column_Ok in Hcol as [_ Hcol]. pose proof (Forall2_len _ _ _ Hcol) as HL.
  assert (S1 : exists b1, slice0 (orNil (to_in (prepare X o))) (length col) = Ok b1 /\ length b1 = length col).
  { cbn [prepare to_in orNil]. unfold slice0. fold (initialSamples X o).
    assert (Hl : (length col <= length (match to_in o with Some b => b | None => repeat 0%Z (length (initialSamples X o)) end))%nat).
    { destruct (to_in o) eqn:EI; [rewrite <- HL; auto|rewrite repeat_length; lia]. }
    destruct (Nat.ltb_spec (length (match to_in o with Some b => b | None => repeat 0%Z (length (initialSamples X o)) end)) (length col)); [lia|].
    eexists; split; [reflexivity|]. rewrite firstn_length. lia. }
  assert (S2 : exists b2, slice0 (orNil (to_val (prepare X o))) (length col) = Ok b2 /\ length b2 = length col).
  { cbn [prepare to_val orNil]. unfold slice0. fold (initialSamples X o).
    assert (Hl : (length col <= length (match to_val o with Some b => b | None => repeat fzero (length (initialSamples X o)) end))%nat).
    { destruct (to_val o) eqn:EI; [rewrite <- HL; auto|rewrite repeat_length; lia]. }
    destruct (Nat.ltb_spec (length (match to_val o with Some b => b | None => repeat fzero (length (initialSamples X o)) end)) (length col)); [lia|].
    eexists; split; [reflexivity|]. rewrite firstn_length. lia. }
  destruct S1 as (b1 & -> & L1). destruct S2 as (b2 & -> & L2). cbn [bind].
  rewrite (MemArgSort_ArgSort E col b1 b2 L1 L2). cbn [bind].
  pose proof (ArgSort_perm E HE col) as HP. destruct (ArgSort E col) as [si sx] eqn:ES. simpl fst in HP.
  assert (Hsi : NoDup si /\ forall z, In z si -> 0 <= z < Z.of_nat (length col)).
  { split.
    - eapply Permutation_NoDup; [exact HP|apply iota_NoDup].
    - intros z Hz. apply iota_In. eapply Permutation_in; [apply Permutation_sym; exact HP|auto]. }
  destruct Hsi as [Hs1 Hs2]. cbn [prepare to_xgb to_grads to_hess to_y to_lambda to_mcw to_gamma].
  destruct (to_xgb o).
  - destruct HG as (g & h & -> & -> & Lg & Lh). simpl orNil.
    destruct (SampleSlice_ex g (initialSamples X o)) as [r1 E1]; [auto|rewrite Lg; auto|].
    destruct (SampleSlice_ex h (initialSamples X o)) as [r2 E2]; [auto|rewrite Lh; auto|].
    rewrite E1, E2. cbn [bind].
    apply SampleSlice_Ok in E1 as [_ E1]. apply SampleSlice_Ok in E2 as [_ E2].
    apply Forall2_len in E1. apply Forall2_len in E2.
    destruct (SampleSlice_ex r1 si) as [r3 E3]; [auto|rewrite <- E1, HL; auto|].
    destruct (SampleSlice_ex r2 si) as [r4 E4]; [auto|rewrite <- E2, HL; auto|].
    rewrite E3, E4. cbn [bind]. eauto.
  - destruct (SampleSlice_ex (to_y o) (initialSamples X o)) as [r1 E1]; [auto|rewrite HG; auto|].
    rewrite E1. cbn [bind]. apply SampleSlice_Ok in E1 as [_ E1]. apply Forall2_len in E1.
    destruct (SampleSlice_ex r1 si) as [r3 E3]; [auto|rewrite <- E1, HL; auto|].
    rewrite E3. cbn [bind]. eauto.
Qed.

Lemma foldM_ex o fs b : okOpts o -> (forall f, In f fs -> 0 <= f < Z.of_nat (length row0)) ->
  exists b', foldM (findBetterSplit E X (prepare X o) (initialSamples X o)) b fs = Ok b'.
Proof.
  intros Ho; revert b; induction fs as [|f fs IH]; intros b Hf; simpl; [eauto|].
  destruct (findBetterSplit_ex o b f Ho) as [b1 H1]; [apply Hf; left; auto|].
  rewrite H1. cbn [bind]. apply IH. intros; apply Hf; right; auto.
Qed.

Lemma grow_ex n : forall o, okOpts o -> exists t, grow E X n o = Ok t.
Proof.
  induction n as [|n IH]; intros o Ho; cbn [grow];
    assert (EN : to_xgb o && isNone (to_grads o) && isNone (to_hess o) = false)
      by (destruct Ho as (_ & _ & _ & HG & _); destruct (to_xgb o); auto;
          destruct HG as (g & h & -> & -> & _); reflexivity);
    rewrite EN; change (orNil (to_indexes (prepare X o))) with (initialSamples X o);
    destruct (nodeValue_ex o Ho) as [[value s0] HV]; rewrite HV; cbn [bind];
    (assert (Hr0 : idx X 0 = Ok row0) by (rewrite HX; reflexivity)); rewrite Hr0; cbn [bind].
  - eauto.
  - destruct (foldM_ex o (scannedColumns (length row0) (to_allowed (prepare X o))) (MkB s0 0 fzero) Ho) as [b Hb].
    { intros f Hf. apply scannedColumns_In in Hf. tauto. }
    rewrite Hb. cbn [bind]. pose proof (nodeValue_score _ _ _ _ _ HV) as ->.
    destruct (leafScore (to_xgb (prepare X o)) (b_score b)) eqn:EL; [eauto|].
    destruct Ho as (Hne & HN & HR & HG & HB1 & HB2). 
    apply (foldM_cand E HE) in Hb; [|apply scannedColumns_sorted]. destruct Hb as [_ Hb].
    destruct Hb as [->|(f & i & B1 & B2 & B3 & B4 & _)].
    { cbn [b_score] in EL. change (startScore (to_xgb (prepare X o))) with (b_score (b0 (to_xgb (prepare X o)))) in EL. rewrite leafScore_b0 in EL. discriminate. }
    subst f. apply scannedColumns_In in B1 as [B1 _].
    destruct (column_ex X (initialSamples X o) (b_split b) Hne) as [col Hcol].
    { intros j Hj. apply cell_ex; auto. }
    rewrite Hcol. cbn [bind]. apply column_Ok in Hcol as [_ Hcol].
    rewrite (splitSamples_filter X (b_split b) (b_thr b) _ col Hcol).
    apply candidate_counts in B2 as (a & c & ja & jc & _ & _ & Ca & Cc & Lac & Et & Hi & _ & _ & _ & K1 & K2); [|intros; eapply HNaN; eauto].
    destruct (Hmid _ _ _ _ _ Ca Cc Lac) as [M1 M2]. rewrite <- Et in M1, M2. specialize (K1 M1). specialize (K2 M2).
    assert (Hchild : forall p, (0 < length (filter p (initialSamples X o)))%nat ->
       okOpts (childOpts (prepare X o) (filter p (initialSamples X o)))).
    { intros p Hp. unfold okOpts. cbn [initialSamples childOpts to_indexes to_xgb to_grads to_hess to_y to_in to_val clone prepare].
      assert (Hlf : (length (filter p (initialSamples X o)) <= length (initialSamples X o))%nat).
      { clear. induction (initialSamples X o) as [|z l IH]; simpl; auto. destruct (p z); simpl; lia. }
      split; [intros HH; rewrite HH in Hp; simpl in Hp; lia|]. split; [apply filter_NoDup; auto|].
      split; [intros z Hz; apply filter_In in Hz; apply HR; tauto|]. split; [auto|].
      fold (initialSamples X o). split.
      - intros b1 [= <-]. destruct (to_in o) eqn:EI; [specialize (HB1 _ eq_refl); lia|rewrite repeat_length; lia].
      - intros b1 [= <-]. destruct (to_val o) eqn:EI; [specialize (HB2 _ eq_refl); lia|rewrite repeat_length; lia]. }
    destruct (IH _ (Hchild (below X (b_split b) (b_thr b)) ltac:(lia))) as [tl Hl].
    destruct (IH _ (Hchild (fun j => negb (below X (b_split b) (b_thr b) j)) ltac:(lia))) as [tr Hr].
    rewrite Hl. cbn [bind]. rewrite Hr. cbn [bind]. eauto.
Qed.
End NoPanic.
End Counts.
