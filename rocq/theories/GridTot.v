(** Proofs for C138: a search over a good grid returns. *)
From Coq Require Import Reals Lra Lia.
From Verif Require Import Base F64 F64Lemmas NumErr ErrProofs Env EnvLemmas Utils Tree Spec Options Train SpecTot TrainTot
  CV SpecCV CVProofs CVTot Grid SpecGrid GridProofs SpecGridTot.
From Coq Require Import List.
Open Scope Z_scope.

(** ** integer axes *)
Lemma axisZ r : 1 <= r_step r -> exists l, rangeZ r l /\ Z.of_nat (length l) = if r_lo r <=? r_hi r then (r_hi r - r_lo r) / r_step r + 1 else 0.
Proof.
  destruct r as [lo hi st]. unfold rangeZ. cbn [r_lo r_hi r_step]. intros Hs.
  remember (Z.to_nat (hi - lo + 1)) as n eqn:En. revert lo En.
  induction n as [n IH] using lt_wf_ind. intros lo ->. destruct (Z.leb_spec lo hi) as [L|L].
  - destruct (IH (Z.to_nat (hi - (lo + st) + 1))) with (lo := lo + st) as (l & Hl & Hn); [lia|reflexivity|].
    exists (lo :: l). split; [constructor; auto; apply Z.leb_le; auto|]. cbn [length]. rewrite Nat2Z.inj_succ, Hn.
    destruct (Z.leb_spec (lo + st) hi) as [L2|L2].
    + replace (hi - lo) with (hi - (lo + st) + 1 * st) by lia. rewrite Z.div_add by lia. lia.
    + rewrite Z.div_small by lia. lia.
  - exists []. split; [constructor; apply Z.leb_gt; auto|reflexivity].
Qed.

(** ** float axes *)
Lemma small51 : (bpow radix2 51 * uu = / 4)%R.
Proof. unfold uu. rewrite <- bpow_plus. change (51 + -53) with (-2). simpl. lra. Qed.
Lemma uu4 : (0 < uu <= / 4)%R.
Proof. split; [apply bpow_gt_0|]. rewrite <- small51. unfold uu. pose proof (bpow_gt_0 radix2 (-53)). assert (1 <= bpow radix2 51)%R by (apply (bpow_le radix2 0 51); lia). nra. Qed.
Lemma step_up (x hi st : f64) : ffinite x = true -> ffinite hi = true -> ffinite st = true -> (0 < B2R st)%R ->
  (Rabs (B2R x) <= bpow radix2 51 * B2R st)%R ->
  fleb (fadd x st) hi = true -> ffinite (fadd x st) = true /\ (B2R x + B2R st / 2 <= B2R (fadd x st) <= B2R hi)%R.
Proof.
  intros Fx Fh Fs P HM Hn. destruct (fadd_ext x st Fx Fs) as [N E]. apply fleb_true in Hn as (_ & _ & Hn).
  rewrite (ext_finite hi Fh) in Hn. pose proof (B2R_bounds hi) as BH. pose proof (B2R_bounds x) as BX. pose proof Mx_pos as MP.
  assert (G : (ext x <= ext (fadd x st))%R).
  { apply fadd_ge; auto. - destruct x; try discriminate; reflexivity. - apply fleb_true. split; [reflexivity|]. split; [destruct st; try discriminate; reflexivity|].
    rewrite ext_fzero, (ext_finite st Fs). lra. }
  rewrite (ext_finite x Fx) in G.
  assert (F : ffinite (fadd x st) = true).
  { destruct (fadd x st) as [s|[|]| |s m e H]; try discriminate; auto; cbn [ext] in *; lra. }
  split; auto. rewrite (ext_finite _ F) in *. split; [|exact Hn].
  destruct (rnd_plus x st) as (e & He & Er). set (r := rnd (B2R x + B2R st)) in *.
  assert (Ec : clamp r = r).
  { apply clamp_id. unfold clamp, Rmax, Rmin in E. repeat destruct (Rle_dec _ _) in E; lra. }
  rewrite E, Ec, Er.
  assert (HA : (Rabs ((B2R x + B2R st) * e) <= (bpow radix2 51 * B2R st + B2R st) * uu)%R).
  { rewrite Rabs_mult. apply Rmult_le_compat; try apply Rabs_pos; auto. eapply Rle_trans; [apply Rabs_triang|]. rewrite (Rabs_pos_eq (B2R st)) by lra. lra. }
  replace ((bpow radix2 51 * B2R st + B2R st) * uu)%R with (B2R st * (bpow radix2 51 * uu) + B2R st * uu)%R in HA by ring.
  rewrite small51 in HA. pose proof uu4 as U. assert (B2R st * uu <= B2R st * / 4)%R by (apply Rmult_le_compat_l; lra).
  apply Rabs_le' in HA. lra.
Qed.
Lemma axisF_gen (lo hi st : f64) : ffinite hi = true -> ffinite st = true -> (0 < B2R st)%R ->
  (Rabs (B2R lo) <= bpow radix2 51 * B2R st)%R -> (Rabs (B2R hi) <= bpow radix2 51 * B2R st)%R ->
  forall n x, ffinite x = true -> (B2R lo <= B2R x <= B2R hi)%R -> (2 * ((B2R hi - B2R x) / B2R st) < INR n)%R ->
  exists l, progression fleb fadd hi st x l /\ (INR (length l) <= 1 + 2 * ((B2R hi - B2R x) / B2R st))%R.
Proof.
  intros Fh Fs P BL BHi. induction n as [|n IH]; intros x Fx Hx Hn.
  - exfalso. cbn [INR] in Hn. assert (0 <= (B2R hi - B2R x) / B2R st)%R by (apply Rmult_le_pos; [lra|left; apply Rinv_0_lt_compat; auto]). lra.
  - assert (Hle : fleb x hi = true).
    { apply fleb_true. split; [destruct x; try discriminate; reflexivity|]. split; [destruct hi; try discriminate; reflexivity|].
      rewrite (ext_finite x Fx), (ext_finite hi Fh). lra. }
    assert (HI : (0 < / B2R st)%R) by (apply Rinv_0_lt_compat; auto).
    assert (H0 : (0 <= (B2R hi - B2R x) / B2R st)%R) by (apply Rmult_le_pos; lra).
    destruct (fleb (fadd x st) hi) eqn:En.
    + destruct (step_up x hi st Fx Fh Fs P) as [F1 [B1 B2]]; auto.
      { apply Rabs_le. apply Rabs_le' in BL. apply Rabs_le' in BHi. lra. }
      assert (HD : ((B2R hi - B2R (fadd x st)) / B2R st <= (B2R hi - B2R x) / B2R st - / 2)%R).
      { replace ((B2R hi - B2R x) / B2R st - / 2)%R with ((B2R hi - (B2R x + B2R st / 2)) / B2R st)%R by (field; lra).
        apply Rmult_le_compat_r; lra. }
      rewrite S_INR in Hn. destruct (IH (fadd x st) F1) as (l & Hl & HL); [lra|lra|].
      exists (x :: l). split; [constructor; auto|]. cbn [length]. rewrite S_INR. lra.
    + exists [x]. split; [constructor; auto; constructor; auto|]. cbn [length INR]. lra.
Qed.
Lemma axisF r : fairStep r -> exists l, rangeF r l /\
  (INR (length l) <= if fleb (r_lo r) (r_hi r) then 1 + 2 * ((B2R (r_hi r) - B2R (r_lo r)) / B2R (r_step r)) else 0)%R.
Proof.
  intros (Fl & Fh & Fs & P & BL & BH). unfold rangeF. destruct (fleb (r_lo r) (r_hi r)) eqn:El.
  - apply fleb_true in El as (_ & _ & El). rewrite (ext_finite _ Fl), (ext_finite _ Fh) in El.
    set (q := (2 * ((B2R (r_hi r) - B2R (r_lo r)) / B2R (r_step r)))%R).
    assert (Hn : exists n, (q < INR n)%R).
    { exists (Z.to_nat (up q)). destruct (archimed q) as [Hu _]. rewrite INR_IZR_INZ. eapply Rlt_le_trans; [exact Hu|]. apply IZR_le. lia. }
    destruct Hn as (n & Hn).
    eapply (axisF_gen (r_lo r) (r_hi r) (r_step r)); eauto. lra.
  - exists []. split; [constructor; auto|]. cbn [length INR]. lra.
Qed.
Lemma axes_ex o : goodGrid o -> exists a, axesOf o a.
Proof.
  intros [G0 G1 G2 G3 G4 G5 G6 G7 G8 _ _].
  destruct (axisZ _ G1) as (l1 & L1 & _). destruct (axisZ _ G2) as (l2 & L2 & _). destruct (axisF _ G3) as (l3 & L3 & _). destruct (axisF _ G4) as (l4 & L4 & _).
  destruct (axisF _ G5) as (l5 & L5 & _). destruct (axisF _ G6) as (l6 & L6 & _). destruct (axisF _ G7) as (l7 & L7 & _). destruct (axisF _ G8) as (l8 & L8 & _).
  exists (MkAxes l1 l3 l2 l4 l5 l6 l7 l8). repeat (split; [assumption|]). assumption.
Qed.

(** ** more fuel does not matter *)
Lemma drawUnused_more ints folds : forall f f' p r, (f <= f')%nat -> drawUnused f ints p folds = Ok r -> drawUnused f' ints p folds = Ok r.
Proof.
  induction f as [|f IH]; intros f' p r Hf H; [discriminate H|]. destruct f' as [|f']; [lia|]. cbn [drawUnused] in *.
  destruct (isInPrevious (ints p) folds); auto. apply IH; auto. lia.
Qed.
Lemma drawFolds_more ints f f' : (f <= f')%nat -> forall plan p folds r, drawFolds f ints plan p folds = Ok r -> drawFolds f' ints plan p folds = Ok r.
Proof.
  intros Hf. induction plan as [|i plan IH]; intros p folds r H; cbn [drawFolds] in *; auto.
  apply bind_Ok in H as ([n p'] & H1 & H2). rewrite (drawUnused_more _ _ _ _ _ _ Hf H1). cbn [bind]. auto.
Qed.
Lemma CVS_more {K} ints (D : DataBunch K) nfold f f' r : (f <= f')%nat -> CrossValidationSamples f ints D nfold = Ok r -> CrossValidationSamples f' ints D nfold = Ok r.
Proof.
  intros Hf H. unfold CrossValidationSamples in *. apply bind_Ok in H as (nf & H1 & H2). rewrite H1. cbn [bind]. destruct (Nat.ltb nf 2); auto.
  apply bind_Ok in H2 as (fo & H2 & H3). rewrite (drawFolds_more _ _ _ Hf _ _ _ _ H2). cbn [bind]. exact H3.
Qed.
Lemma MCCV_more {K} E ints rndf id (D : DataBunch K) nfold O conc f f' r : (f <= f')%nat ->
  MultiClassCrossValidation E f ints rndf id D nfold O conc = Ok r -> MultiClassCrossValidation E f' ints rndf id D nfold O conc = Ok r.
Proof.
  intros Hf H. unfold MultiClassCrossValidation in *. apply bind_Ok in H as (ns & H1 & H2). rewrite (CVS_more _ _ _ _ _ _ Hf H1). exact H2.
Qed.

(** ** the evaluations of the first combinations suffice *)
Section Fold.
Context (N : Z) (eval : nat -> Options -> res cvRet).
Lemma foldk_total l : forall s, evalShape eval -> (forall k t, (k < length (gs_spawned s) + length l)%nat -> In t l \/ In t (map snd (gs_pending s)) -> exists r, eval k t = Ok r) ->
  (forall k t, In (k, t) (gs_pending s) -> (k < length (gs_spawned s))%nat) ->
  Z.of_nat (length (gs_pending s)) < N -> exists q, foldE (gridBody N eval) l s = Ok q.
Proof.
  intros s HE. revert s. induction l as [|t l IH]; intros s HT HK HP; cbn [foldE]; [eauto|].
  assert (HB : exists r, gridBody N eval t s = Ok r /\ match r with inl s' => Z.of_nat (length (gs_pending s')) < N /\
     gs_spawned s' = gs_spawned s ++ [t] /\ (forall k' t', In (k', t') (gs_pending s') -> (k' < length (gs_spawned s'))%nat) /\
     (forall t', In t' (map snd (gs_pending s')) -> In t' (t :: l) \/ In t' (map snd (gs_pending s))) | inr _ => True end).
  { unfold gridBody. destruct (Z.leb_spec N (Z.of_nat (length (gs_pending s)))); [lia|]. destruct (Z.eqb_spec (Z.of_nat (length (gs_pending s)) + 1) N).
    - assert (HM : forall l0, (forall p, In p l0 -> (fst p <= length (gs_spawned s))%nat /\ (In (snd p) (t :: l) \/ In (snd p) (map snd (gs_pending s)))) ->
          exists rets, mapM (fun p => eval (fst p) (snd p)) l0 = Ok rets /\ Forall sentShape rets).
      { clear -HE HT. induction l0 as [|p l0 IH]; intros HI; simpl; [eauto|]. destruct IH as (rets & IH & IF); [intros; apply HI; right; auto|].
        destruct (HI p) as [HI1 HI2]; [left; auto|].
        destruct (HT (fst p) (snd p)) as (r & Hr); [cbn [length]; lia|auto|]. rewrite Hr, IH. simpl. eexists. split; [reflexivity|]. constructor; auto. eapply HE; eauto. }
      destruct (HM (gs_pending s ++ [(length (gs_spawned s), t)])) as (rets & -> & HF).
      { intros p Hp. apply in_app_iff in Hp as [Hp|[<-|[]]].
        - split; [destruct p as [k t']; specialize (HK _ _ Hp); cbn [fst]; lia|right; apply in_map; auto].
        - split; [cbn [fst]; lia|left; left; auto]. }
      cbn [bind].
      assert (HR : forall rets b f, Forall sentShape rets -> exists q, rescueConcValues (map cv_sent rets) b f = Ok q).
      { clear. induction rets as [|r rets IH]; intros b f HF; cbn [map rescueConcValues]; [eauto|]. inversion HF as [|x y Hr HS']; subst. unfold sentShape in Hr. rewrite Hr.
        destruct (cv_err r); [eauto|]. destruct (fltb (cv_acc r) fzero); [eauto|]. destruct (fltb b (cv_acc r)); auto. }
      destruct (HR rets (gs_best s) (gs_final s) HF) as ([[b f]|u] & ->); cbn [bind]; eexists; (split; [reflexivity|]); cbn [gs_pending gs_spawned map length]; auto.
      split; [lia|]. split; [auto|]. split; intros; contradiction.
    - eexists. split; [reflexivity|]. cbn [gs_pending gs_spawned]. rewrite app_length. cbn [length]. split; [lia|]. split; [auto|]. split.
      + intros k' t' Ht. rewrite app_length. cbn [length]. apply in_app_iff in Ht as [Ht|[Ht|[]]]; [specialize (HK _ _ Ht); lia|injection Ht as <- _; lia].
      + intros t' Ht. rewrite map_app in Ht. apply in_app_iff in Ht as [Ht|[<-|[]]]; [auto|left; left; auto]. }
  destruct HB as ([s'|e] & -> & HB); cbn [bind]; eauto. destruct HB as (HB1 & HB2 & HB3 & HB4). apply IH; auto.
  intros k t' Hk Ht. rewrite HB2, app_length in Hk. cbn [length] in Hk. apply HT; [cbn [length]; lia|]. destruct Ht as [Ht|Ht]; [left; right; auto|auto].
Qed.
End Fold.

Lemma points_ok id o a t : goodGrid o -> axesOf o a -> In t (points id o a) -> optsOk t.
Proof.
  intros G HA Ht. pose proof (points_bounds id o a t HA Ht) as HB. unfold inBounds in HB.
  destruct HB as (_ & _ & _ & B1 & _ & _ & _ & B2 & _ & _ & _ & B3 & _ & _ & _ & B4).
  assert (HP : forall r, fairStep r -> fleb fzero (r_step r) = true).
  { intros r (_ & _ & Fs & P & _). apply fleb_true. split; [reflexivity|]. split; [destruct (r_step r); try discriminate; reflexivity|]. rewrite ext_fzero, (ext_finite _ Fs). lra. }
  specialize (B3 (HP _ (gg_css o G))). specialize (B4 (HP _ (gg_ss o G))).
  assert (HT : forall a b, fleb fzero a = true -> fleb a b = true -> fleb fzero b = true).
  { intros x y H1 H2. apply fleb_true in H1 as (N1 & N2 & H1). apply fleb_true in H2 as (_ & N3 & H2). apply fleb_true. repeat split; auto. lra. }
  assert (HI : exists c, isPoint id o c t).
  { unfold points in Ht. apply in_map_iff in Ht as (c & <- & _). exists c. destruct c as [[[[[[[rounds cw] md] css] lr] lam] gam] ss]. repeat split; reflexivity. }
  destruct HI as (c & _ & Ex & _ & Eq). split.
  - replace (o_loss t) with (o_loss (if g_xgb o then DefaultXOptions id else DefaultGOptions id)) by congruence. destruct (g_xgb o); apply lossSized_std.
  - intros _. exact (HT _ _ (gg_ss0 o G) B4).
  - intros _. exact (HT _ _ (gg_css0 o G) B3).
  - rewrite Ex. destruct (g_xgb o); auto. right. right. replace (o_minsample t) with (o_minsample (DefaultXOptions id)) by congruence. cbn. lia.
Qed.

Section Search.
Context {K : Type} (E : Env) (ints : nat -> nat -> Z) (rndf : nat -> nat -> draws) (id : Z) (D : DataBunch K) (nfold : Z).
Hypothesis HE : EnvOk E.
Hypothesis HG : goodTable (Data D).
Hypothesis H2 : (2 <= length (Data D))%nat.
Hypothesis HL : length (Labels D) = length (Data D).
Hypothesis HS : sizesOk (Data D).
Hypothesis HV : forall k, validInts (Z.of_nat (length (Data D))) (ints k).
Hypothesis HF : forall k, fairInts (Z.of_nat (length (Data D))) (ints k).
Let ev fuel k t := MultiClassCrossValidation E fuel (ints k) (rndf k) id D nfold (Some t) true.

Lemma fuel_one t : optsOk t -> forall n, exists F, forall fuel k, (F <= fuel)%nat -> (k < n)%nat -> exists r, ev fuel k t = Ok r.
Proof.
  intros Ht. induction n as [|n (F & IH)]; [exists 0%nat; lia|].
  destruct (c100_lemma E (ints n) (rndf n) id D nfold (Some t) true HE HG H2 HL HS Ht (HV n) (HF n)) as (F' & r & Hr).
  exists (max F F'). intros fuel k Hf Hk. destruct (Nat.eq_dec k n) as [->|Hkn].
  - exists r. eapply MCCV_more; [|exact Hr]. lia.
  - apply IH; lia.
Qed.
Lemma fuel_all n : forall l, (forall t, In t l -> optsOk t) -> exists F, forall fuel k t, (F <= fuel)%nat -> (k < n)%nat -> In t l -> exists r, ev fuel k t = Ok r.
Proof.
  induction l as [|t l IH]; intros Ht; [exists 0%nat; intros; contradiction|].
  destruct IH as (F & IH); [intros; apply Ht; right; auto|]. destruct (fuel_one t (Ht t (or_introl eq_refl)) n) as (F' & H').
  exists (max F F'). intros fuel k t' Hf Hk [<-|Hin]; [apply H'; lia|apply IH; auto; lia].
Qed.
Lemma ev_shape fuel : evalShape (ev fuel).
Proof. exact (fun k t r' H => MCCV_shape E fuel (ints k) (rndf k) id D nfold (Some t) r' H). Qed.
Lemma search_returns o : goodGrid o -> exists fuel r, GridWith fuel id (ev fuel) o = Ok r.
Proof.
  intros G. destruct (axes_ex o G) as (a & HA).
  destruct (fuel_all (length (points id o a)) (points id o a)) as (F & HFl); [intros t Ht; eapply points_ok; eauto|].
  set (F2 := S (length (x_rounds a) + length (x_mcw a) + length (x_md a) + length (x_css a) + length (x_lr a) + length (x_lam a) + length (x_gam a) + length (x_ss a))).
  exists (F + F2)%nat. pose proof (gg_ncpus o G) as HN.
  destruct (foldk_total (g_ncpus o) (ev (F + F2)) (points id o a) gs0 (ev_shape _)) as (q & Hq).
  - cbn [gs0 gs_spawned gs_pending length map]. intros k t Hk [Ht|[]]. apply HFl; auto. lia.
  - intros k t [].
  - cbn [gs0 gs_pending length]. lia.
  - exists (finish q). rewrite (GridWith_enough id (ev (F + F2)) o (F + F2) a HA); [rewrite Hq; reflexivity|lia|unfold F2; repeat split; lia].
Qed.
(** an ordinary search ends without an error *)
Lemma search_noerr o fuel r : goodGrid o -> (4 <= length (Data D))%nat -> nfold <> 1 -> Z.of_nat (length (Data D)) < 2 ^ 46 ->
  GridWith fuel id (ev fuel) o = Ok r -> gr_err r = false.
Proof.
  clear HE HG H2 HS HF. intros G H4 Hf Hsz H. destruct (gr_err r) eqn:Er; auto. exfalso.
  destruct (c56_lemma fuel id (ev fuel) o r (ev_shape fuel) (gg_ncpus o G) (axes_ex o G) H) as (_ & HC). cbv zeta in HC. rewrite Er in HC.
  destruct HC as (_ & _ & _ & k & _ & _ & t & rr & _ & Hr & HO). unfold ev in Hr.
  pose proof (c84_lemma E fuel (ints k) (rndf k) id D nfold (Some t) true rr (HV k) HL Hsz Hr) as [C1 _].
  pose proof (c54_lemma E fuel (ints k) (rndf k) id D nfold (Some t) true rr (HV k) HL Hr) as C2. cbv zeta in C2.
  destruct HO as [He|Hn].
  - rewrite He in C2. destruct C2 as (C2 & _). assert (2 <= length (Data D) / 2)%nat by (apply Nat.div_le_lower_bound; lia).
    assert (2 <= requested nfold)%nat by (unfold requested; destruct (Z.ltb_spec 0 nfold); lia). lia.
  - apply fleb_true in C1 as (_ & _ & C1). apply fltb_true in Hn as (_ & _ & Hn). lra.
Qed.
(** too few rows, or one fold: an error, once a batch is complete *)
Lemma search_err o fuel r : goodGrid o -> (Nat.min (requested nfold) (length (Data D) / 2) < 2)%nat ->
  GridWith fuel id (ev fuel) o = Ok r -> g_ncpus o <= Z.of_nat (length (gr_spawned r)) -> gr_err r = true /\ gr_acc r = fofZ (-1) /\ gr_opts r = None.
Proof.
  clear HE HG H2 HS HF. intros G Hm H Hb.
  destruct (c56_lemma fuel id (ev fuel) o r (ev_shape fuel) (gg_ncpus o G) (axes_ex o G) H) as (_ & HC). cbv zeta in HC. pose proof (gg_ncpus o G) as HN.
  destruct (gr_err r) eqn:Er; [destruct HC as (C1 & C2 & _); auto|]. exfalso. destruct HC as (outs & Hlen & Ho & _).
  assert (Hq : (1 <= length (gr_spawned r) / Z.to_nat (g_ncpus o))%nat) by (apply Nat.div_le_lower_bound; lia).
  destruct outs as [|out outs]; [cbn [length] in Hlen; nia|]. destruct (Ho 0%nat out eq_refl) as (t & rr & _ & Hr & HO). unfold ev in Hr.
  pose proof (c54_lemma E fuel (ints 0%nat) (rndf 0%nat) id D nfold (Some t) true rr (HV 0%nat) HL Hr) as C2. cbv zeta in C2.
  destruct out as [acc op]. destruct HO as (He & _). rewrite He in C2. destruct C2 as (C2 & _). lia.
Qed.
End Search.
