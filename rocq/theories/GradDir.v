(** Proofs for C139: size and direction of a gradient step. *)
From Coq Require Import Reals Lra Lia.
From Verif Require Import Base F64 F64Lemmas Env EnvLemmas Utils Tree Options Train Spec CV SpecCV CVProofs Grid SpecGrid GridProofs Grad GradConc SpecGrad GradProofs SpecGradDir.
Open Scope Z_scope.

Lemma Some_inj {A} (a b : A) : Some a = Some b -> a = b. Proof. congruence. Qed.
Lemma Ok_inj {A} (a b : A) : Ok a = Ok b -> a = b. Proof. congruence. Qed.
Lemma move_spec co der st p o o' : move co der st p o = Some o' -> movedBy p (fmul (fmul der (gridStepOf co p)) st) o o'.
Proof.
  intros H. split; [eapply move_same; eauto|]. destruct p; cbn [move] in H; try discriminate H; apply Some_inj in H; subst o'; reflexivity.
Qed.
Lemma moved_unique p d c v w : movedBy p d c v -> movedBy p d c w -> v = w.
Proof.
  intros [[A1 A2] A3] [[B1 B2] B3]. apply opts_ext; [congruence|]. intros q. destruct (param_eq_dec q p) as [->|Hq]; [|rewrite A2, B2; auto].
  destruct (paramOf p c), (paramOf p v), (paramOf p w); try contradiction; congruence.
Qed.
Lemma trial_first co p der step c : Clone c = c -> forall fuel k O', trialLoop fuel co p der step (reduced step k) c c = Ok O' -> searched p ->
  (forall j, (j < k)%nat -> fltb (fmul (fdec 1 10) step) (reduced step j) = true /\ forall w, trial co p der step c j w -> ~ inBox co w) ->
  firstInBox co p der step c O'.
Proof.
  intros Hc. induction fuel as [|f IH]; intros k O' H Hp HK; cbn [trialLoop] in H; [discriminate H|].
  destruct (fltb (fmul (fdec 1 10) step) (reduced step k)) eqn:El.
  - destruct (move co der (reduced step k) p c) as [O1|] eqn:Em.
    + apply move_spec in Em. destruct (checkAgainstOptions O1 co) eqn:Ec.
      * apply Ok_inj in H. subst O'. apply check_box in Ec. exists k. split; auto.
      * rewrite Hc in H. apply (IH (S k)); auto. intros j Hj. destruct (Nat.eq_dec j k) as [->|Hjk]; [|apply HK; lia].
        split; auto. intros w Hw. rewrite (moved_unique _ _ _ _ _ Hw Em), <- check_box. congruence.
    + apply move_none in Em. destruct Hp. tauto.
  - apply Ok_inj in H. subst O'. exists k. auto.
Qed.
Lemma first_or co p der step c v : firstInBox co p der step c v -> v = c \/ inBox co v.
Proof. intros (k & _ & [(_ & _ & H)|(_ & H)]); auto. Qed.

Section Step.
Context (fuel : nat) (eval : bool -> Options -> res cvRet) (co : GridOptions) (p : param) (step fd curr : f64) (central : bool).
Hypothesis HE : forall up o r, eval up o = Ok r -> sentShape r.
Hypothesis Hp : searched p.
Lemma received_acc up o r e a : eval up o = Ok r -> received r = Ok (e, a) -> e = cv_err r /\ a = accOf r.
Proof.
  intros H H2. apply HE in H. unfold received, accOf in *. rewrite H in H2. destruct (cv_err r); apply Ok_inj in H2; inversion H2; auto.
Qed.
Lemma rest_first der o l :
  (if fltb (fmul (fdec 1 10) step) step then
      match move co der step p (Clone o) with
      | None => Ok [ASend0]
      | Some O1 =>
          O' <- trialLoop fuel co p der step step (Clone o) (Clone (Clone o)) ;;
          Ok [AMut O1; ASendV (if checkAgainstOptions O' co then O' else Clone (Clone o))]
      end
    else Ok [ASendV (if checkAgainstOptions (Clone o) co then Clone o else Clone (Clone o))]) = Ok l ->
  exists v, sends (Clone o) l = [v] /\ firstInBox co p der step (Clone o) v.
Proof.
  rewrite Clone_Clone. intros H. destruct (fltb (fmul (fdec 1 10) step) step) eqn:El.
  - destruct (move co der step p (Clone o)) as [O1|] eqn:Em.
    + apply bind_Ok in H as (O' & HT & H). apply Ok_inj in H. subst l.
      change step with (reduced step 0) in HT at 2. apply trial_first in HT; [|apply Clone_Clone|exact Hp|intros; lia].
      exists O'. split; [|exact HT]. cbn [sends]. destruct (first_or _ _ _ _ _ _ HT) as [->|Hb].
      * destruct (checkAgainstOptions (Clone o) co); reflexivity.
      * apply check_box in Hb. rewrite Hb. reflexivity.
    + apply move_none in Em. destruct Hp. tauto.
  - apply Ok_inj in H. subst l. exists (Clone o). split; [cbn [sends]; destruct (checkAgainstOptions (Clone o) co); reflexivity|].
    exists 0%nat. split; [intros; lia|]. right. split; auto.
Qed.
Lemma valueOf_current o : currentValue o p = valueOf p o.
Proof. destruct Hp as [H1 H2]. destruct p; try congruence; reflexivity. Qed.
Lemma step_size Op sent : ParamaterGradStep fuel eval co p step fd curr central Op = Ok sent ->
  exists c pO rp pre v, copyOf Op c /\ shifted fd true p c pO /\ eval true pO = Ok rp /\ sent = pre ++ [v] /\ (forall w, In w pre -> w = c) /\
  let h := fmul fd (valueOf p c) in
  if central then exists mO rm, shifted fd false p c mO /\ eval false mO = Ok rm /\
    firstInBox co p (fmul (fdiv (fsub (accOf rp) (accOf rm)) (fofZ 2)) h) step c v
  else if fltb h fzero then v = c else firstInBox co p (fdiv (fsub (accOf rp) curr) h) step c v.
Proof.
  unfold ParamaterGradStep. intros H. apply bind_Ok in H as (al & H & H'). apply Ok_inj in H'. subst sent.
  unfold gradActs in H. apply bind_Ok in H as (pO & HpO & H). apply bind_Ok in H as (el & Hel & H). apply bind_Ok in H as (rp & Hrp & H).
  apply bind_Ok in H as ([perr pacc] & Hrec & H). destruct (received_acc _ _ _ _ _ Hrp Hrec) as [-> ->]. rewrite Clone_Clone in *.
  apply nudge_spec in HpO. exists (Clone Op), pO, rp.
  assert (HR : forall n (w : Options), In w (repeat (Clone Op) n) -> w = Clone Op) by (intros n w Hw; apply repeat_spec in Hw; auto).
  destruct central.
  - apply bind_Ok in H as (mO & HmO & H). rewrite HmO in Hel. cbn [bind] in Hel. apply bind_Ok in H as (rm & Hrm & H).
    apply bind_Ok in H as ([merr macc] & Hrec2 & H). destruct (received_acc _ _ _ _ _ Hrm Hrec2) as [-> ->]. apply bind_Ok in H as (tl & Htl & H). apply Ok_inj in H. subst al.
    apply rest_first in Htl as (v & Hv & HF). apply nudge_spec in HmO. apply Ok_inj in Hel. subst el.
    exists (repeat (Clone Op) (b2n (negb (Check mO)) + b2n (cv_err rp) + b2n (cv_err rm))), v.
    split; [reflexivity|]. split; [exact HpO|]. split; [exact Hrp|]. split; [|split; [apply HR|]].
    + rewrite <- Hv, <- sends_app. destruct (Check mO), (cv_err rp), (cv_err rm); reflexivity.
    + cbv zeta. exists mO, rm. split; [exact HmO|]. split; [exact Hrm|]. rewrite <- valueOf_current. exact HF.
  - apply Ok_inj in Hel. subst el. rewrite valueOf_current in H. destruct (fltb (fmul fd (valueOf p (Clone Op))) fzero) eqn:Eh.
    + apply Ok_inj in H. subst al. exists (repeat (Clone Op) (b2n (cv_err rp))), (Clone Op).
      split; [reflexivity|]. split; [exact HpO|]. split; [exact Hrp|]. split; [|split; [apply HR|]].
      * destruct (cv_err rp); reflexivity.
      * cbv zeta. rewrite ?Eh. reflexivity.
    + apply bind_Ok in H as (tl & Htl & H). apply Ok_inj in H. subst al. apply rest_first in Htl as (v & Hv & HF).
      exists (repeat (Clone Op) (b2n (cv_err rp))), v. split; [reflexivity|]. split; [exact HpO|]. split; [exact Hrp|]. split; [|split; [apply HR|]].
      * rewrite <- Hv, <- sends_app. destruct (cv_err rp); reflexivity.
      * cbv zeta. rewrite ?Eh. exact HF.
Qed.
End Step.

(** ** signs *)
Local Opaque Mx.
Definition signOk (s : R) (x : f64) : Prop := fnanb x = true \/ (0 <= s * ext x)%R.
Lemma nan_or x : fnanb x = true \/ fnanb x = false. Proof. destruct (fnanb x); auto. Qed.
Lemma rnd_sign s x : (s = 1 \/ s = -1)%R -> (0 <= s * x)%R -> (0 <= s * clamp (rnd x))%R.
Proof.
  intros [-> | ->] H.
  - rewrite Rmult_1_l in *. apply clamp_ge0, rnd_ge_0. auto.
  - assert (Hx : (rnd x <= 0)%R) by (apply rnd_le_0; lra). pose proof Mx_pos. unfold clamp, Rmax, Rmin. repeat destruct (Rle_dec _ _); lra.
Qed.
Lemma mul_sign s a b : (s = 1 \/ s = -1)%R -> signOk s a -> signOk 1 b -> signOk s (fmul a b).
Proof.
  intros Hs HA HB. destruct (nan_or (fmul a b)) as [N|N]; [left; auto|]. right.
  destruct (ffinite a) eqn:Fa, (ffinite b) eqn:Fb.
  - destruct (fmul_ext a b Fa Fb) as [_ E]. rewrite E. apply rnd_sign; auto.
    destruct HA as [HA|HA]; [rewrite (finite_nnan a Fa) in HA; discriminate HA|]. destruct HB as [HB|HB]; [rewrite (finite_nnan b Fb) in HB; discriminate HB|].
    rewrite (ext_finite _ Fa) in HA. rewrite (ext_finite _ Fb) in HB. replace (s * (B2R a * B2R b))%R with ((s * B2R a) * B2R b)%R by ring. apply Rmult_le_pos; lra.
  - destruct b as [sb|[|]| |sb mb eb Hb]; try discriminate Fb; pose proof Mx_pos.
    + destruct HB as [HB|HB]; [discriminate HB|]. cbn [ext] in HB. lra.
    + destruct HA as [HA|HA]; [rewrite (finite_nnan a Fa) in HA; discriminate HA|]. destruct a as [sa|sa| |[|] ma ea Ha]; try discriminate Fa; try discriminate N;
      cbn in HA |- *; [assert (0 < F2R (Float radix2 (Zpos ma) ea))%R by (apply F2R_gt_0; reflexivity)|assert (0 < F2R (Float radix2 (Zpos ma) ea))%R by (apply F2R_gt_0; reflexivity)].
      * assert (F2R (Float radix2 (Zneg ma) ea) < 0)%R by (apply F2R_lt_0; reflexivity). destruct Hs as [-> | ->]; lra.
      * destruct Hs as [-> | ->]; lra.
    + destruct a; discriminate N.
  - destruct HB as [HB|HB]; [rewrite (finite_nnan b Fb) in HB; discriminate HB|]. destruct a as [sa|sa| |sa ma ea Ha]; try discriminate Fa; [|destruct b; discriminate N].
    destruct HA as [HA|HA]; [discriminate HA|]. pose proof Mx_pos. destruct b as [sb|sb| |[|] mb eb Hb]; try discriminate Fb; try discriminate N.
    + exfalso. cbn in HB. assert (F2R (Float radix2 (Zneg mb) eb) < 0)%R by (apply F2R_lt_0; reflexivity). lra.
    + cbn in HA |- *. destruct sa; exact HA.
  - destruct a as [sa|sa| |sa ma ea Ha]; try discriminate Fa; [|destruct b; discriminate N]. destruct b as [sb|[|]| |sb mb eb Hb]; try discriminate Fb; [| |discriminate N].
    + destruct HB as [HB|HB]; [discriminate HB|]. cbn [ext] in HB. pose proof Mx_pos. lra.
    + destruct HA as [HA|HA]; [discriminate HA|]. cbn in HA |- *. destruct sa; exact HA.
Qed.
Lemma div_sign s a b : (s = 1 \/ s = -1)%R -> signOk s a -> fltb fzero b = true -> signOk s (fdiv a b).
Proof.
  intros Hs HA HB. destruct (nan_or (fdiv a b)) as [N|N]; [left; auto|]. right. apply fltb_true in HB as (_ & NB & HB). rewrite ext_fzero in HB. pose proof Mx_pos as MP.
  destruct (ffinite a) eqn:Fa, (ffinite b) eqn:Fb.
  - rewrite (ext_finite _ Fb) in HB. destruct (fdiv_ext a b Fa Fb) as [_ E]; [lra|]. rewrite E. apply rnd_sign; auto.
    destruct HA as [HA|HA]; [rewrite (finite_nnan a Fa) in HA; discriminate HA|]. rewrite (ext_finite _ Fa) in HA. unfold Rdiv. rewrite <- Rmult_assoc.
    apply Rmult_le_pos; [auto|left; apply Rinv_0_lt_compat; auto].
  - destruct b as [sb|sb| |sb mb eb Hb]; try discriminate Fb; [|discriminate NB]. destruct a as [sa|sa| |sa ma ea Ha]; try discriminate Fa; cbn; lra.
  - destruct a as [sa|sa| |sa ma ea Ha]; try discriminate Fa; [|destruct b; discriminate N]. destruct HA as [HA|HA]; [discriminate HA|].
    destruct b as [sb|sb| |[|] mb eb Hb]; try discriminate Fb.
    + exfalso. cbn in HB. lra.
    + exfalso. cbn in HB. assert (F2R (Float radix2 (Zneg mb) eb) < 0)%R by (apply F2R_lt_0; reflexivity). lra.
    + cbn in HA |- *. destruct sa; exact HA.
  - destruct a as [sa|sa| |sa ma ea Ha]; try discriminate Fa; [|destruct b; discriminate N]. destruct b as [sb|sb| |sb mb eb Hb]; try discriminate Fb; discriminate N.
Qed.
Lemma sub_sign s a b : (s = 1 \/ s = -1)%R -> fnanb a = false -> fnanb b = false -> (0 <= s * (ext a - ext b))%R -> signOk s (fsub a b).
Proof.
  intros Hs NA NB H. destruct (nan_or (fsub a b)) as [N|N]; [left; auto|]. right. pose proof Mx_pos as MP.
  destruct (ffinite a) eqn:Fa, (ffinite b) eqn:Fb.
  - destruct (fsub_ext a b Fa Fb) as [_ E]. rewrite E. rewrite (ext_finite _ Fa), (ext_finite _ Fb) in H. apply rnd_sign; auto.
  - pose proof (ext_bounds a) as BA. rewrite (ext_finite _ Fa) in *. pose proof (B2R_bounds a). destruct b as [sb|sb| |sb mb eb Hb]; try discriminate Fb; [|discriminate NB].
    destruct a as [sa|sa| |sa ma ea Ha]; try discriminate Fa; cbn in H |- *; destruct sb; cbn in *; destruct Hs as [-> | ->]; lra.
  - pose proof (B2R_bounds b). rewrite (ext_finite _ Fb) in *. destruct a as [sa|sa| |sa ma ea Ha]; try discriminate Fa; [|discriminate NA].
    destruct b as [sb|sb| |sb mb eb Hb]; try discriminate Fb; cbn in H |- *; destruct sa; cbn in *; destruct Hs as [-> | ->]; lra.
  - destruct a as [sa|sa| |sa ma ea Ha]; try discriminate Fa; [|discriminate NA]. destruct b as [sb|sb| |sb mb eb Hb]; try discriminate Fb; [|discriminate NB].
    destruct sa, sb; try discriminate N; cbn in *; destruct Hs as [-> | ->]; lra.
Qed.
Lemma add_sign s x d : (s = 1 \/ s = -1)%R -> fnanb x = false -> signOk s d -> fnanb (fadd x d) = true \/ (0 <= s * (ext (fadd x d) - ext x))%R.
Proof.
  intros Hs NX HD. destruct (nan_or (fadd x d)) as [N|N]; [left; auto|]. right. destruct Hs as [-> | ->].
  - pose proof (fadd_ge x d NX) as G. destruct HD as [HD|HD].
    + exfalso. destruct d; try discriminate HD. destruct x; discriminate N.
    + assert (Hd : fleb fzero d = true). { apply fleb_true. split; [reflexivity|]. split; [destruct d; auto; destruct x; discriminate N|]. rewrite ext_fzero. lra. }
      specialize (G Hd N). lra.
  - pose proof Mx_pos as MP. destruct HD as [HD|HD]; [exfalso; destruct d; try discriminate HD; destruct x; discriminate N|].
    destruct (ffinite x) eqn:Fx, (ffinite d) eqn:Fd.
    + destruct (fadd_ext x d Fx Fd) as [_ E]. rewrite E. rewrite (ext_finite _ Fx), (ext_finite _ Fd) in *. pose proof (B2R_bounds x).
      assert (clamp (rnd (B2R x + B2R d)) <= B2R x)%R; [|lra]. rewrite <- (clamp_id (B2R x)) at 2 by lra. apply clamp_mono. rewrite <- (rnd_B2R x) at 2. apply rnd_mono. lra.
    + destruct d as [sd|[|]| |sd md ed Hd]; try discriminate Fd; [| |destruct x; discriminate N].
      * pose proof (ext_bounds x). destruct x as [sx|sx| |sx mx ex Hx]; try discriminate Fx; cbn in *; lra.
      * cbn [ext] in HD. lra.
    + destruct x as [sx|[|]| |sx mx ex Hx]; try discriminate Fx; [| |discriminate NX].
      * destruct d as [sd|[|]| |sd md ed Hd]; try discriminate Fd; cbn in *; lra.
      * destruct d as [sd|[|]| |sd md ed Hd]; try discriminate Fd; cbn in *; lra.
    + destruct x as [sx|[|]| |sx mx ex Hx]; try discriminate Fx; [| |discriminate NX]; destruct d as [sd|[|]| |sd md ed Hd]; try discriminate Fd; try discriminate N; cbn in *; lra.
Qed.
Lemma tenth_pos step : fltb (fmul (fdec 1 10) step) step = true -> (0 < ext step)%R /\ fnanb step = false.
Proof.
  intros H. apply fltb_true in H as (N1 & N2 & H). split; auto. destruct (Rlt_le_dec 0 (ext step)) as [|L]; auto. exfalso.
  assert (FT : ffinite (fdec 1 10) = true) by (vm_compute; reflexivity).
  assert (T : (0 <= B2R (fdec 1 10) <= 1)%R).
  { assert (T1 : fleb fzero (fdec 1 10) = true) by (vm_compute; reflexivity). assert (T2 : fleb (fdec 1 10) fone = true) by (vm_compute; reflexivity).
    apply fleb_true in T1 as (_ & _ & T1). apply fleb_true in T2 as (_ & _ & T2). rewrite ext_fzero, (ext_finite _ FT) in T1. change (ext fone) with (B2R fone) in T2. rewrite B2R_fone, (ext_finite _ FT) in T2. lra. }
  destruct (ffinite step) eqn:Fs.
  - destruct (fmul_ext (fdec 1 10) step FT Fs) as [_ E]. rewrite E, (ext_finite _ Fs) in *. pose proof (B2R_bounds step).
    assert (B2R step <= clamp (rnd (B2R (fdec 1 10) * B2R step)))%R; [|lra]. rewrite <- (clamp_id (B2R step)) at 1 by lra. apply clamp_mono.
    rewrite <- (rnd_B2R step) at 1. apply rnd_mono. nra.
  - pose proof Mx_pos. pose proof (ext_bounds (fmul (fdec 1 10) step)). destruct step as [sx|[|]| |sx mx ex Hx]; try discriminate Fs; [| |discriminate N2]; cbn [ext] in *; lra.
Qed.
Lemma first_sign s co p der step c v : (s = 1 \/ s = -1)%R -> signOk s der -> fleb fzero (gridStepOf co p) = true -> firstInBox co p der step c v ->
  v = c \/ (inBox co v /\ exists d, signOk s d /\ movedBy p d c v).
Proof.
  intros Hs HD HG (k & HK & [(H1 & H2 & H3)|(_ & H)]); [|auto]. right. split; auto. eexists. split; [|exact H2].
  assert (HT : fltb (fmul (fdec 1 10) step) step = true) by (destruct k as [|k]; [exact H1|exact (proj1 (HK 0%nat (Nat.lt_0_succ k)))]).
  apply tenth_pos in HT as [HT NT]. apply fleb_true in HG as (_ & _ & HG). rewrite ext_fzero in HG.
  apply mul_sign; auto; [apply mul_sign; auto; right; lra|]. apply fltb_true in H1 as (N1 & N2 & H1). right.
  assert (H10 : signOk 1 (fmul (fdec 1 10) step)).
  { apply mul_sign; [lra| |right; lra]. right. assert (T1 : fleb fzero (fdec 1 10) = true) by (vm_compute; reflexivity). apply fleb_true in T1 as (_ & _ & T1). rewrite ext_fzero in T1. lra. }
  destruct H10 as [H10|H10]; [congruence|]. lra.
Qed.
Lemma ftoZ_up d : signOk 1 d -> 0 <= ftoZ d \/ ftoZ d = - 2 ^ 63.
Proof.
  intros H. unfold ftoZ. destruct d as [sd|sd| |[|] md ed Hd]; auto; [left; lia| |].
  - destruct H as [H|H]; [discriminate H|]. exfalso. cbn [ext B2R] in H. assert (F2R (Float radix2 (cond_Zopp true (Zpos md)) ed) < 0)%R by (apply F2R_lt_0; reflexivity). lra.
  - cbv zeta. destruct (_ && _)%bool; [left|right; reflexivity]. apply le_IZR. rewrite (Btrunc_correct 53 1024 Hemax), round_FIX_IZR. apply IZR_le.
    replace 0 with (Ztrunc 0) by apply (Ztrunc_IZR 0). apply Ztrunc_le. cbn [B2R]. apply F2R_ge_0. discriminate.
Qed.
Lemma ftoZ_down d : signOk (-1) d -> ftoZ d <= 0.
Proof.
  intros H. unfold ftoZ. destruct d as [sd|sd| |[|] md ed Hd]; auto; try lia.
  - cbv zeta. destruct (_ && _)%bool; [|lia]. apply le_IZR. rewrite (Btrunc_correct 53 1024 Hemax), round_FIX_IZR. apply IZR_le.
    replace 0 with (Ztrunc 0) by apply (Ztrunc_IZR 0). apply Ztrunc_le. cbn [B2R]. apply F2R_le_0. discriminate.
  - destruct H as [H|H]; [discriminate H|]. exfalso. cbn [ext B2R] in H. assert (0 < F2R (Float radix2 (cond_Zopp false (Zpos md)) ed))%R by (apply F2R_gt_0; reflexivity). lra.
Qed.
Lemma fleb_refl' x : fnanb x = false -> fleb x x = true. Proof. intros H. apply fleb_true. repeat split; auto. lra. Qed.
Lemma follows_same base better o : (forall x, o = inl x -> fnanb x = false) -> follows base better o o.
Proof. intros H. destruct o as [x|n]; cbn [follows]; [|lia]. specialize (H x eq_refl). pose proof (fleb_refl' x H). tauto. Qed.
Lemma first_follows co p base better der step c v : searched p -> (forall x, paramOf p c = inl x -> fnanb x = false) -> fleb fzero (gridStepOf co p) = true ->
  (p = PRounds -> o_rounds c - 2 ^ 63 < r_lo (g_rounds co)) ->
  (fleb base better = true -> signOk 1 der) -> (fleb better base = true -> signOk (-1) der) ->
  firstInBox co p der step c v -> follows base better (paramOf p c) (paramOf p v).
Proof.
  intros Hp HN HG HR HU HD HF.
  assert (G : forall s, (s = 1 \/ s = -1)%R -> signOk s der -> v = c \/ (inBox co v /\ exists d, signOk s d /\ movedBy p d c v)).
  { intros s Hs H. eapply first_sign; eauto. }
  assert (HT : exists d, v = c \/ movedBy p d c v).
  { destruct HF as (k & _ & [(_ & H2 & _)|(_ & H)]); [eauto|exists der; left; exact H]. }
  destruct HT as (d0 & [->|[_ H0]]); [apply follows_same; auto|].
  destruct (paramOf p c) as [x|n] eqn:Ec, (paramOf p v) as [y|m] eqn:Ev; try contradiction; cbn [follows]; clear H0.
  - specialize (HN x eq_refl). split; intros Hc.
    + destruct (G 1%R (or_introl eq_refl) (HU Hc)) as [->|(_ & d & Sd & [_ Hm])].
      * assert (y = x) by congruence. subst. right. apply fleb_refl'; auto.
      * rewrite Ec, Ev in Hm. subst y. destruct (add_sign 1 x d) as [A|A]; auto. destruct (nan_or (fadd x d)); auto. right. apply fleb_true. repeat split; auto. lra.
    + destruct (G (-1)%R (or_intror eq_refl) (HD Hc)) as [->|(_ & d & Sd & [_ Hm])].
      * assert (y = x) by congruence. subst. right. apply fleb_refl'; auto.
      * rewrite Ec, Ev in Hm. subst y. destruct (add_sign (-1) x d) as [A|A]; auto. destruct (nan_or (fadd x d)); auto. right. apply fleb_true. repeat split; auto. lra.
  - assert (p = PRounds) as -> by (destruct Hp; destruct p; try discriminate Ec; congruence). specialize (HR eq_refl). cbn [paramOf] in Ec, Ev. split; intros Hc.
    + destruct (G 1%R (or_introl eq_refl) (HU Hc)) as [->|(Hb & d & Sd & [_ Hm])]; [assert (m = n) by congruence; lia|].
      cbn [paramOf] in Hm. destruct Hb as ((Hb & _) & _). assert (o_rounds c = n) by congruence. assert (o_rounds v = m) by congruence.
      destruct (ftoZ_up d Sd); lia.
    + destruct (G (-1)%R (or_intror eq_refl) (HD Hc)) as [->|(Hb & d & Sd & [_ Hm])]; [assert (m = n) by congruence; lia|].
      cbn [paramOf] in Hm. pose proof (ftoZ_down d Sd). assert (o_rounds c = n) by congruence. assert (o_rounds v = m) by congruence. lia.
Qed.
Lemma mul_nan_r a b : fnanb b = true -> fnanb (fmul a b) = true.
Proof. destruct b; try discriminate. destruct a; reflexivity. Qed.
Lemma sub_up a b : fleb b a = true -> signOk 1 (fsub a b).
Proof. intros H. apply fleb_true in H as (N1 & N2 & H). apply sub_sign; auto; lra. Qed.
Lemma sub_down a b : fleb a b = true -> signOk (-1) (fsub a b).
Proof. intros H. apply fleb_true in H as (N1 & N2 & H). apply sub_sign; auto; lra. Qed.
Lemma paramOf_copy p o c : copyOf o c -> paramOf p c = paramOf p o.
Proof. unfold copyOf. intros H. destruct p; cbn [paramOf]; congruence. Qed.

Lemma direction fuel eval co p step fd curr central Op sent v : (forall up o r, eval up o = Ok r -> sentShape r) -> searched p ->
  fltb fzero (fmul fd (valueOf p Op)) = true -> fleb fzero (gridStepOf co p) = true -> (p = PRounds -> o_rounds Op - 2 ^ 63 < r_lo (g_rounds co)) ->
  ParamaterGradStep fuel eval co p step fd curr central Op = Ok sent -> In v sent ->
  exists c pO rp, copyOf Op c /\ shifted fd true p c pO /\ eval true pO = Ok rp /\
  if central then exists mO rm, shifted fd false p c mO /\ eval false mO = Ok rm /\ follows (accOf rm) (accOf rp) (paramOf p Op) (paramOf p v)
  else follows curr (accOf rp) (paramOf p Op) (paramOf p v).
Proof.
  intros HE Hp Hh HG HR H Hv. apply step_size in H as (c & pO & rp & pre & w & Hc & HpO & Hrp & -> & Hpre & H); auto.
  exists c, pO, rp. split; [auto|]. split; [auto|]. split; [auto|]. cbv zeta in H.
  pose proof (paramOf_copy p Op c Hc) as Ep. assert (Evl : valueOf p c = valueOf p Op) by (unfold valueOf; rewrite Ep; reflexivity).
  assert (Er : o_rounds c = o_rounds Op) by (unfold copyOf in Hc; congruence). rewrite Evl in H. rewrite <- Er in HR.
  assert (HN : forall x, paramOf p Op = inl x -> fnanb x = false).
  { intros x Ex. destruct (fnanb x) eqn:N; auto. exfalso. unfold valueOf in Hh. rewrite Ex in Hh. apply fltb_true in Hh as (_ & N2 & _). rewrite (mul_nan_r fd x N) in N2. discriminate N2. }
  pose proof Hh as Hh'. apply fltb_true in Hh' as (_ & Nh & Ph). rewrite ext_fzero in Ph.
  assert (HV : v = c \/ v = w) by (apply in_app_iff in Hv as [Hv|[<-|[]]]; auto).
  assert (HS : forall base better, follows base better (paramOf p Op) (paramOf p c)) by (intros; rewrite Ep; apply follows_same; auto).
  destruct central.
  - destruct H as (mO & rm & HmO & Hrm & HF). exists mO, rm. split; [auto|]. split; [auto|]. destruct HV as [-> | ->]; [auto|]. rewrite <- Ep.
    eapply first_follows; eauto; [rewrite Ep; exact HN| |].
    + intros Hle. apply mul_sign; [lra| |right; lra]. apply div_sign; [lra|apply sub_up; auto|vm_compute; reflexivity].
    + intros Hle. apply mul_sign; [lra| |right; lra]. apply div_sign; [lra|apply sub_down; auto|vm_compute; reflexivity].
  - destruct (fltb (fmul fd (valueOf p Op)) fzero) eqn:Eh.
    + apply fltb_true in Eh as (_ & _ & Eh). rewrite ext_fzero in Eh. exfalso. lra.
    + destruct HV as [-> | ->]; [auto|]. rewrite <- Ep. eapply first_follows; eauto; [rewrite Ep; exact HN| |].
      * intros Hle. apply div_sign; [lra|apply sub_up; auto|exact Hh].
      * intros Hle. apply div_sign; [lra|apply sub_down; auto|exact Hh].
Qed.

(** ** GradStep as a whole *)
Lemma whole_step fuel evc evs co step fd central Ori R curr o : gradBegin evc central Ori = Ok (inl (curr, o)) ->
  GradStep fuel evc evs co step fd central Ori = Ok R ->
  othersOf R = othersOf o /\ forall p, searched p ->
    exists v more, ParamaterGradStep fuel (evs p) co p step fd curr central o = Ok (v :: more) /\ paramOf p R = paramOf p v.
Proof.
  intros HB H. unfold GradStep in H. rewrite HB in H. cbn [bind] in H.
  assert (G : forall ps acc R', NoDup ps -> foldM (fun acc p => l <- ParamaterGradStep fuel (evs p) co p step fd curr central o ;;
            match l with v :: _ => Ok (copyParam p v acc) | [] => Diverge end) acc ps = Ok R' ->
     othersOf R' = othersOf acc /\ (forall p, ~ In p ps -> paramOf p R' = paramOf p acc) /\
     forall p, In p ps -> exists v more, ParamaterGradStep fuel (evs p) co p step fd curr central o = Ok (v :: more) /\ paramOf p R' = paramOf p v).
  { clear. induction ps as [|p ps IH]; intros acc R' ND H; cbn [foldM] in H.
    - apply Ok_inj in H. subst R'. split; [auto|]. split; [auto|]. intros p [].
    - apply bind_Ok in H as (acc1 & H1 & H2). apply bind_Ok in H1 as (l & Hl & H1). destruct l as [|v more]; [discriminate H1|]. apply Ok_inj in H1. subst acc1.
      inversion ND as [|p' ps' Hnin ND']; subst. apply IH in H2 as (A1 & A2 & A3); auto. split; [rewrite A1; apply copy_others|]. split.
      + intros q Hq. rewrite A2; [|intros Hin; apply Hq; right; auto]. apply copy_other. intros ->. apply Hq. left. auto.
      + intros q [<-|Hq]; [|auto]. exists v, more. split; auto. rewrite A2 by auto. apply copy_same. }
  apply G in H as (A1 & _ & A3).
  - split; auto. intros p [Hp1 Hp2]. apply A3. unfold gradOrder. destruct p; try congruence; simpl; tauto.
  - unfold gradOrder. repeat constructor; simpl; intuition discriminate.
Qed.
