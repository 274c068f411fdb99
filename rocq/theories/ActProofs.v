(** Float64 facts about SoftMax, Normalization and the losses (proof support for C23, C25, C26, C27). *)
From Coq Require Import Reals Lra Psatz.
From Verif Require Import Base F64 F64Lemmas Env EnvLemmas Utils Tree Spec UtilsThms.
Open Scope R_scope.

Definition in01 (x : f64) : Prop := fleb fzero x = true /\ fleb x fone = true.
Definition nanOrNN (x : f64) : Prop := fnanb x = true \/ fnn x.

Lemma rnd_1 : rnd 1 = 1.
Proof. rewrite <- B2R_fone. apply rnd_B2R. Qed.
Lemma Mx_ge1 : 1 <= Mx.
Proof. unfold Mx. change 1 with (bpow radix2 0). apply bpow_le. lia. Qed.
Lemma ext_fone : ext fone = 1.
Proof. rewrite ext_finite by reflexivity. apply B2R_fone. Qed.

Lemma fadd_nan a b : fnanb a = true \/ fnanb b = true -> fnanb (fadd a b) = true.
Proof. intros [H|H]; destruct a as [s|s| |s m e He], b as [s1|s1| |s1 m1 e1 He1]; try discriminate; reflexivity. Qed.
Lemma fdiv_nan_r a b : fnanb b = true -> fnanb (fdiv a b) = true.
Proof. intros H; destruct a as [s|s| |s m e He], b as [s1|s1| |s1 m1 e1 He1]; try discriminate; reflexivity. Qed.
Lemma fdiv_nan_l a b : fnanb a = true -> fnanb (fdiv a b) = true.
Proof. intros H; destruct a as [s|s| |s m e He], b as [s1|s1| |s1 m1 e1 He1]; try discriminate; reflexivity. Qed.

Lemma is_sum_nan l s : is_sum l s -> (exists x, In x l /\ fnanb x = true) -> fnanb s = true.
Proof.
  induction 1 as [|x|l1 l2 a b H1 IH1 H2 IH2|l1 l2 a P H IH]; intros (y & Hy & Ny).
  - destruct Hy.
  - destruct Hy as [->|[]]. auto.
  - apply fadd_nan. apply in_app_iff in Hy as [Hy|Hy]; [left; apply IH1|right; apply IH2]; eauto.
  - apply IH. exists y. split; auto. eapply Permutation_in; [apply Permutation_sym; eauto|auto].
Qed.

Lemma all_fnn l : (forall x, In x l -> nanOrNN x) -> (exists x, In x l /\ fnanb x = true) \/ Forall fnn l.
Proof.
  induction l as [|x l IH]; intros H; [right; constructor|].
  destruct (H x) as [Hx|Hx]; [left; auto| |].
  - left. exists x. split; [left|]; auto.
  - destruct IH as [(y & Hy & Ny)|HF]; [intros; apply H; right; auto| |].
    + left. exists y. split; [right|]; auto.
    + right. constructor; auto.
Qed.

Lemma inf_div_inf a b : ext a = Mx -> ext b = Mx -> fnanb a = false -> fnanb b = false -> fnanb (fdiv a b) = true.
Proof.
  intros Ha Hb Na Nb. pose proof (B2R_bounds a). pose proof (B2R_bounds b). pose proof Mx_pos.
  destruct a as [s|[|]| |s m e He], b as [s1|[|]| |s1 m1 e1 He1]; simpl in *; try discriminate; try lra; reflexivity.
Qed.

(** the common core of SoftMax and Normalization *)
Lemma ratio_in01 l s v : is_sum l s -> (forall x, In x l -> nanOrNN x) -> In v l ->
  fnanb (fdiv v s) = true \/ in01 (fdiv v s).
Proof.
  intros HS HN Hv. destruct (all_fnn l HN) as [Hnan|HF].
  { left. apply fdiv_nan_r. eapply is_sum_nan; eauto. }
  destruct (is_sum_nn _ _ HS HF) as [Ns Hle]. specialize (Hle v Hv).
  assert (Nv : fnn v) by (rewrite Forall_forall in HF; auto).
  apply fnn_iff in Ns as [Ns Ps]. apply fnn_iff in Nv as [Nv Pv].
  pose proof (ext_bounds s) as Bs. pose proof (ext_bounds v) as Bv. pose proof Mx_pos as HM.
  destruct (ffinite s) eqn:Fs.
  - rewrite (ext_finite s) in * by auto. pose proof (B2R_bounds s).
    assert (Fv : ffinite v = true) by (apply finite_ext; [auto|]; lra).
    rewrite (ext_finite v) in * by auto.
    destruct (Req_dec (B2R s) 0) as [Hz|Hz].
    + left. assert (Hvz : B2R v = 0) by lra.
      destruct v as [sv|[|]| |sv mv ev Hev]; try discriminate.
      * destruct s as [ss|[|]| |ss ms es Hes]; try discriminate; [reflexivity|].
        exfalso. simpl in Hz. destruct ss.
        -- assert (F2R (Float radix2 (Z.neg ms) es) < 0) by (apply F2R_lt_0; reflexivity). simpl in *; lra.
        -- assert (0 < F2R (Float radix2 (Z.pos ms) es)) by (apply F2R_gt_0; reflexivity). simpl in *; lra.
      * exfalso. simpl in Hvz. destruct sv.
        -- assert (F2R (Float radix2 (Z.neg mv) ev) < 0) by (apply F2R_lt_0; reflexivity). simpl in *; lra.
        -- assert (0 < F2R (Float radix2 (Z.pos mv) ev)) by (apply F2R_gt_0; reflexivity). simpl in *; lra.
    + right. destruct (fdiv_ext v s Fv Fs Hz) as [ND ED].
      assert (H01 : 0 <= B2R v / B2R s <= 1).
      { assert (0 < B2R s) by lra. split.
        - apply Rmult_le_pos; [lra|]. apply Rlt_le, Rinv_0_lt_compat; auto.
        - apply Rmult_le_reg_r with (B2R s); auto. unfold Rdiv. rewrite Rmult_assoc, Rinv_l by lra. lra. }
      assert (HR : 0 <= rnd (B2R v / B2R s) <= 1).
      { split; [apply rnd_ge_0; tauto|]. rewrite <- rnd_1. apply rnd_mono; tauto. }
      pose proof Mx_ge1. rewrite clamp_id in ED by lra.
      split; apply fleb_true; repeat split; auto.
      * rewrite ED. change (ext fzero) with 0. lra.
      * rewrite ED, ext_fone. lra.
  - assert (Es : ext s = Mx).
    { destruct s as [ss|[|]| |ss ms es Hes]; try discriminate; simpl in *; auto; lra. }
    destruct (ffinite v) eqn:Fv.
    + right. destruct s as [ss|[|]| |ss ms es Hes]; try discriminate; [simpl in Es; lra|].
      destruct v as [sv|[|]| |sv mv ev Hev]; try discriminate; simpl; split; destruct sv; reflexivity.
    + left. apply inf_div_inf; auto.
      destruct v as [ss|[|]| |ss ms es Hes]; try discriminate; simpl in *; auto; lra.
Qed.

(** ** C23 *)
Lemma exp_nanOrNN E x : EnvOk E -> nanOrNN (e_exp E x).
Proof.
  intros HE. unfold nanOrNN. destruct (fnanb (e_exp E x)) eqn:En; [auto|]. right. apply fnn_iff. split; auto.
  pose proof (ok_exp_pos E HE x) as H. apply fltb_false in H; auto.
Qed.
Lemma exps_nanOrNN E p : EnvOk E -> forall x, In x (map (e_exp E) p) -> nanOrNN x.
Proof. intros HE x Hx. apply in_map_iff in Hx as (y & <- & _). apply exp_nanOrNN; auto. Qed.

Lemma c23_range_lemma E p q out : EnvOk E -> length q = length p -> SoftMax E p q = Ok out ->
  length out = length p /\ forall x, In x out -> fnanb x = true \/ (fleb fzero x = true /\ fleb x fone = true).
Proof.
  intros HE HL H. rewrite SoftMax_same in H by auto. injection H as <-. unfold softmax.
  split; [rewrite !map_length; auto|]. intros x Hx. apply in_map_iff in Hx as (v & <- & Hv). cbn [ndiv F].
  eapply ratio_in01; [apply (ok_sum E HE)| |exact Hv]. apply exps_nanOrNN; auto.
Qed.

Lemma c23_no_nan_lemma E p q out : EnvOk E -> length q = length p -> SoftMax E p q = Ok out ->
  (forall x, In x p -> ffinite (e_exp E x) = true) ->
  ffinite (e_sum E (map (e_exp E) p)) = true ->
  (exists x, In x p /\ fltb fzero (e_exp E x) = true) ->
  forall x, In x out -> fnanb x = false.
Proof.
  intros HE HL H HF Fs (x0 & Hx0 & Px0) x Hx. rewrite SoftMax_same in H by auto. injection H as <-.
  apply in_map_iff in Hx as (v & <- & Hv). cbn [ndiv F].
  assert (Hnn : Forall fnn (map (e_exp E) p)).
  { apply Forall_forall. intros y Hy. destruct (exps_nanOrNN E p HE y Hy) as [Ny|]; auto.
    apply in_map_iff in Hy as (z & <- & Hz). rewrite finite_nnan in Ny; [discriminate|]. apply HF; auto. }
  destruct (is_sum_nn _ _ (ok_sum E HE (map (e_exp E) p)) Hnn) as [_ Hle].
  specialize (Hle (e_exp E x0) (in_map _ _ _ Hx0)).
  apply fltb_true in Px0 as (_ & _ & Px0). change (ext fzero) with 0 in Px0.
  rewrite (ext_finite _ Fs) in Hle.
  apply fdiv_ext; auto.
  - apply in_map_iff in Hv as (z & <- & Hz). auto.
  - intros Hz. unfold carrier, F in *. rewrite Hz in Hle. lra.
Qed.

Lemma c23_overflow_lemma E p q out i x y : EnvOk E -> length q = length p -> SoftMax E p q = Ok out ->
  nth_error p i = Some x -> e_exp E x = finf -> nth_error out i = Some y -> fnanb y = true.
Proof.
  intros HE HL H Hx He Hy. rewrite SoftMax_same in H by auto. injection H as <-.
  unfold softmax in Hy. cbn [carrier F ndiv] in Hy. rewrite map_map, nth_error_map, Hx in Hy. simpl in Hy. injection Hy as <-. rewrite He.
  set (l := map (e_exp E) p). assert (Hin : In finf l) by (rewrite <- He; apply in_map; eapply nth_error_In; eauto).
  destruct (all_fnn l) as [Hnan|HF]; [apply exps_nanOrNN; auto| |].
  - apply fdiv_nan_r. eapply is_sum_nan; eauto. apply (ok_sum E HE).
  - destruct (is_sum_nn _ _ (ok_sum E HE l) HF) as [Ns Hle]. specialize (Hle _ Hin).
    apply fnn_iff in Ns as [Ns Ps]. pose proof (ext_bounds (e_sum E l)). change (ext finf) with Mx in Hle.
    apply inf_div_inf; auto. lra.
Qed.

(** ** C25, float64 *)
Lemma fofZ_0 : fofZ 0 = fzero.
Proof. apply B2SF_inj. vm_compute. reflexivity. Qed.
Lemma c25_float_lemma p q out : length q = length p -> Normalization p q = Ok out ->
  (forall x, In x p -> fleb fzero x = true) ->
  length out = length p /\ forall x, In x out -> fnanb x = true \/ (fleb fzero x = true /\ fleb x fone = true).
Proof.
  intros HL H HN. rewrite Normalization_same in H by auto. injection H as <-. unfold normalization.
  split; [apply map_length|]. intros x Hx. apply in_map_iff in Hx as (v & <- & Hv). cbn [ndiv F nofZ nadd].
  eapply ratio_in01; [| |exact Hv].
  - rewrite fofZ_0. apply sum_left_ok.
  - intros y Hy. right. apply HN. auto.
Qed.

(** ** C26 *)
Lemma fmul_m1 v : fmul (fofZ (-1)) v = fopp v.
Proof.
  assert (E1 : fofZ (-1) = fopp fone) by (apply B2SF_inj; vm_compute; reflexivity).
  rewrite E1. destruct (ffinite v) eqn:Fv.
  - pose proof (Bmult_correct 53 1024 _ _ mode_NE (fopp fone) v) as H.
    fold (fmul (fopp fone) v) in H. cbn [round_mode] in H.
    assert (EV : B2R (fopp fone) * B2R v = B2R (fopp v)).
    { unfold fopp. rewrite !B2R_Bopp, B2R_fone. lra. }
    rewrite EV in H. fold (rnd (B2R (fopp v))) in H. rewrite rnd_B2R in H.
    rewrite Rlt_bool_true in H by (apply abs_B2R_lt).
    destruct H as (H1 & H2 & H3).
    assert (Ff : ffinite (fmul (fopp fone) v) = true).
    { unfold ffinite. rewrite H2. unfold fopp. rewrite !is_finite_Bopp. exact Fv. }
    apply B2R_Bsign_inj64; auto.
    + rewrite ffinite_opp. auto.
    + rewrite H3 by (apply finite_nnan; auto). unfold fopp. rewrite !Bsign_Bopp; auto.
      apply finite_nnan in Fv. exact Fv.
  - destruct v as [s|[|]| |s m e He]; try discriminate; reflexivity.
Qed.

Lemma nth_combine2 {A B} (l : list A) (l' : list B) n a b :
  nth_error l n = Some a -> nth_error l' n = Some b -> nth_error (combine l l') n = Some (a, b).
Proof. revert l' n; induction l as [|x l IH]; intros [|y l'] [|n]; simpl; intros; try discriminate; [congruence|auto]. Qed.

Lemma c26_lemma L y p : (L = SQErrLoss 0%Z \/ L = MSELoss 0%Z) -> length y = length p ->
  length (l_neg L y p) = length p /\ length (l_grad L y p) = length p /\
  forall i a b, nth_error y i = Some a -> nth_error p i = Some b ->
    nth_error (l_neg L y p) i = Some (fsub a b) /\ nth_error (l_grad L y p) i = Some (fopp (fsub a b)).
Proof.
  intros HL Hlen.
  assert (E1 : l_neg L y p = negGradients F y p) by (destruct HL as [-> | ->]; reflexivity).
  assert (E2 : l_grad L y p = gradients F y p) by (destruct HL as [-> | ->]; reflexivity).
  rewrite E1, E2. unfold gradients, negGradients. cbn [carrier F] in *. rewrite !map_length, combine_length, Hlen, Nat.min_id. split; [auto|]. split; [auto|].
  intros i a b Ha Hb. rewrite !nth_error_map, (nth_combine2 _ _ _ _ _ Ha Hb). simpl. split; [auto|]. do 2 f_equal. apply fmul_m1.
Qed.

(** ** C27, float64 *)
Lemma fnn_fzero_pos : fnn fzero. Proof. reflexivity. Qed.
Lemma fofZ_pos n : (0 < n)%Z -> fnanb (fofZ n) = false /\ 0 < ext (fofZ n).
Proof.
  intros Hn. pose proof (binary_normalize_correct 53 1024 Hprec Hemax mode_NE n 0 false) as H.
  fold (fofZ n) in H. cbn [round_mode] in H.
  assert (EF : F2R (Float radix2 n 0) = IZR n) by (unfold F2R; simpl; lra).
  rewrite EF in H. fold (rnd (IZR n)) in H. pose proof Mx_pos as HM.
  assert (H1 : 1 <= rnd (IZR n)) by (rewrite <- rnd_1; apply rnd_mono; apply IZR_le; lia).
  destruct (Rlt_bool_spec (Rabs (rnd (IZR n))) (bpow radix2 1024)) as [Hlt|Hge].
  - destruct H as (HB & HF & _). split; [apply finite_nnan; exact HF|]. rewrite ext_finite by exact HF. rewrite HB. lra.
  - rewrite Rlt_bool_false in H by (apply IZR_le; lia). simpl in H. apply B2SF_inf in H. rewrite H. simpl. split; [auto|lra].
Qed.

Lemma fdiv_nn a b : nanOrNN a -> 0 < ext b -> fnanb b = false -> nanOrNN (fdiv a b).
Proof.
  intros [Ha|Ha] Pb Nb; [left; apply fdiv_nan_l; auto|]. apply fnn_iff in Ha as [Na Pa].
  destruct (ffinite b) eqn:Fb.
  - rewrite (ext_finite b) in Pb by auto. destruct (ffinite a) eqn:Fa.
    + destruct (fdiv_ext a b Fa Fb) as [ND ED]; [lra|]. right. apply fnn_iff. split; [auto|]. rewrite ED.
      rewrite (ext_finite a) in Pa by auto. apply clamp_ge0, rnd_ge_0. apply Rmult_le_pos; [lra|].
      apply Rlt_le, Rinv_0_lt_compat; lra.
    + apply Bsign_pos in Pb. pose proof Mx_pos.
      destruct a as [s|[|]| |s m e He]; try discriminate; [simpl in Pa; lra|].
      destruct b as [s1|s1| |s1 m1 e1 He1]; try discriminate; simpl in Pb; subst s1; right; reflexivity.
  - destruct b as [s1|[|]| |s1 m1 e1 He1]; try discriminate; [simpl in Pb; pose proof Mx_pos; lra|].
    destruct a as [s|[|]| |s m e He]; try discriminate; try (left; reflexivity); right; destruct s; reflexivity.
Qed.

Lemma fmul_self_nn v : nanOrNN (fmul v v).
Proof.
  destruct (ffinite v) eqn:Fv.
  - destruct (fmul_ext v v Fv Fv) as [N E]. right. apply fnn_iff. split; auto. rewrite E. apply clamp_ge0, rnd_ge_0. nra.
  - destruct v as [s|[|]| |s m e He]; try discriminate; [right|right|left]; reflexivity.
Qed.
Lemma fadd_nn a b : nanOrNN a -> nanOrNN b -> nanOrNN (fadd a b).
Proof.
  intros [Ha|Ha] [Hb|Hb]; try (left; apply fadd_nan; auto; fail). right. apply (proj1 (fadd_fnn a b Ha Hb)).
Qed.
Lemma fold_nn l a : nanOrNN a -> (forall x, In x l -> nanOrNN x) -> nanOrNN (fold_left fadd l a).
Proof.
  revert a; induction l as [|x l IH]; intros a Ha H; simpl; auto. apply IH.
  - apply fadd_nn; auto. apply H; left; auto.
  - intros y Hy. apply H; right; auto.
Qed.
Lemma avg_nn (m : list f64) : (forall x, In x m -> nanOrNN x) ->
  nanOrNN (fdiv (fold_left fadd m (fofZ 0)) (fofZ (Z.of_nat (length m)))).
Proof.
  intros Hm. rewrite fofZ_0.
  assert (HS : nanOrNN (fold_left fadd m fzero)) by (apply fold_nn; [right; reflexivity|auto]).
  destruct m as [|x m'].
  - left. vm_compute. reflexivity.
  - destruct (fofZ_pos (Z.of_nat (length (x :: m')))) as [N P]; [simpl length; lia|].
    apply fdiv_nn; assumption.
Qed.
Lemma sqLoss_nn y p : nanOrNN (sqLoss F y p).
Proof.
  refine (avg_nn (map (fun v : f64 => fmul v v) (map (fun yp : f64 * f64 => fsub (fst yp) (snd yp)) (combine y p))) _).
  intros x Hx. apply in_map_iff in Hx as (v & <- & _). apply fmul_self_nn.
Qed.

Lemma c27_loss_lemma L y p : (L = SQErrLoss 0%Z \/ L = MSELoss 0%Z) ->
  fnanb (l_loss L y p) = true \/ fleb fzero (l_loss L y p) = true.
Proof. intros [-> | ->]; apply sqLoss_nn. Qed.

Lemma c27_sq_lemma p : l_hess (SQErrLoss 0%Z) p = repeat fone (length p).
Proof.
  simpl. unfold sqHessian. cbn [nofZ F]. rewrite fofZ_1. induction p as [|x p IH]; simpl; [auto|]. f_equal. exact IH.
Qed.

Lemma c27_mse_lemma p : (forall v, In v p -> fleb fzero v = true /\ fleb v fone = true) ->
  length (l_hess (MSELoss 0%Z) p) = length p /\
  forall h, In h (l_hess (MSELoss 0%Z) p) -> fleb fzero h = true /\ fleb h fone = true.
Proof.
  intros HP. split; [apply map_length|]. intros h Hh. apply in_map_iff in Hh as (v & <- & Hv). cbn [nmul nsub nofZ F].
  rewrite fofZ_1. destruct (HP v Hv) as [H0 H1]. apply fleb_true in H0 as (_ & N & P0), H1 as (_ & _ & P1).
  change (ext fzero) with 0 in *. rewrite ext_fone in P1. pose proof Mx_ge1 as HM. pose proof Mx_pos.
  assert (Fv : ffinite v = true).
  { destruct (ffinite v) eqn:Fv; auto. exfalso. destruct v as [s|[|]| |s m e He]; try discriminate; simpl in *; try lra.
    assert (2 <= Mx) by (unfold Mx; change 2 with (bpow radix2 1); apply bpow_le; lia). lra. }
  rewrite (ext_finite v) in * by auto.
  destruct (fsub_ext fone v) as [Nd Ed]; [reflexivity|auto|]. rewrite B2R_fone in Ed.
  assert (Rd : 0 <= rnd (1 - B2R v) <= 1).
  { split; [apply rnd_ge_0; lra|]. apply Rle_trans with (rnd 1); [apply rnd_mono; lra|rewrite rnd_1; lra]. }
  rewrite clamp_id in Ed by lra.
  assert (Fd : ffinite (fsub fone v) = true).
  { apply finite_ext; auto. rewrite Ed. assert (2 <= Mx) by (unfold Mx; change 2 with (bpow radix2 1); apply bpow_le; lia). lra. }
  rewrite (ext_finite _ Fd) in Ed.
  destruct (fmul_ext (fsub fone v) v Fd Fv) as [Nm Em].
  assert (Rm : 0 <= rnd (B2R (fsub fone v) * B2R v) <= 1).
  { rewrite Ed. split; [apply rnd_ge_0; nra|]. apply Rle_trans with (rnd 1); [apply rnd_mono; nra|rewrite rnd_1; lra]. }
  rewrite clamp_id in Em by lra.
  split; apply fleb_true; repeat split; auto; rewrite Em; [change (ext fzero) with 0|rewrite ext_fone]; lra.
Qed.
