(** Leaf values that are not numbers, and what they do to a model (proof support for C120). *)
From Coq Require Import Reals Lra.
From Verif Require Import Base F64 F64Lemmas Env EnvLemmas Utils Tree Spec Options Train SpecTrain UtilsProofs UtilsThms ActProofs TreeProofs TreeSplit TreeThms TrainProofs TrainThms TrainMore TrainSteps.
Open Scope Z_scope.

(** ** trees with updated leaves *)
Lemma updated_node g h t0 t : leavesUpdated g h t0 t -> (t0 = Nil <-> t = Nil).
Proof. destruct 1; split; intros; congruence. Qed.
Lemma grown_updated E X g h n o t0 : grown E X n o t0 -> forall t, leavesUpdated g h t0 t ->
  map samplesOf (leaves t) = map samplesOf (leaves t0) /\
  (forall d, In d (leaves t) -> exists gs hs, Forall2 (look g) (samplesOf d) gs /\ Forall2 (look h) (samplesOf d) hs /\
     t_value d = fdiv (fold_left fadd gs fzero) (fold_left fadd hs fzero)) /\
  (forall i row d, look X i row -> In d (leaves t) -> In i (samplesOf d) -> PredictSingle t row = Ok (t_value d)).
Proof.
  induction 1 as [n o value row0 b HV HX HB HL|n o value row0 b col l r HV HX HF HL HC Hl IHl Hr IHr]; intros t HU.
  - inversion HU as [|d l r l' r' HL1 HUl HUr|d d' l r l' r' ix gs hs HL1 HS Fg Fh HV1 HE HUl HUr]; subst.
    { unfold t_leaf in HL1; cbn [t_xgb t_best] in HL1. congruence. }
    inversion HUl; subst. inversion HUr; subst. cbn [t_samples] in HS. injection HS as <-.
    assert (HSd : t_samples d' = Some (initialSamples X o)) by (injection HE; intros; assumption).
    assert (HLd : t_leaf d' = true).
    { unfold t_leaf in *. injection HE; intros _ E2 _ _ _ E3 _. rewrite E2, E3. exact HL1. }
    assert (HSd' : samplesOf d' = initialSamples X o) by (unfold samplesOf; rewrite HSd; reflexivity).
    cbn [leaves map]. split; [rewrite HSd'; reflexivity|]. split.
    + intros d [<-|[]]. exists gs, hs. rewrite HSd'. auto.
    + intros i row d _ [<-|[]] _. cbn [PredictSingle]. rewrite HLd. reflexivity.
  - inversion HU as [|d l1 r1 l' r' HL1 HUl HUr|d d' l1 r1 l' r' ix gs hs HL1 HS Fg Fh HV1 HE HUl HUr]; subst.
    2: { unfold t_leaf in HL1; cbn [t_xgb t_best] in HL1. congruence. }
    destruct (IHl _ HUl) as (Ml & Vl & Pl). destruct (IHr _ HUr) as (Mr & Vr & Pr). assert (HGl := Hl). assert (HGr := Hr).
    destruct (grown_node _ _ _ _ _ Hl) as (dl & ll & lr & El). destruct (grown_node _ _ _ _ _ Hr) as (dr & rl & rr & Er).
    destruct l' as [|dl' ll' lr']; [apply updated_node in HUl; assert (l = Nil) by (apply HUl; auto); congruence|].
    destruct r' as [|dr' rl' rr']; [apply updated_node in HUr; assert (r = Nil) by (apply HUr; auto); congruence|].
    rewrite El, Er. rewrite !leaves_split. rewrite <- El, <- Er. split; [rewrite !map_app, Ml, Mr; reflexivity|]. split.
    + intros d Hd. apply in_app_or in Hd as [Hd|Hd]; auto.
    + intros i row d Hrow Hd Hi. destruct (column_Ok _ _ _ _ HC) as [_ HC'].
      assert (HIn : forall t' u o', grown E X n o' t' -> map samplesOf (leaves u) = map samplesOf (leaves t') -> In d (leaves u) -> In i (initialSamples X o')).
      { intros t' u o' Hg HM Hin. apply (in_map samplesOf) in Hin. rewrite HM in Hin. apply in_map_iff in Hin as (d1 & E1 & Hin).
        apply In_nth_error in Hin as [k Hk]. eapply leaf_sample_in; eauto. rewrite E1. exact Hi. }
      assert (Hii : In i (initialSamples X o)).
      { apply in_app_or in Hd as [Hd|Hd]; [pose proof (HIn _ _ _ HGl Ml Hd) as HI|pose proof (HIn _ _ _ HGr Mr Hd) as HI]; apply filter_In in HI as [HI _]; exact HI. }
      assert (Hc : exists v, cell X i (b_split b) v).
      { apply In_nth_error in Hii as [k Hk]. destruct (Forall2_nth1 _ _ _ HC' _ _ Hk) as (v & _ & Hv). eauto. }
      destruct Hc as (v & row' & Hrow' & Hv). assert (row' = row) by (eapply look_fun; eauto). subst row'.
      assert (Hbl : below X (b_split b) (b_thr b) i = fleb v (b_thr b)) by (apply cell_below; exists row; auto).
      cbn [PredictSingle t_split t_thr]. unfold t_leaf. cbn [t_xgb t_best]. rewrite HL. apply look_idx in Hv. rewrite Hv. cbn [bind].
      apply in_app_or in Hd as [Hd|Hd].
      * pose proof (HIn _ _ _ HGl Ml Hd) as HI. apply filter_In in HI as [_ HI]. rewrite <- Hbl, HI. eauto.
      * pose proof (HIn _ _ _ HGr Mr Hd) as HI. apply filter_In in HI as [_ HI]. rewrite Hbl in HI. destruct (fleb v (b_thr b)); [discriminate|]. eauto.
Qed.

(** ** NaN spreads *)
Lemma fadd_nan a b : fnanb a = true \/ fnanb b = true -> fnanb (fadd a b) = true.
Proof. intros [H|H]; [destruct a; try discriminate; destruct b; reflexivity|destruct b; try discriminate; destruct a; reflexivity]. Qed.
Lemma fmul_nan_l a b : fnanb a = true -> fnanb (fmul a b) = true.
Proof. destruct a; try discriminate. destruct b; reflexivity. Qed.
Lemma fold_nan lr ps : forall a, fnanb a = true \/ (exists p, In p ps /\ fnanb p = true) -> fnanb (fold_left (fun a p => fadd a (fmul p lr)) ps a) = true.
Proof.
  induction ps as [|p ps IH]; intros a [H|(q & Hq & Hn)]; cbn [fold_left]; auto.
  - apply IH. left. apply fadd_nan. auto.
  - destruct Hq as [->|Hq]; [|apply IH; right; eauto]. apply IH. left. apply fadd_nan. right. apply fmul_nan_l. exact Hn.
Qed.
Lemma accumulated_nan lr row start ts v t p : accumulated lr row start ts v -> In t ts -> PredictSingle t row = Ok p -> fnanb p = true -> fnanb v = true.
Proof.
  intros (ps & HF & ->) Ht Hp Hn. apply fold_nan. right. apply In_nth_error in Ht as [k Hk]. destruct (Forall2_nth1 _ _ _ HF _ _ Hk) as (q & Hq & Hq').
  exists q. split; [eapply nth_error_In; eauto|]. assert (q = p) by congruence. subst. exact Hn.
Qed.
Lemma SoftMax_nan E p q out : EnvOk E -> length q = length p -> SoftMax E p q = Ok out -> (exists x, In x p /\ fnanb x = true) -> forall y, In y out -> fnanb y = true.
Proof.
  intros HE HL H (x & Hx & Hn) y Hy. rewrite SoftMax_same in H by auto. injection H as <-.
  unfold softmax in Hy. cbn [carrier F ndiv] in Hy. apply in_map_iff in Hy as (e & <- & He). apply fdiv_nan_r.
  apply (is_sum_nan (map (e_exp E) p)); [apply (ok_sum E HE)|]. exists (e_exp E x). split; [apply in_map; exact Hx|]. rewrite (ok_exp_nan E HE). exact Hn.
Qed.

Lemma c120_nan_lemma {K} E rnd (D : DataBunch K) O tr : EnvOk E -> NewMultiClass E rnd D O = Ok tr ->
  forall ens t row v bufs, In ens (mc_b (tr_model tr)) -> In t ens -> PredictSingle t row = Ok v -> fnanb v = true ->
  (forall preds bufs', PredictMC (tr_model tr) row bufs = Ok (preds, bufs') -> forall p, In p preds -> fnanb p = true) /\
  (forall k bufs', PredictSingleClass (tr_model tr) row bufs = Ok (k, bufs') -> k = 0).
Proof.
  intros HE H ens t row v bufs He Ht Hv Hn.
  assert (H1 : forall preds bufs', PredictMC (tr_model tr) row bufs = Ok (preds, bufs') -> forall p, In p preds -> fnanb p = true).
  { intros preds bufs' HP. destruct (PredictMC_inv E rnd D O tr H row bufs preds bufs' HP) as (_ & HLp & scores & HR & HLs & HS).
    destruct (rawScores_spec _ _ _ HR) as (b0 & rest & HB & HLb & HLe & HA). apply In_nth_error in Ht as [k Hk].
    assert (Hk2 : (k < length b0)%nat). { apply HLe in He. assert (k < length ens)%nat by (apply nth_error_Some; congruence). lia. }
    destruct (HA k Hk2) as (y & Hy & Hacc).
    apply (SoftMax_nan E scores _ preds HE) with (2 := HS); [rewrite repeat_length; auto|]. exists y. split; [eapply nth_error_In; eauto|].
    apply (accumulated_nan _ _ _ _ _ t v Hacc); auto. unfold positionTrees. apply in_flat_map. exists ens. split; [exact He|]. rewrite Hk. left; auto. }
  split; [exact H1|]. intros k bufs' HP. destruct (c36_lemma _ _ _ _ _ HP) as (preds & HPM & Hr & _ & H0).
  destruct preds as [|x preds]; [cbn [length] in Hr; lia|]. apply (H0 x eq_refl). apply (H1 _ _ HPM). left; auto.
Qed.

(** ** saturated leaves *)
Lemma zero_cases x : ffinite x = true -> B2R x = 0%R -> exists s, x = B754_zero s.
Proof.
  destruct x as [s|s| |s m e Hb]; intros H1 H2; try discriminate; [eauto|]. exfalso. cbn [B2R] in H2. unfold Defs.F2R in H2. cbn [Defs.Fnum Defs.Fexp] in H2.
  apply Rmult_integral in H2 as [H2|H2]; [|pose proof (Raux.bpow_gt_0 Zaux.radix2 e); lra]. apply eq_IZR in H2. destruct s; discriminate.
Qed.
Lemma zero_sum l : (forall x, In x l -> ffinite x = true /\ B2R x = 0%R) -> forall a, ffinite a = true -> B2R a = 0%R ->
  ffinite (fold_left fadd l a) = true /\ B2R (fold_left fadd l a) = 0%R.
Proof.
  induction l as [|x l IH]; intros Hx a Fa Ba; cbn [fold_left]; [auto|]. destruct (Hx x ltac:(left; auto)) as [Fx Bx].
  destruct (zero_cases _ Fa Ba) as [sa ->]. destruct (zero_cases _ Fx Bx) as [sx ->].
  apply IH; [intros; apply Hx; right; auto| |]; destruct sa, sx; reflexivity.
Qed.
Lemma zero_div_zero a b : ffinite a = true -> B2R a = 0%R -> ffinite b = true -> B2R b = 0%R -> fnanb (fdiv a b) = true.
Proof. intros Fa Ba Fb Bb. destruct (zero_cases _ Fa Ba) as [sa ->]. destruct (zero_cases _ Fb Bb) as [sb ->]. reflexivity. Qed.

Lemma exact_label a b : a = fone \/ a = fzero -> feqb a b = true ->
  ffinite (fsub a b) = true /\ B2R (fsub a b) = 0%R /\ ffinite (fmul (fsub fone b) b) = true /\ B2R (fmul (fsub fone b) b) = 0%R.
Proof.
  intros Ha Hab. apply feqb_true in Hab as (Na & Nb & HE).
  assert (HF1 : ffinite fone = true) by reflexivity. assert (HB1 : B2R fone = 1%R) by (apply B2R_fone).
  assert (HM : (1 < Mx)%R) by (pose proof (B2R_bounds fone) as Hb; rewrite HB1 in Hb; lra).
  assert (Fa : ffinite a = true) by (destruct Ha as [-> | ->]; reflexivity).
  assert (Ba : B2R a = 1%R \/ B2R a = 0%R) by (destruct Ha as [-> | ->]; auto).
  rewrite (ext_finite a) in HE by auto.
  assert (Fb : ffinite b = true) by (apply finite_ext; [auto|rewrite <- HE; destruct Ba as [-> | ->]; lra]).
  rewrite (ext_finite b) in HE by auto.
  assert (HZ : forall x r, fnanb x = false -> ext x = clamp (rnd r) -> r = 0%R -> ffinite x = true /\ B2R x = 0%R).
  { intros x r Nx Ex ->. rewrite rnd_0, clamp_id in Ex by lra. assert (Fx : ffinite x = true) by (apply finite_ext; [auto|rewrite Ex; lra]).
    split; [auto|]. rewrite <- (ext_finite x) by auto. exact Ex. }
  destruct (fsub_ext a b Fa Fb) as [S1 S2]. destruct (HZ _ _ S1 S2) as [S3 S4]; [lra|].
  destruct (fsub_ext fone b HF1 Fb) as [T1 T2].
  assert (HT : ffinite (fsub fone b) = true /\ (B2R (fsub fone b) = 0%R \/ B2R b = 0%R)).
  { rewrite HB1 in T2. destruct Ba as [Ba|Ba]; rewrite Ba in HE.
    - destruct (HZ _ _ T1 T2) as [T3 T4]; [lra|]. auto.
    - rewrite <- HE in T2. replace (1 - 0)%R with 1%R in T2 by lra. rewrite <- HB1, rnd_B2R, HB1, clamp_id in T2 by lra.
      split; [apply finite_ext; [auto|rewrite T2; lra]|auto]. }
  destruct HT as [T3 T4]. destruct (fmul_ext (fsub fone b) b T3 Fb) as [U1 U2]. destruct (HZ _ _ U1 U2) as [U3 U4]; [destruct T4 as [-> | ->]; lra|]. auto.
Qed.

Lemma saturated_leaf id lab pr ix gs hs : (forall i, In i ix -> exists a b, look lab i a /\ look pr i b /\ (a = fone \/ a = fzero) /\ feqb a b = true) ->
  Forall2 (look (l_neg (MSELoss id) lab pr)) ix gs -> Forall2 (look (l_hess (MSELoss id) pr)) ix hs ->
  fnanb (fdiv (fold_left fadd gs fzero) (fold_left fadd hs fzero)) = true.
Proof.
  intros HI Fg Fh.
  assert (HG : forall x, In x gs -> ffinite x = true /\ B2R x = 0%R).
  { intros x Hx. apply In_nth_error in Hx as [k Hk]. destruct (Forall2_nth2 _ _ _ Fg _ _ Hk) as (i & Hi & [L0 Hl]).
    destruct (HI i (nth_error_In _ _ Hi)) as (a & b & [_ La] & [_ Lb] & Hab & Heq). destruct (exact_label a b Hab Heq) as (E1 & E2 & _).
    change (nth_error (map (fun p : f64 * f64 => fsub (fst p) (snd p)) (combine lab pr)) (Z.to_nat i) = Some x) in Hl.
    assert (HC : nth_error (combine lab pr) (Z.to_nat i) = Some (a, b)).
    { clear -La Lb. revert lab pr La Lb. induction (Z.to_nat i) as [|k IH]; intros [|x lab] [|y pr] La Lb; try discriminate; cbn [nth_error combine] in *; [congruence|auto]. }
    rewrite nth_error_map, HC in Hl. cbn [option_map fst snd] in Hl. assert (x = fsub a b) by congruence. subst x. auto. }
  assert (HH : forall x, In x hs -> ffinite x = true /\ B2R x = 0%R).
  { intros x Hx. apply In_nth_error in Hx as [k Hk]. destruct (Forall2_nth2 _ _ _ Fh _ _ Hk) as (i & Hi & [L0 Hl]).
    destruct (HI i (nth_error_In _ _ Hi)) as (a & b & [_ La] & [_ Lb] & Hab & Heq). destruct (exact_label a b Hab Heq) as (_ & _ & E1 & E2).
    change (nth_error (map (fun v : f64 => fmul (fsub (fofZ 1) v) v) pr) (Z.to_nat i) = Some x) in Hl. rewrite nth_error_map, Lb in Hl. cbn [option_map] in Hl.
    assert (x = fmul (fsub (fofZ 1) b) b) by congruence. subst x. rewrite fofZ_1. auto. }
  destruct (zero_sum gs HG fzero eq_refl eq_refl) as [A1 A2]. destruct (zero_sum hs HH fzero eq_refl eq_refl) as [B1 B2].
  apply zero_div_zero; auto.
Qed.

Lemma c120_saturated_lemma {K} E rnd (D : DataBunch K) O0 tr id : EnvOk E -> NewMultiClass E rnd D O0 = Ok tr ->
  (length (Data D) <= length (Labels D))%nat -> o_xgb O0 = false -> o_loss O0 = MSELoss id ->
  forall es1 e es2, concat (tr_hist tr) = es1 ++ e :: es2 -> exists lab pr,
    indicator (Labels D) (ClassLabels (tr_model tr)) (g_class e) lab /\
    probsAt E (tr_opts tr) (Data D) (length (ClassLabels (tr_model tr))) es1 (g_class e) pr /\
    forall d, In d (leaves (g_tree e)) ->
      (forall i, In i (samplesOf d) -> exists a b, look lab i a /\ look pr i b /\ feqb a b = true) ->
      fnanb (t_value d) = true /\
      forall i row bufs, In i (samplesOf d) -> look (Data D) i row ->
        (forall preds bufs', PredictMC (tr_model tr) row bufs = Ok (preds, bufs') -> forall p, In p preds -> fnanb p = true) /\
        (forall k bufs', PredictSingleClass (tr_model tr) row bufs = Ok (k, bufs') -> k = 0).
Proof.
  intros HE H HL HX HLoss es1 e es2 Hes. destruct (c81_lemma E rnd D O0 tr H HL es1 e es2 Hes) as (lab & pr & _ & HI & HP & HF & _).
  exists lab, pr. split; [exact HI|]. split; [exact HP|].
  destruct (NewMultiClass_inv E rnd D O0 tr H) as (EO & Eb & _).
  assert (EX : o_xgb (tr_opts tr) = false) by (rewrite EO; exact HX). assert (EL : o_loss (tr_opts tr) = MSELoss id) by (rewrite EO; exact HLoss).
  unfold fitted in HF. rewrite EX, EL in HF. destruct HF as (topts & t0 & _ & _ & HT & HU). apply NewTree_grown in HT.
  destruct (grown_updated _ _ _ _ _ _ _ HT _ HU) as (_ & HV & HPr).
  intros d Hd Hsat. destruct (HV d Hd) as (gs & hs & Fg & Fh & Ev).
  assert (HN : fnanb (t_value d) = true).
  { rewrite Ev. apply (saturated_leaf id lab pr (samplesOf d)); auto. intros i Hi. destruct (Hsat i Hi) as (a & b & La & Lb & Hab).
    exists a, b. split; [exact La|]. split; [exact Lb|]. split; [|exact Hab].
    destruct HI as [HLn HI]. destruct La as [L0 La].
    assert (Hil : (Z.to_nat i < length (Labels D))%nat) by (rewrite <- HLn; apply nth_error_Some; congruence).
    destruct (nth_error (Labels D) (Z.to_nat i)) as [y|] eqn:Ey; [|apply nth_error_None in Ey; lia].
    destruct (nth_error (ClassLabels (tr_model tr)) (g_class e)) as [c|] eqn:Ec.
    - specialize (HI _ _ _ Ey eq_refl). rewrite La in HI. destruct (c =? y); injection HI as ->; auto.
    - exfalso. apply nth_error_None in Ec. assert (He : In e (concat (tr_hist tr))) by (rewrite Hes; apply in_or_app; right; left; auto).
      apply in_concat in He as (cl & Hcl & He). apply In_nth_error in Hcl as [m Hm]. destruct (c29_lemma E rnd D O0 tr H) as (_ & HR & _).
      destruct (HR m cl Hm) as [_ HR']. apply (in_map g_class) in He. apply HR' in He as [He _]. unfold ClassLabels in *. lia. }
  split; [exact HN|]. intros i row bufs Hi Hrow.
  assert (He : In e (concat (tr_hist tr))) by (rewrite Hes; apply in_or_app; right; left; auto).
  apply in_concat in He as (cl & Hcl & He).
  apply (c120_nan_lemma E rnd D O0 tr HE H (map g_tree cl) (g_tree e) row (t_value d) bufs).
  - rewrite Eb. apply in_map. exact Hcl.
  - apply in_map. exact He.
  - eapply HPr; eauto.
  - exact HN.
Qed.
