(** Proofs about bounded leaf values and scores (C165). *)
From Coq Require Import Reals Lra Sorted.
From Flocq Require Import Core BinarySingleNaN.
From Verif Require Import Base F64 F64Lemmas Env EnvLemmas Utils Tree Spec UtilsProofs UtilsThms ActProofs NumErr ErrProofs TreeProofs TreeSplit TreeMid TreeThms Options Train SpecTrain SpecErr TrainProofs TrainThms TrainMore TrainSteps SatProofs RowProofs CVProofs MemProofs OneProofs SpecLearn LearnNum SpecScore ScoreProofs SpecBound.
Open Scope R_scope.

(** NaN allowed if [b] *)
Definition near (b : bool) (B : R) (x : f64) : Prop := (b = true /\ fnanb x = true) \/ within B x.
Definition unitVal (b : bool) (p : f64) : Prop := (b = true /\ fnanb p = true) \/ (ffinite p = true /\ 0 <= B2R p <= 1).

Lemma nan_eq x : fnanb x = true -> x = B754_nan.
Proof. destruct x; cbn; intros; congruence. Qed.
Lemma level_Z m : (0 <= m < 2 ^ 53)%Z -> level (IZR m).
Proof. intros H. pose proof (level_pow m 0 H ltac:(lia)) as L. rewrite Rmult_1_r in L. exact L. Qed.
Lemma near_sum b l s : is_sum l s -> (forall x, In x l -> near b 1 x) -> (Z.of_nat (length l) < 2 ^ 53)%Z -> near b (IZR (Z.of_nat (length l))) s.
Proof.
  induction 1 as [|x|l1 l2 a c H1 IH1 H2 IH2|l1 l2 a HP H IH]; intros Hb Hl.
  - right. split; [reflexivity|]. cbn [length B2R fzero]. simpl. rewrite Rabs_R0. lra.
  - apply Hb. left; auto.
  - rewrite app_length in Hl |- *. destruct (IH1 ltac:(intros x Hx; apply Hb, in_or_app; auto) ltac:(lia)) as [[B1 N1]|[F1 A1]].
    { left. split; auto. rewrite (nan_eq _ N1). reflexivity. }
    destruct (IH2 ltac:(intros x Hx; apply Hb, in_or_app; auto) ltac:(lia)) as [[B2 N2]|[F2 A2]].
    { left. split; auto. rewrite (nan_eq _ N2). destruct a; reflexivity. }
    right. rewrite Nat2Z.inj_add. apply within_add; auto; [apply level_Z; lia|]. rewrite plus_IZR. eapply Rle_trans; [apply Rabs_triang|]. lra.
  - rewrite <- (Permutation_length HP) in Hl |- *. apply IH; auto. intros x Hx. apply Hb. eapply Permutation_in; eauto.
Qed.
Lemma ones_sum l s : is_sum l s -> (forall x, In x l -> x = fofZ 1) -> (Z.of_nat (length l) < 2 ^ 53)%Z -> ffinite s = true /\ B2R s = IZR (Z.of_nat (length l)).
Proof.
  induction 1 as [|x|l1 l2 a c H1 IH1 H2 IH2|l1 l2 a HP H IH]; intros Hb Hl.
  - split; reflexivity.
  - rewrite (Hb x) by (left; auto). destruct (fofZ_exact50 1 ltac:(lia)) as [K1 K2]. split; auto.
  - rewrite app_length in Hl |- *. destruct (IH1 ltac:(intros x Hx; apply Hb, in_or_app; auto) ltac:(lia)) as [F1 A1]. destruct (IH2 ltac:(intros x Hx; apply Hb, in_or_app; auto) ltac:(lia)) as [F2 A2].
    destruct (fadd_ext a c F1 F2) as [Hn He]. destruct (level_Z (Z.of_nat (length l1 + length l2)) ltac:(lia)) as [L1 L2].
    assert (EE : B2R a + B2R c = IZR (Z.of_nat (length l1 + length l2))) by (rewrite A1, A2, <- plus_IZR; f_equal; lia).
    rewrite EE, L1, clamp_id in He by lra. assert (F : ffinite (fadd a c) = true) by (apply finite_ext; auto; rewrite He; lra).
    rewrite ext_finite in He by auto. auto.
  - rewrite <- (Permutation_length HP) in Hl |- *. apply IH; auto. intros x Hx. apply Hb. eapply Permutation_in; eauto.
Qed.
Lemma near_div b n x d : near b (IZR n) x -> (0 <= n)%Z -> ffinite d = true -> 0 < B2R d -> IZR n <= B2R d -> near b 1 (fdiv x d).
Proof.
  intros [[Hb N]|[F A]] Hn Fd Pd Hd.
  - left. split; auto. rewrite (nan_eq _ N). destruct d; reflexivity.
  - right. apply within_div; auto; [apply (level_Z 1); lia|lra|]. unfold Rdiv. rewrite Rabs_mult, Rabs_inv, (Rabs_pos_eq (B2R d)) by lra.
    apply Rmult_le_reg_r with (B2R d); auto. rewrite Rmult_assoc, Rinv_l by lra. lra.
Qed.
Lemma minus_one : ffinite (fofZ (-1)) = true /\ B2R (fofZ (-1)) = -1.
Proof.
  split; [reflexivity|]. assert (fofZ (-1) = fopp (fofZ 1)) as -> by (apply B2SF_inj; vm_compute; reflexivity). unfold fopp. rewrite B2R_Bopp.
  destruct (fofZ_exact50 1 ltac:(lia)) as [_ ->]. simpl. lra.
Qed.
Lemma near_neg b B x : near b B x -> near b B (fmul (fofZ (-1)) x).
Proof.
  intros [[Hb N]|[F A]].
  - left. split; auto. rewrite (nan_eq _ N). reflexivity.
  - right. destruct minus_one as [F1 B1].
    destruct (fmul_ext (fofZ (-1)) x F1 F) as [Hn He]. rewrite B1 in He. replace (-1 * B2R x) with (- B2R x) in He by ring. rewrite rnd_opp, rnd_B2R in He.
    pose proof (B2R_bounds x) as HB. rewrite clamp_id in He by lra. assert (F2 : ffinite (fmul (fofZ (-1)) x) = true) by (apply finite_ext; auto; rewrite He; lra).
    rewrite ext_finite in He by auto. split; auto. rewrite He, Rabs_Ropp. auto.
Qed.
Lemma near_diff b y p : y = fone \/ y = fzero -> unitVal b p -> near b 1 (fsub y p).
Proof.
  intros Hy [[Hb N]|[F A]].
  - left. split; auto. rewrite (nan_eq _ N). destruct Hy as [->| ->]; reflexivity.
  - right. assert (HB : ffinite y = true /\ (B2R y = 1 \/ B2R y = 0)).
    { destruct Hy as [->| ->]; split; try reflexivity; [left|right; reflexivity]. apply (fofZ_exact50 1). lia. }
    destruct HB as [Fy By]. apply within_sub; auto; [apply (level_Z 1); lia|]. apply Rabs_le. destruct By as [->| ->]; lra.
Qed.

(** one leaf *)
Section Leaf.
Context (b : bool) (lab pr : list f64) (n : nat) (id : Z).
Context (HL : forall i y, (0 <= i < Z.of_nat n)%Z -> look lab i y -> y = fone \/ y = fzero).
Context (HP : forall i p, (0 <= i < Z.of_nat n)%Z -> look pr i p -> unitVal b p).

Lemma combine_nth_error {A B} (l : list A) (m : list B) k x : nth_error (combine l m) k = Some x -> nth_error l k = Some (fst x) /\ nth_error m k = Some (snd x).
Proof. revert l m. induction k as [|k IH]; intros [|a l] [|c m] H; cbn in *; try discriminate; [injection H as <-; auto|auto]. Qed.
Lemma neg_near i v : (0 <= i < Z.of_nat n)%Z -> look (l_neg (SQErrLoss id) lab pr) i v -> near b 1 v.
Proof.
  intros Hi [_ Hv]. change (nth_error (map (fun p : f64 * f64 => fsub (fst p) (snd p)) (combine lab pr)) (Z.to_nat i) = Some v) in Hv.
  rewrite nth_error_map in Hv. destruct (nth_error (combine lab pr) (Z.to_nat i)) as [[y p]|] eqn:E; [|discriminate Hv]. injection Hv as <-.
  apply combine_nth_error in E as [E1 E2]. cbn [fst snd] in *. apply near_diff; [apply (HL i); auto; split; auto; lia|apply (HP i); auto; split; auto; lia].
Qed.
Lemma grad_near i v : (0 <= i < Z.of_nat n)%Z -> look (l_grad (SQErrLoss id) lab pr) i v -> near b 1 v.
Proof.
  intros Hi [_ Hv]. change (nth_error (map (fun x : f64 => fmul (fofZ (-1)) x) (l_neg (SQErrLoss id) lab pr)) (Z.to_nat i) = Some v) in Hv.
  rewrite nth_error_map in Hv. destruct (nth_error (l_neg (SQErrLoss id) lab pr) (Z.to_nat i)) as [x|] eqn:E; [|discriminate Hv].
  apply (f_equal (fun o => match o with Some x => x | None => fzero end)) in Hv. cbn [option_map] in Hv. subst v. apply near_neg. apply (neg_near i); auto. split; auto; lia.
Qed.
Lemma hess_one i v : look (l_hess (SQErrLoss id) pr) i v -> v = fofZ 1.
Proof.
  intros [_ Hv]. change (nth_error (map (fun _ : f64 => fofZ 1) pr) (Z.to_nat i) = Some v) in Hv. rewrite nth_error_map in Hv. destruct (nth_error pr (Z.to_nat i)); [|discriminate Hv].
  apply (f_equal (fun o => match o with Some x => x | None => fzero end)) in Hv. cbn [option_map] in Hv. auto.
Qed.
Lemma F2_In {A B} (P : A -> B -> Prop) l m y : Forall2 P l m -> In y m -> exists x, In x l /\ P x y.
Proof. induction 1 as [|x z l m Hx HF IH]; [intros []|]. intros [->|Hy]; [exists x; split; auto; left; auto|]. destruct (IH Hy) as (w & H1 & H2). exists w. split; auto. right; auto. Qed.
End Leaf.
(** the sums of the gradients and the hessians of a node *)
Lemma ratio_near (b : bool) (k : nat) gs hs sg sh lam : (Z.of_nat k < 2 ^ 53)%Z -> length gs = k -> length hs = k ->
  (forall v, In v gs -> near b 1 v) -> (forall v, In v hs -> v = fofZ 1) -> is_sum gs sg -> is_sum hs sh ->
  ffinite lam = true -> 0 <= B2R lam <= IZR (2 ^ 900) -> b = true \/ 0 < B2R lam ->
  near b 1 (fdiv (fmul (fofZ (-1)) sg) (fadd sh lam)) /\ (b = true -> near b 1 (fdiv sg sh)).
Proof.
  intros Hl Lg Lh Hg Hh Sg Sh Fl Bl Hb.
  pose proof (near_sum b gs sg Sg Hg ltac:(rewrite Lg; auto)) as NG. rewrite Lg in NG. destruct (ones_sum hs sh Sh Hh ltac:(rewrite Lh; auto)) as [Fh Bh]. rewrite Lh in Bh.
  assert (H0 : 0 <= IZR (Z.of_nat k)) by (apply (IZR_le 0); lia).
  assert (HR : rnd (B2R sh) <= rnd (B2R sh + B2R lam)) by (apply rnd_mono; lra). rewrite rnd_B2R in HR.
  assert (HU : rnd (B2R sh + B2R lam) <= bpow radix2 902).
  { assert (HF : rnd (bpow radix2 902) = bpow radix2 902). { pose proof (level_pow 1 902 ltac:(lia) ltac:(lia)) as [L _]. rewrite Rmult_1_l in L. exact L. }
    rewrite <- HF. apply rnd_mono. assert (IZR (Z.of_nat k) <= IZR (2 ^ 900)) by (apply IZR_le; etransitivity; [apply Z.lt_le_incl; exact Hl|]; apply Z.pow_le_mono_r; lia).
    replace (bpow radix2 902) with (4 * IZR (2 ^ 900)); [rewrite Bh; lra|]. change 902%Z with (2 + 900)%Z. rewrite bpow_plus. rewrite <- (IZR_Zpower radix2 900) by lia. reflexivity. }
  assert (HM : bpow radix2 902 < Mx) by (unfold Mx; apply bpow_lt; lia).
  destruct (fadd_ext sh lam Fh Fl) as [Hn2 He]. rewrite clamp_id in He by lra. assert (Fd : ffinite (fadd sh lam) = true) by (apply finite_ext; auto; rewrite He; lra). rewrite ext_finite in He by auto.
  assert (HZ : k = O -> isZ sg).
  { intros ->. apply (isZ_sum gs); auto. destruct gs; [intros ? []|discriminate Lg]. }
  assert (HZ1 : forall z d, isZ z -> b = true \/ B2R d <> 0 -> near b 1 (fdiv z d)).
  { intros z d Hz Hd. destruct (isZ_div z d Hz) as [[s ->]|N]; [right; split; [reflexivity|cbn; rewrite Rabs_R0; lra]|].
    destruct Hd as [Hd|Hd]; [left; auto|]. destruct Hz as [s ->]. destruct d; cbn in Hd, N; try lra; discriminate N. }
  split.
  - destruct (Req_dec (B2R (fadd sh lam)) 0) as [H1|H1].
    + assert (Ek : k = O). { assert (IZR (Z.of_nat k) = 0) by lra. apply (eq_IZR _ 0) in H. lia. }
      apply HZ1; [apply isZ_mul_l; auto; reflexivity|]. destruct Hb as [Hb|Hb]; [auto|].
      exfalso. assert (rnd (B2R lam) <= rnd (B2R sh + B2R lam)) by (apply rnd_mono; lra). rewrite rnd_B2R in H. lra.
    + apply (near_div b (Z.of_nat k)); auto; try lia; try lra. apply near_neg. auto.
  - intros Hbt. destruct k as [|k]; [apply HZ1; auto|]. assert (1 <= IZR (Z.of_nat (S k))) by (apply (IZR_le 1); lia).
    apply (near_div b (Z.of_nat (S k))); auto; try lia; lra.
Qed.

(** predictions are values of leaves *)
Lemma grown_predict E X n o t : grown E X n o t -> forall row v, PredictSingle t row = Ok v -> exists d, In d (leaves t) /\ v = t_value d.
Proof.
  induction 1 as [n o value row0 b HV HX HB HL|n o value row0 b col l r HV HX HF HL HC Hl IHl Hr IHr]; intros row v HP.
  - match type of HP with PredictSingle (Node ?d Nil Nil) row = _ => exists d end. split; [left; reflexivity|].
    cbn [PredictSingle] in HP. destruct (t_leaf _) in HP; [apply Ok_inj' in HP; auto|]. apply bind_Ok in HP as (x & _ & HP). destruct (fleb x _); discriminate HP.
  - destruct (grown_node _ _ _ _ _ Hl) as (dl & ll & lr & El). destruct (grown_node _ _ _ _ _ Hr) as (dr & rl & rr & Er). subst l r.
    match type of HP with PredictSingle (Node ?d ?l ?r) row = _ => change (PredictSingle (Node d l r) row) with (if t_leaf d then Ok (t_value d) else v <- idx row (t_split d) ;; if fleb v (t_thr d) then PredictSingle l row else PredictSingle r row) in HP end.
    destruct (t_leaf _) eqn:HL1 in HP; [unfold t_leaf in HL1; cbn [t_xgb t_best] in HL1; congruence|]. apply bind_Ok in HP as (x & _ & HP).
    rewrite leaves_split. destruct (fleb x _).
    + destruct (IHl _ _ HP) as (d & Hd & ->). exists d. split; auto. apply in_or_app; auto.
    + destruct (IHr _ _ HP) as (d & Hd & ->). exists d. split; auto. apply in_or_app; auto.
Qed.
Lemma filter_len {A} (f : A -> bool) l : (length (filter f l) <= length l)%nat.
Proof. induction l as [|x l IH]; cbn [filter length]; [lia|]. destruct (f x); cbn [length]; lia. Qed.
Lemma concat_len {A} (l : list (list A)) x : In x l -> (length x <= length (concat l))%nat.
Proof. induction l as [|y l IH]; [intros []|]. intros [->|H]; cbn [concat]; rewrite app_length; [|apply IH in H]; lia. Qed.
Lemma leaf_len E X n o t d : grown E X n o t -> In d (leaves t) -> (length (samplesOf d) <= length (initialSamples X o))%nat.
Proof. intros HG Hd. rewrite (Permutation_length (grown_leaves_perm _ _ _ _ _ HG)). apply concat_len. apply in_map. auto. Qed.

Section Trained.
Context {K : Type} (E : Env) (HE : EnvOk E) (rnd : draws) (D : DataBunch K) (O0 : Options) (tr : trained).
Context (HN : NewMultiClass E rnd D O0 = Ok tr) (HL : (length (Data D) <= length (Labels D))%nat) (HS : plainSquared O0) (Hrows : (Z.of_nat (length (Data D)) < 2 ^ 53)%Z).
Context (b : bool) (Hb : b = true \/ (o_xgb O0 = true /\ 0 < B2R (o_lambda O0))).

Definition probsUnit (es : list entryG) (k : nat) : Prop :=
  forall pr, probsAt E (tr_opts tr) (Data D) (length (ClassLabels (tr_model tr))) es k pr -> forall i p, (0 <= i < Z.of_nat (length (Data D)))%Z -> look pr i p -> unitVal b p.
Lemma init_len (topts : TreeOptions) rows (rd : (nat -> f64) * (nat -> f64)) : to_indexes topts = rows ->
  (if fltb (o_ss (tr_opts tr)) fone then rows = Some (map Z.of_nat (filter (fun i => fleb (fst rd i) (o_ss (tr_opts tr))) (seq 0 (length (Data D))))) else rows = None) ->
  (length (initialSamples (Data D) topts) <= length (Data D))%nat.
Proof.
  intros H1 H2. unfold initialSamples. rewrite H1. destruct (fltb (o_ss (tr_opts tr)) fone); subst rows; rewrite H2.
  - rewrite map_length. rewrite <- (seq_length (length (Data D)) 0) at 2. apply filter_len.
  - unfold iota. rewrite map_length, seq_length. auto.
Qed.
Lemma entry_near es1 e es2 : concat (tr_hist tr) = es1 ++ e :: es2 -> probsUnit es1 (g_class e) ->
  forall row p, PredictSingle (g_tree e) row = Ok p -> near b 1 p.
Proof.
  intros Hes HU row p HPp. destruct (NewMultiClass_inv E rnd D O0 tr HN) as (EO & _).
  assert (EX : o_xgb (tr_opts tr) = o_xgb O0) by (rewrite EO; reflexivity). assert (EL : o_loss (tr_opts tr) = o_loss O0) by (rewrite EO; reflexivity).
  assert (ELm : o_lambda (tr_opts tr) = o_lambda O0) by (rewrite EO; reflexivity).
  destruct HS as ([id HLoss] & FL & BL).
  destruct (c81_lemma E rnd D O0 tr HN HL es1 e es2 Hes) as (lab & pr & _ & HI & HP & HF & _).
  pose proof (HU pr HP) as Hpr.
  assert (Hlab : forall i y, (0 <= i < Z.of_nat (length (Data D)))%Z -> look lab i y -> y = fone \/ y = fzero).
  { intros i y Hi [_ Hy]. destruct HI as [_ HI]. destruct (nth_error (Labels D) (Z.to_nat i)) as [z|] eqn:Ez; [|apply nth_error_None in Ez; lia].
    assert (Hc : (g_class e < length (ClassLabels (tr_model tr)))%nat).
    { assert (He : In e (concat (tr_hist tr))) by (rewrite Hes; apply in_or_app; right; left; reflexivity). apply in_concat in He as (cl & Hcl & He). apply In_nth_error in Hcl as [m Hm].
      destruct (c29_lemma E rnd D O0 tr HN) as (_ & HR & _). destruct (HR m cl Hm) as [_ HR']. apply (in_map g_class) in He. apply HR' in He. tauto. }
    destruct (nth_error (ClassLabels (tr_model tr)) (g_class e)) as [c|] eqn:Ec; [|apply nth_error_None in Ec; lia].
    rewrite (HI _ z c Ez eq_refl) in Hy. destruct (Z.eqb c z); [left|right]; congruence. }
  unfold fitted in HF. rewrite EX, EL, HLoss in HF. destruct (o_xgb O0) eqn:EXG.
  - destruct HF as (rows & cols & topts & Hrw & _ & Ho & Hg & Hh & HT).
    assert (Ox : to_xgb topts = true) by congruence. assert (Ol : to_lambda topts = o_lambda O0) by congruence. assert (Oi : to_indexes topts = rows) by congruence. clear Ho.
    pose proof (NewTree_grown _ _ _ _ HT) as HG. destruct (grown_predict _ _ _ _ _ HG _ _ HPp) as (d & Hd & ->).
    destruct (node_value E (Data D) topts (g_tree e) d Nil Nil HT (leaf_sub _ _ Hd)) as (ix & Hi & _ & _ & H). rewrite Ox, Hg, Hh in H. cbn [orNil] in H.
    assert (Hs : samplesOf d = ix) by (unfold samplesOf; rewrite Hi; reflexivity). destruct H as (gs & hs & Fg & Fh & ->).
    assert (Hin : forall i, In i ix -> (0 <= i < Z.of_nat (length (Data D)))%Z).
    { intros i Hii. apply (sampled_in D tr HL topts rows _ Oi Hrw). rewrite <- Hs in Hii. apply (grown_leaves _ _ _ _ _ HG d Hd i Hii). }
    assert (Hlen : (length ix <= length (Data D))%nat).
    { rewrite <- Hs. etransitivity; [apply (leaf_len _ _ _ _ _ _ HG Hd)|]. eapply init_len; eauto. }
    rewrite Ol. refine (proj1 (ratio_near b (length ix) gs hs _ _ (o_lambda O0) _ _ _ _ _ (ok_sum _ HE gs) (ok_sum _ HE hs) FL BL _)).
    + lia.
    + symmetry. eapply forall2_len; eauto.
    + symmetry. eapply forall2_len; eauto.
    + intros v Hv. destruct (F2_In _ _ _ _ Fg Hv) as (i & Hii & Hlk). apply (grad_near b lab pr (length (Data D)) id Hlab Hpr i); auto.
    + intros v Hv. destruct (F2_In _ _ _ _ Fh Hv) as (i & Hii & Hlk). apply (hess_one pr id i); auto.
    + destruct Hb as [Hb1|[_ Hb1]]; auto.
  - destruct Hb as [Hb1|[Hb1 _]]; [|congruence].
    destruct HF as (topts & t1 & Ho & _ & HT & HUp). assert (Oi : to_indexes topts = None) by congruence. clear Ho.
    apply NewTree_grown in HT. destruct (grown_updated _ _ _ _ _ _ _ HT _ HUp) as (HM & HV & _).
    destruct (updated_predict _ _ _ _ _ _ _ HT _ _ _ HUp HPp) as (d & Hd & ->). destruct (HV d Hd) as (gs & hs & Fg & Fh & ->).
    assert (Hdl : exists d1, samplesOf d1 = samplesOf d /\ In d1 (leaves t1)).
    { apply (in_map samplesOf) in Hd. rewrite HM in Hd. apply in_map_iff in Hd as (d1 & E1 & Hd1). eauto. }
    destruct Hdl as (d1 & Ed & Hd1).
    assert (Hini : initialSamples (Data D) topts = iota (length (Data D))) by (unfold initialSamples; rewrite Oi; reflexivity).
    assert (Hin : forall i, In i (samplesOf d) -> (0 <= i < Z.of_nat (length (Data D)))%Z).
    { intros i Hii. rewrite <- Ed in Hii. apply (grown_leaves _ _ _ _ _ HT d1 Hd1) in Hii. rewrite Hini in Hii. apply iota_In. exact Hii. }
    assert (Hlen : (length (samplesOf d) <= length (Data D))%nat).
    { rewrite <- Ed. etransitivity; [apply (leaf_len _ _ _ _ _ _ HT Hd1)|]. rewrite Hini. unfold iota. rewrite map_length, seq_length. auto. }
    refine (proj2 (ratio_near b (length (samplesOf d)) gs hs _ _ (o_lambda O0) _ _ _ _ _ _ _ FL BL (or_introl Hb1)) Hb1).
    + lia.
    + symmetry. eapply forall2_len; eauto.
    + symmetry. eapply forall2_len; eauto.
    + intros v Hv. destruct (F2_In _ _ _ _ Fg Hv) as (i & Hii & Hlk). apply (neg_near b lab pr (length (Data D)) id Hlab Hpr i); auto.
    + intros v Hv. destruct (F2_In _ _ _ _ Fh Hv) as (i & Hii & Hlk). apply (hess_one pr id i); auto.
    + apply fold_is_sum.
    + apply fold_is_sum.
Qed.
Lemma tree_entry ens t : In ens (mc_b (tr_model tr)) -> In t ens -> exists p e q, concat (tr_hist tr) = p ++ e :: q /\ g_tree e = t.
Proof.
  intros He Ht. destruct (NewMultiClass_inv E rnd D O0 tr HN) as (_ & Eb & _). rewrite Eb in He. apply in_map_iff in He as (cl & <- & Hcl). apply in_map_iff in Ht as (e & <- & He).
  assert (Hin : In e (concat (tr_hist tr))) by (apply in_concat; eauto). apply in_split in Hin as (p & q & Hpq). eauto 6.
Qed.
End Trained.
Lemma position_in ts j t : In t (positionTrees ts j) -> exists ens, In ens ts /\ In t ens.
Proof.
  intros Ht. unfold positionTrees in Ht. apply in_flat_map in Ht as (ens & Hens & Ht). destruct (nth_error ens j) as [u|] eqn:Eu; [|contradiction]. destruct Ht as [<- |[]].
  exists ens. split; auto. eapply nth_error_In; eauto.
Qed.
Lemma position_len ts j : (length (positionTrees ts j) <= length ts)%nat.
Proof. induction ts as [|ens ts IH]; [cbn; lia|]. cbn [positionTrees flat_map length]. rewrite app_length. fold (positionTrees ts j). destruct (nth_error ens j); cbn [length]; lia. Qed.

(** NaN or at most one, for every model *)
Lemma unit_range E p q out x : EnvOk E -> length q = length p -> SoftMax E p q = Ok out -> In x out -> unitVal true x.
Proof.
  intros HE HL H Hx. destruct (proj2 (c23_range_lemma E p q out HE HL H) x Hx) as [N|[H1 H2]]; [left; auto|right].
  apply fleb_true in H1 as (_ & N & H1). apply fleb_true in H2 as (_ & _ & H2). change (ext fzero) with 0 in H1.
  assert (E1 : ext fone = 1) by (rewrite ext_finite by reflexivity; apply B2R_fone). rewrite E1 in H2.
  assert (HM : 1 < Mx) by (pose proof (B2R_bounds fone) as Hb; rewrite B2R_fone in Hb; lra).
  assert (F : ffinite x = true) by (apply finite_ext; auto; lra). rewrite ext_finite in * by auto. split; auto.
Qed.
Lemma tree_lemma {K} E rnd (D : DataBunch K) O0 tr : EnvOk E -> NewMultiClass E rnd D O0 = Ok tr -> (length (Data D) <= length (Labels D))%nat -> plainSquared O0 ->
  (Z.of_nat (length (Data D)) < 2 ^ 53)%Z -> forall ens t, In ens (mc_b (tr_model tr)) -> In t ens -> forall row p, PredictSingle t row = Ok p -> fnanb p = true \/ upTo 1 p.
Proof.
  intros HE HN HL HS Hr ens t He Ht row p Hp. destruct (tree_entry E rnd D O0 tr HN ens t He Ht) as (es1 & e & es2 & Hes & <-).
  assert (N1 : near true 1 p); [|destruct N1 as [[_ N1]|N1]; [left; auto|right; exact N1]].
  apply (entry_near E HE rnd D O0 tr HN HL HS Hr true (or_introl eq_refl) es1 e es2 Hes) with (row := row); auto.
  intros pr HPr i q Hi [_ Hq]. destruct (nth_error (Data D) (Z.to_nat i)) as [rw|] eqn:Er; [|apply nth_error_None in Er; lia].
  destruct (HPr _ _ Er) as (scores & ps & v & Hsl & _ & HSm & Hv & Hpv). assert (v = q) by congruence. subst v.
  apply (unit_range E scores _ ps q HE) with (3 := nth_error_In _ _ Hv) (2 := HSm). rewrite repeat_length. auto.
Qed.
Lemma terms_bound lr ps : (forall p, In p ps -> Rabs (B2R p) <= 1) -> asum (terms lr ps) <= INR (length ps) * Rabs (B2R lr).
Proof.
  induction ps as [|p ps IH]; intros H; [unfold asum; cbn; lra|]. assert (I1 := IH ltac:(intros; apply H; right; auto)). pose proof (H p (or_introl eq_refl)) as H1.
  unfold asum, terms in *. cbn [map rsum]. change (length (p :: ps)) with (S (length ps)). rewrite S_INR, Rabs_mult. pose proof (Rabs_pos (B2R lr)). nra.
Qed.
Lemma score_lemma {K} E rnd (D : DataBunch K) O0 tr : EnvOk E -> NewMultiClass E rnd D O0 = Ok tr -> (length (Data D) <= length (Labels D))%nat -> plainSquared O0 ->
  (Z.of_nat (length (Data D)) < 2 ^ 53)%Z -> forall row j S A, classScore (tr_model tr) row j S A ->
  let T := INR (length (positionTrees (mc_b (tr_model tr)) j)) in
  Rabs (S - B2R (o_base O0)) <= T * Rabs (B2R (o_lr O0)) /\ A <= Rabs (B2R (o_base O0)) + T * Rabs (B2R (o_lr O0)).
Proof.
  intros HE HN HL HS Hr row j S A (ps & HP & HF & -> & ->) T. destruct (NewMultiClass_inv E rnd D O0 tr HN) as (EO & _ & Elr & Ebase & _).
  rewrite Elr, Ebase, EO in *. cbn [o_lr o_base fixMCW] in *.
  assert (HB : asum (terms (o_lr O0) ps) <= T * Rabs (B2R (o_lr O0))).
  { unfold T. rewrite (forall2_len _ _ _ HP). apply terms_bound. intros p Hp. destruct (F2_In _ _ _ _ HP Hp) as (t & Ht & Hpt). apply position_in in Ht as (ens & He & Ht).
    destruct (tree_lemma E rnd D O0 tr HE HN HL HS Hr ens t He Ht row p Hpt) as [N|[_ U]]; auto.
    assert (F : ffinite p = true) by (apply HF; right; right; auto). rewrite (finite_nnan _ F) in N. discriminate. }
  rewrite terms_abs. pose proof (rsum_le_asum (terms (o_lr O0) ps)) as H1. unfold terms at 1 in H1. split; [|lra].
  match goal with |- Rabs (?x + ?y - ?x) <= _ => replace (x + y - x) with y by ring end. lra.
Qed.

(** no NaN *)
Lemma sorted_once cl k : StronglySorted lt (map g_class cl) -> (length (filter (fun e => Nat.eqb (g_class e) k) cl) <= 1)%nat.
Proof.
  induction cl as [|e cl IH]; cbn [map filter length]; intros H; [lia|]. inversion H as [|? ? H1 H2]; subst. destruct (Nat.eqb_spec (g_class e) k) as [Ek|Ek]; [|auto].
  cbn [length]. rewrite (proj2 (length_zero_iff_nil (filter (fun e0 => Nat.eqb (g_class e0) k) cl))); [lia|].
  destruct (filter _ cl) as [|x l] eqn:Ef; auto. assert (Hx : In x (filter (fun e0 => Nat.eqb (g_class e0) k) cl)) by (rewrite Ef; left; auto).
  apply filter_In in Hx as [Hx1 Hx2]. apply Nat.eqb_eq in Hx2. rewrite Forall_forall in H2. specialize (H2 (g_class x) (in_map g_class _ _ Hx1)). lia.
Qed.
Lemma class_once hist k : (forall cl, In cl hist -> StronglySorted lt (map g_class cl)) -> (length (classTrees (concat hist) k) <= length hist)%nat.
Proof.
  unfold classTrees. rewrite map_length. induction hist as [|cl hist IH]; intros H; [cbn; lia|]. cbn [concat length]. rewrite filter_app, app_length.
  pose proof (sorted_once cl k (H cl (or_introl eq_refl))). specialize (IH ltac:(intros; apply H; right; auto)). lia.
Qed.
Section NoNaN.
Context {K : Type} (E : Env) (HE : EnvOk E) (HA : expAccurate E) (rnd : draws) (D : DataBunch K) (O0 : Options) (tr : trained).
Context (HN : NewMultiClass E rnd D O0 = Ok tr) (HL : (length (Data D) <= length (Labels D))%nat) (HS : plainSquared O0) (Hrows : (Z.of_nat (length (Data D)) < 2 ^ 53)%Z).
Context (HX : o_xgb O0 = true) (Hlam : 0 < B2R (o_lambda O0)) (Fb : ffinite (o_base O0) = true) (Fl : ffinite (o_lr O0) = true).
Context (HR : (Z.of_nat (length (mc_b (tr_model tr))) < 2 ^ 40)%Z) (HC : (Z.of_nat (length (ClassLabels (tr_model tr))) <= 2 ^ 40)%Z).
Context (HB : Rabs (B2R (o_base O0)) + INR (length (mc_b (tr_model tr))) * Rabs (B2R (o_lr O0)) <= 600).

Lemma shares_unit scores q ps x : SoftMax E scores q = Ok ps -> length q = length scores -> (length scores = length (ClassLabels (tr_model tr)))%nat ->
  (forall s, In s scores -> ffinite s = true /\ Rabs (B2R s) <= 610) -> In x ps -> unitVal false x.
Proof.
  intros HSm Hq HLs Hs Hx. pose proof (unit_range E scores q ps x HE Hq HSm Hx) as [[_ N]|U]; [exfalso|right; exact U].
  rewrite SoftMax_same in HSm by auto. apply Ok_inj' in HSm. subst ps. unfold softmax in Hx. cbn [ndiv F carrier] in Hx. rewrite map_map in Hx. apply in_map_iff in Hx as (s & <- & Hin).
  assert (Hne : scores <> []) by (intros ->; destruct Hin). destruct (share E HE HA scores Hs Hne ltac:(rewrite HLs; auto) s Hin) as [F1 _].
  rewrite (finite_nnan _ F1) in N. discriminate.
Qed.
Lemma score_range lr ts row v n : lr = o_lr O0 -> (forall t p, In t ts -> PredictSingle t row = Ok p -> upTo 1 p) -> accumulated lr row (o_base O0) ts v -> (length ts <= n)%nat -> n = length (mc_b (tr_model tr)) ->
  ffinite v = true /\ Rabs (B2R v) <= 610.
Proof.
  intros -> HT (ps & HF & ->) Hn ->. pose proof (forall2_len _ _ _ HF) as Hlen.
  assert (HP : forall p, In p ps -> upTo 1 p) by (intros p Hp; destruct (F2_In _ _ _ _ HF Hp) as (t & Ht & Hpt); eauto).
  apply score_finite.
  - intros x [<-|[<-|Hx]]; auto. apply (HP x Hx).
  - lia.
  - pose proof (terms_bound (o_lr O0) ps (fun p Hp => proj2 (HP p Hp))) as H1. assert (INR (length ps) <= INR (length (mc_b (tr_model tr)))) by (apply le_INR; lia).
    pose proof (Rmult_le_compat_r _ _ _ (Rabs_pos (B2R (o_lr O0))) H). eapply Rle_trans; [|exact HB]. apply Rplus_le_compat_l. eapply Rle_trans; eauto.
Qed.
Lemma hist_len : length (tr_hist tr) = length (mc_b (tr_model tr)).
Proof. destruct (NewMultiClass_inv E rnd D O0 tr HN) as (_ & -> & _). rewrite map_length. reflexivity. Qed.
Lemma history_unit n : forall es1 e es2, length es1 = n -> concat (tr_hist tr) = es1 ++ e :: es2 -> forall row p, PredictSingle (g_tree e) row = Ok p -> upTo 1 p.
Proof.
  induction n as [n IH] using lt_wf_ind. intros es1 e es2 Hlen Hes row p Hp.
  destruct (NewMultiClass_inv E rnd D O0 tr HN) as (EO & _). assert (ELr : o_lr (tr_opts tr) = o_lr O0) by (rewrite EO; reflexivity). assert (EB : o_base (tr_opts tr) = o_base O0) by (rewrite EO; reflexivity).
  assert (N1 : near false 1 p); [|destruct N1 as [[N1 _]|N1]; [discriminate N1|exact N1]].
  apply (entry_near E HE rnd D O0 tr HN HL HS Hrows false (or_intror (conj HX Hlam)) es1 e es2 Hes) with (row := row); auto.
  intros pr HPr i q Hi [_ Hq]. destruct (nth_error (Data D) (Z.to_nat i)) as [rw|] eqn:Er; [|apply nth_error_None in Er; lia].
  destruct (HPr _ _ Er) as (scores & ps & v & Hsl & Hs & HSm & Hv & Hpv). assert (v = q) by congruence. subst v.
  apply (shares_unit scores _ ps q HSm); [rewrite repeat_length; auto|auto| |eapply nth_error_In; eauto].
  intros s Hin. apply In_nth_error in Hin as [j Hj]. assert (Hjl : (j < length (ClassLabels (tr_model tr)))%nat) by (rewrite <- Hsl; apply nth_error_Some; congruence).
  destruct (Hs j Hjl) as (s' & Hs' & Hacc). assert (s' = s) by congruence. subst s'. rewrite EB in Hacc.
  refine (score_range _ _ rw s (length (mc_b (tr_model tr))) ELr _ Hacc _ eq_refl).
  - intros t u Ht Hu. unfold classTrees in Ht. apply in_map_iff in Ht as (e' & <- & He'). apply filter_In in He' as [He' _]. apply in_split in He' as (a & c & Hac).
    refine (IH (length a) _ a e' (c ++ e :: es2) eq_refl _ rw u Hu).
    + rewrite <- Hlen, Hac, app_length. cbn [length]. lia.
    + rewrite Hes, Hac, <- app_assoc. reflexivity.
  - rewrite <- hist_len. etransitivity; [|apply (class_once (tr_hist tr) j)].
    + unfold classTrees. rewrite !map_length, Hes, filter_app, app_length. lia.
    + intros cl Hcl. apply In_nth_error in Hcl as [m Hm]. destruct (c29_lemma E rnd D O0 tr HN) as (_ & HRr & _). exact (proj1 (HRr m cl Hm)).
Qed.
Lemma tree_unit ens t : In ens (mc_b (tr_model tr)) -> In t ens -> forall row p, PredictSingle t row = Ok p -> upTo 1 p.
Proof. intros He Ht row p. destruct (tree_entry E rnd D O0 tr HN ens t He Ht) as (es1 & e & es2 & Hes & <-). apply (history_unit _ es1 e es2 eq_refl Hes). Qed.
Lemma scores_unit row out : rawScores (tr_model tr) row = Ok out -> forall s, In s out -> upTo 610 s.
Proof.
  intros Ho s Hin. apply In_nth_error in Hin as [j Hj]. destruct (c29_lemma E rnd D O0 tr HN) as (_ & _ & _ & H4). destruct (H4 row out Ho j) as (y & Hy & Hacc); [apply nth_error_Some; congruence|].
  assert (y = s) by congruence. subst y. destruct (NewMultiClass_inv E rnd D O0 tr HN) as (EO & _). assert (ELr : o_lr (tr_opts tr) = o_lr O0) by (rewrite EO; reflexivity). assert (EB : o_base (tr_opts tr) = o_base O0) by (rewrite EO; reflexivity).
  rewrite EB in Hacc. refine (score_range _ _ row s (length (mc_b (tr_model tr))) ELr _ Hacc _ eq_refl).
  - intros t p Ht. apply position_in in Ht as (ens & He & Ht). apply (tree_unit ens t He Ht).
  - apply position_len.
Qed.
Lemma preds_unit row bufs preds bufs' : PredictMC (tr_model tr) row bufs = Ok (preds, bufs') -> forall p, In p preds -> ffinite p = true /\ 0 <= B2R p <= 1.
Proof.
  intros HP p Hp. destruct (PredictMC_inv E rnd D O0 tr HN row bufs preds bufs' HP) as (_ & HLp & scores & HRs & HLs & HSm).
  assert (U : unitVal false p); [|destruct U as [[U _]|U]; [discriminate U|exact U]].
  apply (shares_unit scores _ preds p HSm); auto; [rewrite repeat_length; auto|]. intros s Hs. exact (scores_unit row scores HRs s Hs).
Qed.
End NoNaN.

(** the most a probability can be *)
Lemma rsum_map_bounds (f : R -> R) l lo hi : (forall x, In x l -> lo <= f x <= hi) -> INR (length l) * lo <= rsum (map f l) <= INR (length l) * hi.
Proof.
  induction l as [|x l IH]; intros H; [cbn; lra|]. specialize (IH ltac:(intros; apply H; right; auto)). pose proof (H x (or_introl eq_refl)).
  cbn [map rsum]. change (length (x :: l)) with (S (length l)). rewrite S_INR. lra.
Qed.
Lemma rsum_two_lists l m : rsum (l ++ m) = rsum l + rsum m.
Proof. induction l as [|x l IH]; cbn [app rsum]; [lra|rewrite IH; lra]. Qed.
Lemma share_bounds S j base B : (j < length S)%nat -> (forall s, In s S -> Rabs (s - base) <= B) ->
  / (1 + (INR (length S) - 1) * exp (2 * B)) <= exactShare S j <= / (1 + (INR (length S) - 1) * exp (- (2 * B))).
Proof.
  intros Hj H. destruct (nth_split S 0 Hj) as (l1 & l2 & HSp & Hl1). set (s := nth j S 0) in *.
  assert (Hs : Rabs (s - base) <= B) by (apply H; apply nth_In; auto).
  assert (Hb : forall x, In x (l1 ++ l2) -> exp (- (2 * B)) * exp s <= exp x <= exp (2 * B) * exp s).
  { intros x Hx. assert (Hx' : Rabs (x - base) <= B) by (apply H; rewrite HSp; apply in_app_or in Hx as [Hx|Hx]; apply in_or_app; [left; auto|right; right; auto]).
    apply Rabs_le_inv in Hs, Hx'. rewrite <- !exp_plus. split; apply exp_mono; lra. }
  pose proof (rsum_map_bounds exp (l1 ++ l2) _ _ Hb) as HB1.
  assert (HL : INR (length (l1 ++ l2)) = INR (length S) - 1). { rewrite HSp, !app_length. cbn [length]. rewrite <- plus_n_Sm, S_INR. lra. }
  assert (HT : rsum (map exp S) = exp s + rsum (map exp (l1 ++ l2))). { rewrite HSp, !map_app, !rsum_two_lists. cbn [map rsum]. lra. }
  rewrite HL in HB1. unfold exactShare. fold s. rewrite HT. pose proof (exp_pos s) as Ps. pose proof (exp_pos (2 * B)) as P1. pose proof (exp_pos (- (2 * B))) as P2.
  assert (HN : 0 <= INR (length S) - 1) by (rewrite <- HL; apply pos_INR).
  set (X := rsum (map exp (l1 ++ l2))) in *. set (N := INR (length S) - 1) in *. set (e1 := exp (2 * B)) in *. set (e2 := exp (- (2 * B))) in *. set (es := exp s) in *.
  assert (0 <= N * e1) by (apply Rmult_le_pos; lra). assert (0 <= N * e2) by (apply Rmult_le_pos; lra). assert (0 <= N * e2 * es) by (apply Rmult_le_pos; lra).
  assert (G : forall q, 0 <= q -> es / (es + q * es) = / (1 + q)) by (intros q Hq; field; split; nra).
  split; [rewrite <- (G (N * e1)) by auto|rewrite <- (G (N * e2)) by auto]; unfold Rdiv; apply Rmult_le_compat_l; try lra; apply Rinv_le_contravar; lra.
Qed.
Lemma confidence_lemma {K} E rnd (D : DataBunch K) O0 tr : EnvOk E -> NewMultiClass E rnd D O0 = Ok tr -> (length (Data D) <= length (Labels D))%nat -> plainSquared O0 ->
  (Z.of_nat (length (Data D)) < 2 ^ 53)%Z -> forall row S, (forall j, (j < length S)%nat -> exists A, classScore (tr_model tr) row j (nth j S 0) A) ->
  let B := INR (length (mc_b (tr_model tr))) * Rabs (B2R (o_lr O0)) in forall j, (j < length S)%nat ->
  / (1 + (INR (length S) - 1) * exp (2 * B)) <= exactShare S j <= / (1 + (INR (length S) - 1) * exp (- (2 * B))).
Proof.
  intros HE HN HL HS Hr row S HSc B j Hj. apply (share_bounds S j (B2R (o_base O0))); auto. intros s Hs. apply (In_nth _ _ 0) in Hs as (k & Hk & <-).
  destruct (HSc k Hk) as (A & HA). destruct (score_lemma E rnd D O0 tr HE HN HL HS Hr row k _ A HA) as [H1 _]. eapply Rle_trans; [exact H1|]. unfold B.
  apply Rmult_le_compat_r; [apply Rabs_pos|]. apply le_INR. apply position_len.
Qed.
