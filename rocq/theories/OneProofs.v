(** Training on a single label (proof support for C145). *)
From Coq Require Import Reals Lra.
From Flocq Require Import IEEE754.BinarySingleNaN.
From Verif Require Import RowProofs Base F64 F64Lemmas Env EnvLemmas Utils Tree Spec Options Train SpecTrain UtilsProofs UtilsThms ActProofs TreeProofs TreeSplit TreeThms TrainProofs TrainThms TrainMore TrainSteps SatProofs InvMore ErrProofs UseProofs CVProofs.
Open Scope Z_scope.

Definition isZ (x : f64) : Prop := exists s, x = B754_zero s.
Lemma isZ_add a b : isZ a -> isZ b -> isZ (fadd a b).
Proof. intros [s ->] [u ->]. destruct s, u; eexists; reflexivity. Qed.
Lemma isZ_sub a b : isZ a -> isZ b -> isZ (fsub a b).
Proof. intros [s ->] [u ->]. destruct s, u; eexists; reflexivity. Qed.
Lemma isZ_mul a b : isZ a -> ffinite b = true -> isZ (fmul a b).
Proof. intros [s ->] Hb. destruct b as [u|u| |u m e He]; try discriminate Hb; eexists; reflexivity. Qed.
Lemma isZ_mul_l a b : isZ a -> ffinite b = true -> isZ (fmul b a).
Proof. intros [s ->] Hb. destruct b as [u|u| |u m e He]; try discriminate Hb; eexists; reflexivity. Qed.
Lemma isZ_div a b : isZ a -> isZ (fdiv a b) \/ fnanb (fdiv a b) = true.
Proof. intros [s ->]. destruct b as [u|u| |u m e He]; [right; reflexivity|left; eexists; reflexivity|right; reflexivity|left; eexists; reflexivity]. Qed.
Lemma isZ_sum l s : is_sum l s -> (forall x, In x l -> isZ x) -> isZ s.
Proof.
  intros H; induction H as [|x|l1 l2 a b H1 IH1 H2 IH2|l1 l2 a P H IH]; intros HF.
  - eexists; reflexivity.
  - apply HF. left; auto.
  - apply isZ_add; [apply IH1|apply IH2]; intros x Hx; apply HF, in_or_app; auto.
  - apply IH. intros x Hx. apply HF. eapply Permutation_in; eauto.
Qed.
Lemma isZ_fold_add l a : (forall x, In x l -> isZ x) -> isZ a -> isZ (fold_left fadd l a).
Proof. revert a; induction l as [|x l IH]; intros a H Ha; [exact Ha|]. cbn [fold_left]. apply IH; [intros; apply H; right; auto|]. apply isZ_add; [exact Ha|apply H; left; auto]. Qed.
Lemma isZ_fold_sub l a : (forall x, In x l -> isZ x) -> isZ a -> isZ (fold_left fsub l a).
Proof. revert a; induction l as [|x l IH]; intros a H Ha; [exact Ha|]. cbn [fold_left]. apply IH; [intros; apply H; right; auto|]. apply isZ_sub; [exact Ha|apply H; left; auto]. Qed.
Definition ZN (x : f64) : Prop := isZ x \/ fnanb x = true.
Lemma nan_is x : fnanb x = true -> x = B754_nan.
Proof. destruct x; intros H; try discriminate H; reflexivity. Qed.
Lemma ZN_add a b : ZN a -> ZN b -> ZN (fadd a b).
Proof. intros [Ha|Ha] [Hb|Hb]; [left; apply isZ_add; auto|apply nan_is in Hb; subst b|apply nan_is in Ha; subst a|apply nan_is in Ha; subst a]; right; try reflexivity. destruct Ha as [s ->]; reflexivity. Qed.
Lemma ZN_sub a b : ZN a -> ZN b -> ZN (fsub a b).
Proof. intros [Ha|Ha] [Hb|Hb]; [left; apply isZ_sub; auto|apply nan_is in Hb; subst b|apply nan_is in Ha; subst a|apply nan_is in Ha; subst a]; right; try reflexivity. destruct Ha as [s ->]; reflexivity. Qed.
Lemma ZN_half a : ZN a -> ZN (fmul fhalf a).
Proof. intros [Ha|Ha]; [left; apply isZ_mul_l; auto|apply nan_is in Ha; subst a; right; reflexivity]. Qed.

Lemma half_gamma g : fltb g fzero = false -> forall z, ZN z -> fltb fzero (fsub z (fdiv g (fofZ 2))) = false.
Proof.
  intros Hg z Hz. set (y := fdiv g (fofZ 2)).
  assert (Hy : fltb y fzero = false).
  { unfold y. clear Hz z y. destruct (fltb (fdiv g (fofZ 2)) fzero) eqn:Hl; [|reflexivity]. apply fltb_true in Hl as (N1 & _ & Hl). change (ext fzero) with 0%R in Hl.
    destruct g as [s|s| |s m e He].
    - destruct s; vm_compute in Hl; lra.
    - destruct s; [discriminate Hg|]. exfalso. change (fdiv (B754_infinity false) (fofZ 2)) with (B754_infinity false : f64) in Hl. cbn [ext] in Hl. pose proof Mx_pos. lra.
    - discriminate N1.
    - destruct s; [discriminate Hg|]. set (g := B754_finite false m e He : f64) in *. assert (F2 : ffinite (fofZ 2) = true) by reflexivity.
      assert (B2 : B2R (fofZ 2) = 2%R) by (apply (proj2 (CVProofs.fofZ_exact 2 ltac:(lia)))). destruct (fdiv_ext g (fofZ 2) eq_refl F2) as [_ E]; [lra|]. rewrite E, B2 in Hl.
      assert (0 <= B2R g)%R by (cbn [B2R g]; apply Float_prop.F2R_ge_0; cbn; lia).
      assert (0 <= rnd (B2R g / 2))%R by (apply rnd_ge_0; lra). pose proof Mx_pos as HM. rewrite <- (clamp_id 0) in Hl by lra.
      assert (clamp 0 <= clamp (rnd (B2R g / 2)))%R by (apply clamp_mono; auto). lra. }
  destruct Hz as [[s ->]|Hz]; [|apply nan_is in Hz; subst z; reflexivity].
  destruct y as [u|u| |u m e He]; [destruct s, u; reflexivity|destruct u; [discriminate Hy|reflexivity]|reflexivity|destruct u; [discriminate Hy|reflexivity]].
Qed.

(** zero gradients: no split *)
Lemma zero_gradients E X o t g : EnvOk E -> NewTree E X o = Ok t -> to_xgb o = true -> to_grads o = Some g -> fltb (to_gamma o) fzero = false ->
  (forall i v, In i (initialSamples X o) -> look g i v -> isZ v) -> exists d, t = Node d Nil Nil /\ t_leaf d = true /\ samplesOf d = initialSamples X o.
Proof.
  intros HE HT Hx Hg Hgam HZ. pose proof (NewTree_grown _ _ _ _ HT) as HG. destruct (grown_node _ _ _ _ _ HG) as (d & l & r & ->). exists d.
  assert (Hd : samplesOf d = initialSamples X o) by (inversion HG; reflexivity).
  assert (HL : t_leaf d = true).
  { destruct (t_leaf d) eqn:HL; [reflexivity|exfalso]. destruct (c07_lemma E X o _ d l r 0 HE HT (subAt_0 _)) as (row0 & _ & H & _).
    destruct (H HL) as (i & _ & Hc & Hb & _). rewrite Hd in Hc. unfold betterScore, startScore in Hb. rewrite Hx in Hb.
    destruct Hc as (col & a & b & _ & _ & _ & _ & _ & _ & _ & _ & Hc). rewrite Hx in Hc. destruct Hc as (g1 & h & sg & sh & Fg & Fh & Fsg & Fsh & Hc).
    rewrite Hg in Fg. cbn [orNil] in Fg.
    assert (Zg : forall x, In x g1 -> isZ x).
    { intros x Hin. apply In_nth_error in Hin as [k Hk]. destruct (Forall2_nth2 _ _ _ Fg _ _ Hk) as (j & Hj & Hl). apply (HZ j); [eapply nth_error_In; eauto|exact Hl]. }
    assert (Zsg : forall x, In x sg -> isZ x).
    { intros x Hin. apply In_nth_error in Hin as [k Hk]. destruct (Forall2_nth2 _ _ _ Fsg _ _ Hk) as (j & Hj & [_ Hl]). apply Zg. eapply nth_error_In; eauto. }
    assert (Zf : forall x, In x (firstn i sg) -> isZ x) by (intros x Hin; apply Zsg; rewrite <- (firstn_skipn i sg); apply in_or_app; left; exact Hin).
    assert (Zs : isZ (e_sum E g1)) by (apply (isZ_sum g1); [apply (ok_sum _ HE)|exact Zg]).
    cbv zeta in Hc.
    assert (T : forall G H, isZ G -> ZN (fdiv (fmul G G) (fadd H (to_lambda o)))).
    { intros G H0 HGz. apply isZ_div. apply isZ_mul; [exact HGz|]. destruct HGz as [s ->]. reflexivity. }
    rewrite Hc in Hb. rewrite (half_gamma _ Hgam) in Hb; [discriminate Hb|]. apply ZN_half, ZN_sub; [apply ZN_add; apply T|apply T].
    - apply isZ_fold_add; [exact Zf|eexists; reflexivity].
    - apply isZ_fold_sub; [exact Zf|exact Zs].
    - exact Zs. }
  destruct (grown_leaf_iff _ _ _ _ _ _ _ HG) as [H1 _]. destruct (H1 HL) as [-> ->]. auto.
Qed.
Lemma zero_value E X o t g h d l r : EnvOk E -> NewTree E X o = Ok t -> sub (Node d l r) t -> to_xgb o = true -> to_grads o = Some g -> to_hess o = Some h -> fltb fzero (to_lambda o) = true ->
  (forall i v, In i (samplesOf d) -> look g i v -> isZ v) -> (forall i v, In i (samplesOf d) -> look h i v -> fnn v) -> isZ (t_value d).
Proof.
  intros HE HT HS Hx Hg Hh Hlam HZ HN. destruct (node_value E X o t d l r HT HS) as (ix & Hi & _ & _ & H). rewrite Hx, Hg, Hh in H. cbn [orNil] in H.
  assert (Hs : samplesOf d = ix) by (unfold samplesOf; rewrite Hi; reflexivity). rewrite Hs in *.
  destruct H as (gs & hs & Fg & Fh & ->).
  assert (Zg : isZ (e_sum E gs)).
  { apply (isZ_sum gs); [apply (ok_sum _ HE)|]. intros x Hin. apply In_nth_error in Hin as [k Hk]. destruct (Forall2_nth2 _ _ _ Fg _ _ Hk) as (j & Hj & Hl). apply (HZ j); [eapply nth_error_In; eauto|exact Hl]. }
  assert (Nh : fnn (e_sum E hs)).
  { apply (is_sum_nn hs); [apply (ok_sum _ HE)|]. apply Forall_forall. intros x Hin. apply In_nth_error in Hin as [k Hk]. destruct (Forall2_nth2 _ _ _ Fh _ _ Hk) as (j & Hj & Hl). apply (HN j); [eapply nth_error_In; eauto|exact Hl]. }
  assert (Zm : isZ (fmul (fofZ (-1)) (e_sum E gs))) by (apply isZ_mul_l; [exact Zg|reflexivity]).
  apply fltb_true in Hlam as (_ & Nl & Hl). change (ext fzero) with 0%R in Hl.
  destruct (fadd_fnn (e_sum E hs) (to_lambda o) Nh) as (A & _ & B); [apply fnn_iff; split; [exact Nl|lra]|]. apply fnn_iff in A as [A _].
  destruct Zm as [s ->]. destruct (fadd (e_sum E hs) (to_lambda o)) as [u|u| |u m e He].
  - cbn [ext B2R] in B. lra.
  - eexists; reflexivity.
  - discriminate A.
  - eexists; reflexivity.
Qed.

(** SoftMax of one score *)
Lemma sum_single l s : is_sum l s -> (l = [] -> s = fzero) /\ forall x, l = [x] -> ffinite x = true -> B2R x <> 0%R -> s = x.
Proof.
  intros H; induction H as [|x|l1 l2 a b H1 IH1 H2 IH2|l1 l2 a P H IH].
  - split; [auto|discriminate].
  - split; [discriminate|]. intros y Hy. congruence.
  - split.
    + intros Hn. apply app_eq_nil in Hn as [-> ->]. rewrite (proj1 IH1 eq_refl), (proj1 IH2 eq_refl). reflexivity.
    + intros x Hx Fx Bx. assert (Ax : forall z : f64, ffinite z = true -> B2R z <> 0%R -> fadd fzero z = z /\ fadd z fzero = z).
      { intros z Fz Bz. destruct z as [u|u| |u m e He]; try discriminate Fz; [exfalso; apply Bz; reflexivity|]. split; reflexivity. }
      destruct (Ax x Fx Bx) as [A1 A2].
      destruct l1 as [|y l1].
      * cbn [app] in Hx. rewrite (proj1 IH1 eq_refl), (proj2 IH2 x Hx Fx Bx). exact A1.
      * cbn [app] in Hx. assert (y = x) by congruence. assert (Hn : l1 ++ l2 = []) by congruence. apply app_eq_nil in Hn as [-> ->]. subst y.
        rewrite (proj1 IH2 eq_refl), (proj2 IH1 x eq_refl Fx Bx). exact A2.
  - split.
    + intros ->. apply (proj1 IH). apply Permutation_nil. apply Permutation_sym; exact P.
    + intros x -> Fx Bx. apply (proj2 IH); auto. apply Permutation_length_1_inv. apply Permutation_sym; exact P.
Qed.
Lemma self_div x : ffinite x = true -> B2R x <> 0%R -> fdiv x x = fone.
Proof.
  intros Fx Bx. destruct (fdiv_ext x x Fx Fx Bx) as [N E]. unfold Rdiv in E. rewrite Rinv_r in E by exact Bx.
  assert (HB1 : B2R fone = 1%R) by (apply B2R_fone). assert (HM : (1 < Mx)%R) by (pose proof (B2R_bounds fone) as Hb; rewrite HB1 in Hb; lra).
  rewrite <- HB1, rnd_B2R, HB1, clamp_id in E by lra.
  assert (F : ffinite (fdiv x x) = true) by (apply finite_ext; [exact N|rewrite E; lra]). rewrite (ext_finite _ F) in E.
  apply B2R_inj.
  - destruct (fdiv x x) as [u|u| |u m e He]; try discriminate F; [cbn [B2R] in E; lra|reflexivity].
  - reflexivity.
  - rewrite E, HB1. reflexivity.
Qed.
Lemma one_prob E s q ps : EnvOk E -> SoftMax E [s] [q] = Ok ps -> ffinite (e_exp E s) = true -> fltb fzero (e_exp E s) = true -> ps = [fone].
Proof.
  intros HE H Fe Pe. unfold SoftMax in H. cbn [length Nat.ltb Nat.leb map app skipn firstn] in H. apply Ok_inj' in H. subst ps.
  assert (Be : B2R (e_exp E s) <> 0%R) by (apply fltb_true in Pe as (_ & _ & Pe); rewrite (ext_finite _ Fe) in Pe; change (ext fzero) with 0%R in Pe; lra).
  rewrite (proj2 (sum_single _ _ (ok_sum _ HE [e_exp E s])) _ eq_refl Fe Be). rewrite self_div by auto. reflexivity.
Qed.

(** scores that never move *)
Lemma keep_score lr row b ts v : ffinite lr = true -> ffinite b = true ->
  (forall t, In t ts -> exists d, t = Node d Nil Nil /\ t_leaf d = true /\ isZ (t_value d)) -> accumulated lr row b ts v -> feqb v b = true.
Proof.
  intros Fl Fb HT (ps & HF & ->).
  assert (HP : forall p, In p ps -> isZ p).
  { intros p Hp. apply In_nth_error in Hp as [k Hk]. destruct (Forall2_nth2 _ _ _ HF _ _ Hk) as (t & Ht & Hl). destruct (HT t (nth_error_In _ _ Ht)) as (d & -> & HL & HZ).
    cbn [PredictSingle] in Hl. rewrite HL in Hl. apply Ok_inj' in Hl. subst p. exact HZ. }
  clear HF HT.
  assert (HG : forall acc, feqb acc b = true -> feqb (fold_left (fun a p => fadd a (fmul p lr)) ps acc) b = true).
  { induction ps as [|p ps IH]; intros acc Ha; cbn [fold_left]; [exact Ha|]. apply IH; [intros; apply HP; right; auto|].
    destruct (isZ_mul p lr (HP p (or_introl eq_refl)) Fl) as [s ->].
    destruct acc as [u|u| |u m e He].
    - destruct s, u; exact Ha.
    - exact Ha.
    - exact Ha.
    - exact Ha. }
  apply HG. destruct b as [u|u| |u m e He]; try discriminate Fb; [reflexivity|]. apply feqb_true. repeat split.
Qed.

Section OneLabel.
Context {K : Type} (E : Env) (HE : EnvOk E) (rnd : draws) (D : DataBunch K) (O0 : Options) (tr : trained) (a : Z) (id : Z).
Context (HN : NewMultiClass E rnd D O0 = Ok tr) (HL : (length (Data D) <= length (Labels D))%nat) (HA : forall v, In v (Labels D) -> v = a).
Context (HX : o_xgb O0 = true) (HLoss : o_loss O0 = SQErrLoss id \/ o_loss O0 = MSELoss id) (HG : fltb (o_gamma O0) fzero = false)
        (HLam : fltb fzero (o_lambda O0) = true) (HLr : ffinite (o_lr O0) = true) (HB : ffinite (o_base O0) = true).
Context (HExp : forall x, feqb x (o_base O0) = true -> ffinite (e_exp E x) = true /\ fltb fzero (e_exp E x) = true).

Definition zeroLeaf (t : tree) : Prop := exists d, t = Node d Nil Nil /\ t_leaf d = true /\ isZ (t_value d).
Lemma one_class : ClassLabels (tr_model tr) = [a].
Proof. exact (proj1 (c106_lemma E rnd D O0 tr a HA HN)). Qed.
Lemma class_zero e : In e (concat (tr_hist tr)) -> g_class e = O.
Proof.
  intros He. apply in_concat in He as (cl & Hcl & He). apply In_nth_error in Hcl as [m Hm]. destruct (c29_lemma E rnd D O0 tr HN) as (_ & HR & _).
  destruct (HR m cl Hm) as [_ HR']. apply (in_map g_class) in He. apply HR' in He as [He _]. rewrite one_class in He. cbn [length] in He. lia.
Qed.
Lemma sampled_in (topts : TreeOptions) rows (rd : (nat -> f64) * (nat -> f64)) : to_indexes topts = rows ->
  (if fltb (o_ss (tr_opts tr)) fone then rows = Some (map Z.of_nat (filter (fun i => fleb (fst rd i) (o_ss (tr_opts tr))) (seq 0 (length (Data D))))) else rows = None) ->
  forall i, In i (initialSamples (Data D) topts) -> 0 <= i < Z.of_nat (length (Data D)).
Proof.
  intros H1 H2 i Hi. unfold initialSamples in Hi. rewrite H1 in Hi. destruct (fltb (o_ss (tr_opts tr)) fone); subst rows; rewrite H2 in Hi.
  - apply in_map_iff in Hi as (j & <- & Hj). apply filter_In in Hj as [Hj _]. apply in_seq in Hj. lia.
  - apply iota_In. exact Hi.
Qed.
Lemma history_zero n : forall es1 e es2, length es1 = n -> concat (tr_hist tr) = es1 ++ e :: es2 -> zeroLeaf (g_tree e).
Proof.
  induction n as [n IH] using lt_wf_ind. intros es1 e es2 Hlen Hes.
  destruct (NewMultiClass_inv E rnd D O0 tr HN) as (EO & _).
  assert (EX : o_xgb (tr_opts tr) = true) by (rewrite EO; exact HX). assert (EL : o_loss (tr_opts tr) = o_loss O0) by (rewrite EO; reflexivity).
  assert (EG : o_gamma (tr_opts tr) = o_gamma O0) by (rewrite EO; reflexivity). assert (ELm : o_lambda (tr_opts tr) = o_lambda O0) by (rewrite EO; reflexivity).
  assert (ELr : o_lr (tr_opts tr) = o_lr O0) by (rewrite EO; reflexivity). assert (EB : o_base (tr_opts tr) = o_base O0) by (rewrite EO; reflexivity).
  assert (Hprev : forall t, In t (classTrees es1 0) -> zeroLeaf t).
  { intros t Ht. unfold classTrees in Ht. apply in_map_iff in Ht as (e' & <- & He'). apply filter_In in He' as [He' _]. apply in_split in He' as (p & q & Hpq).
    apply (IH (length p)) with (es1 := p) (es2 := q ++ e :: es2); [|reflexivity|].
    - rewrite <- Hlen, Hpq, app_length. cbn [length]. lia.
    - rewrite Hes, Hpq, <- app_assoc. reflexivity. }
  destruct (c81_lemma E rnd D O0 tr HN HL es1 e es2 Hes) as (lab & pr & _ & HI & HP & HF & _).
  assert (Hc : g_class e = O) by (apply class_zero; rewrite Hes; apply in_or_app; right; left; reflexivity). rewrite Hc in HI, HP. rewrite one_class in HI, HP. cbn [length] in HP.
  assert (Hpr : forall i, 0 <= i < Z.of_nat (length (Data D)) -> look pr i fone).
  { intros i Hi. destruct (nth_error (Data D) (Z.to_nat i)) as [row|] eqn:Er; [|apply nth_error_None in Er; lia].
    destruct (HP _ _ Er) as (scores & ps & v & Hsl & Hs & HS & Hv & Hpv). split; [lia|].
    destruct scores as [|s [|]]; try discriminate Hsl. destruct (Hs 0%nat ltac:(lia)) as (s' & Hs' & Hacc). cbn [nth_error] in Hs'. assert (s' = s) by congruence. subst s'.
    rewrite ELr, EB in Hacc. pose proof (keep_score _ _ _ _ _ HLr HB Hprev Hacc) as Hk. destruct (HExp _ Hk) as [F1 P1].
    cbn [repeat] in HS. rewrite (one_prob E s _ ps HE HS F1 P1) in Hv. cbn [nth_error] in Hv. rewrite Hpv. congruence. }
  assert (Hlab : forall i, 0 <= i < Z.of_nat (length (Data D)) -> look lab i fone).
  { intros i Hi. split; [lia|]. destruct HI as [_ HI]. destruct (nth_error (Labels D) (Z.to_nat i)) as [y|] eqn:Ey; [|apply nth_error_None in Ey; lia].
    rewrite (HI _ y a Ey eq_refl). rewrite (HA y (nth_error_In _ _ Ey)), Z.eqb_refl. reflexivity. }
  unfold fitted in HF. rewrite EX in HF. destruct HF as (rows & cols & topts & Hrows & _ & Ho & Hg & Hh & HT).
  assert (Ox : to_xgb topts = true) by congruence. assert (Og : to_gamma topts = o_gamma O0) by congruence. assert (Ol : to_lambda topts = o_lambda O0) by congruence.
  assert (Oi : to_indexes topts = rows) by congruence. clear Ho. rewrite EL in Hg, Hh.
  pose proof (sampled_in topts rows _ Oi Hrows) as Hin.
  assert (HgZ : forall i v, In i (initialSamples (Data D) topts) -> look (l_grad (o_loss O0) lab pr) i v -> isZ v).
  { intros i v Hi [_ Hv]. destruct (Hpr i (Hin i Hi)) as [_ H1]. destruct (Hlab i (Hin i Hi)) as [_ H2].
    assert (Hg' : l_grad (o_loss O0) lab pr = gradients F lab pr) by (destruct HLoss as [-> | ->]; reflexivity). rewrite Hg' in Hv.
    change (nth_error (map (fun x : f64 => fmul (fofZ (-1)) x) (map (fun p : f64 * f64 => fsub (fst p) (snd p)) (combine lab pr))) (Z.to_nat i) = Some v) in Hv.
    assert (HC : nth_error (combine lab pr) (Z.to_nat i) = Some (fone, fone)).
    { clear -H1 H2. revert lab pr H1 H2. induction (Z.to_nat i) as [|k IHk]; intros [|x lab] [|y pr] La Lb; try discriminate; cbn [nth_error combine] in *; [congruence|auto]. }
    rewrite !nth_error_map, HC in Hv. cbn [option_map fst snd] in Hv. apply (f_equal (fun o => match o with Some x => x | None => fzero end)) in Hv. subst v. exists true. vm_compute. reflexivity. }
  assert (HhN : forall i v, In i (initialSamples (Data D) topts) -> look (l_hess (o_loss O0) pr) i v -> fnn v).
  { intros i v Hi [_ Hv]. destruct (Hpr i (Hin i Hi)) as [_ H1]. destruct HLoss as [Hq|Hq]; rewrite Hq in Hv.
    - change (nth_error (map (fun _ : f64 => fofZ 1) pr) (Z.to_nat i) = Some v) in Hv. rewrite nth_error_map, H1 in Hv. cbn [option_map] in Hv.
      apply (f_equal (fun o => match o with Some x => x | None => fzero end)) in Hv. subst v. vm_compute. reflexivity.
    - change (nth_error (map (fun x : f64 => fmul (fsub (fofZ 1) x) x) pr) (Z.to_nat i) = Some v) in Hv. rewrite nth_error_map, H1 in Hv. cbn [option_map] in Hv.
      apply (f_equal (fun o => match o with Some x => x | None => fzero end)) in Hv. subst v. vm_compute. reflexivity. }
  assert (HGm : fltb (to_gamma topts) fzero = false) by (rewrite Og; exact HG).
  destruct (zero_gradients E (Data D) topts (g_tree e) _ HE HT Ox Hg HGm HgZ) as (d & Ht & HLf & Hsd).
  exists d. split; [exact Ht|]. split; [exact HLf|].
  apply (zero_value E (Data D) topts (g_tree e) (l_grad (o_loss O0) lab pr) (l_hess (o_loss O0) pr) d Nil Nil HE HT); try assumption.
  - rewrite Ht. apply sub_refl.
  - rewrite Ol. exact HLam.
  - rewrite Hsd. exact HgZ.
  - rewrite Hsd. exact HhN.
Qed.
Lemma model_zero ens t : In ens (mc_b (tr_model tr)) -> In t ens -> zeroLeaf t.
Proof.
  intros He Ht. destruct (NewMultiClass_inv E rnd D O0 tr HN) as (_ & Eb & _). rewrite Eb in He. apply in_map_iff in He as (cl & <- & Hcl). apply in_map_iff in Ht as (e & <- & He).
  assert (Hin : In e (concat (tr_hist tr))) by (apply in_concat; eauto). apply in_split in Hin as (p & q & Hpq). exact (history_zero _ p e q eq_refl Hpq).
Qed.
Lemma score_zero row j v : accumulated (mc_lr (tr_model tr)) row (mc_base (tr_model tr)) (positionTrees (mc_b (tr_model tr)) j) v -> feqb v (o_base O0) = true.
Proof.
  intros H. destruct (NewMultiClass_inv E rnd D O0 tr HN) as (EO & _ & Elr & Ebase & _).
  rewrite Elr, Ebase, EO in H. cbn [o_lr o_base] in H. apply (keep_score (o_lr O0) row (o_base O0) (positionTrees (mc_b (tr_model tr)) j) v HLr HB); [|exact H].
  intros t Ht. unfold positionTrees in Ht. apply in_flat_map in Ht as (ens & Hens & Ht). destruct (nth_error ens j) as [u|] eqn:Eu; [|contradiction]. destruct Ht as [<- |[]].
  apply (model_zero ens); [exact Hens|eapply nth_error_In; eauto].
Qed.
Lemma predict_one row bufs preds bufs' : PredictMC (tr_model tr) row bufs = Ok (preds, bufs') -> preds = [fone].
Proof.
  intros HP. destruct (PredictMC_inv E rnd D O0 tr HN row bufs preds bufs' HP) as (_ & HLp & scores & HR & HLs & HS).
  destruct (rawScores_spec _ _ _ HR) as (b0 & rest & HBb & HLb & HLe & HAc). rewrite one_class in *.
  destruct scores as [|s [|]]; try (cbn [length] in *; lia). 
  assert (Hj : (0 < length b0)%nat) by (rewrite <- HLb; cbn; lia). destruct (HAc O Hj) as (y & Hy & Hacc). cbn [nth_error] in Hy. assert (y = s) by congruence. subst y.
  pose proof (score_zero _ _ _ Hacc) as Hk. destruct (HExp _ Hk) as [F1 P1]. cbn [length repeat] in HS. exact (one_prob E s _ preds HE HS F1 P1).
Qed.
(** another activation function at prediction time, e.g. one registered in the map before a model is read *)
Lemma activation f row bufs preds bufs' :
  PredictMC (MkMC (mc_b (tr_model tr)) (mc_lr (tr_model tr)) (mc_labels (tr_model tr)) (Some f) (mc_base (tr_model tr)) (mc_xgb (tr_model tr))) row bufs = Ok (preds, bufs') ->
  exists s out, feqb s (o_base O0) = true /\ f (Dense 1 1 [s]) (Dense 1 1 [fzero]) = Ok out /\ preds = d_data out.
Proof.
  intros HP. unfold PredictMC in HP. apply bind_Ok in HP as (scores & HR & HP). 
  change (rawScores (tr_model tr) row = Ok scores) in HR.
  destruct (rawScores_spec _ _ _ HR) as (b0 & rest & HBb & HLb & HLe & HAc).
  assert (HL1 : (length b0 <= 1)%nat).
  { destruct (NewMultiClass_inv E rnd D O0 tr HN) as (_ & Eb & _). rewrite Eb in HBb. destruct (tr_hist tr) as [|cl hist] eqn:Eh; [discriminate HBb|].
    cbn [map] in HBb. assert (E0 : b0 = map g_tree cl) by congruence. rewrite E0, map_length.
    destruct (c29_lemma E rnd D O0 tr HN) as (_ & HRr & _). rewrite Eh in HRr. destruct (HRr O cl eq_refl) as [HS HK]. rewrite one_class in HK. cbn [length] in HK.
    destruct cl as [|e1 [|e2 cl]]; cbn [length]; try lia. cbn [map] in HS, HK. inversion HS as [|? ? _ HF]; subst. inversion HF as [|? ? H12 _]; subst.
    assert (H2 : (g_class e2 < 1)%nat) by (apply HK; right; left; reflexivity). lia. }
  destruct scores as [|s [|]]; [unfold NewDense in HP; cbn in HP; discriminate HP| |cbn [length] in *; lia]. cbn [length] in HLb.
  destruct (HAc O ltac:(lia)) as (y & Hy & Hacc). cbn [nth_error] in Hy. assert (y = s) by congruence. subst y.
  exists s. pose proof (score_zero _ _ _ Hacc) as Hk.
  cbn [length repeat] in HP. unfold NewDense in HP. cbn -[fzero] in HP.
  apply bind_Ok in HP as (out & Ho & HP). exists out. split; [exact Hk|]. split; [exact Ho|]. apply Ok_inj' in HP. exact (eq_sym (f_equal fst HP)).
Qed.
End OneLabel.

(** regular boosting *)
Lemma grown_leaves E X n o t : grown E X n o t -> forall d, In d (leaves t) -> incl (samplesOf d) (initialSamples X o).
Proof.
  induction 1 as [n o value row0 b HV HX HB HL|n o value row0 b col l r HV HX HF HL HC Hl IHl Hr IHr]; intros d Hd.
  - destruct Hd as [<- |[]]. apply incl_refl.
  - destruct (grown_node _ _ _ _ _ Hl) as (dl & ll & lr & El). destruct (grown_node _ _ _ _ _ Hr) as (dr & rl & rr & Er). subst l r.
    cbn [leaves] in Hd. change (In d (leaves (Node dl ll lr) ++ leaves (Node dr rl rr))) in Hd. apply in_app_or in Hd as [Hd|Hd].
    + intros i Hi. apply (IHl d Hd) in Hi. cbn [initialSamples childOpts to_indexes] in Hi. apply filter_In in Hi. tauto.
    + intros i Hi. apply (IHr d Hd) in Hi. cbn [initialSamples childOpts to_indexes] in Hi. apply filter_In in Hi. tauto.
Qed.
Lemma updated_predict E X g h n o t0 : grown E X n o t0 -> forall t row v, leavesUpdated g h t0 t -> PredictSingle t row = Ok v -> exists d, In d (leaves t) /\ v = t_value d.
Proof.
  induction 1 as [n o value row0 b HV HX HB HL|n o value row0 b col l r HV HX HF HL HC Hl IHl Hr IHr]; intros t row v HU HP.
  - inversion HU as [|d l r l' r' HL1 HUl HUr|d d' l r l' r' ix gs hs HL1 HS Fg Fh HV1 HE HUl HUr]; subst.
    { unfold t_leaf in HL1; cbn [t_xgb t_best] in HL1. congruence. }
    inversion HUl; subst. inversion HUr; subst. assert (HLd : t_leaf d' = true).
    { unfold t_leaf in *. injection HE; intros _ E2 _ _ _ E3 _. rewrite E2, E3. exact HL1. }
    cbn [PredictSingle] in HP. rewrite HLd in HP. apply Ok_inj' in HP. exists d'. split; [left; reflexivity|auto].
  - inversion HU as [|d l1 r1 l' r' HL1 HUl HUr|d d' l1 r1 l' r' ix gs hs HL1 HS Fg Fh HV1 HE HUl HUr]; subst.
    2: { unfold t_leaf in HL1; cbn [t_xgb t_best] in HL1. congruence. }
    destruct (grown_node _ _ _ _ _ Hl) as (dl & ll & lr & El). destruct (grown_node _ _ _ _ _ Hr) as (dr & rl & rr & Er).
    destruct l' as [|dl' ll' lr']; [apply updated_node in HUl; assert (l = Nil) by (apply HUl; auto); congruence|].
    destruct r' as [|dr' rl' rr']; [apply updated_node in HUr; assert (r = Nil) by (apply HUr; auto); congruence|].
    assert (HLv : forall d, In d (leaves (Node dl' ll' lr')) \/ In d (leaves (Node dr' rl' rr')) -> In d (leaves (Node (MkT (Some (initialSamples X o)) (b_score b) value (Z.of_nat (length (initialSamples X o))) (b_split b) (b_thr b) (to_xgb o) (1 + branchesOf l + branchesOf r)) (Node dl' ll' lr') (Node dr' rl' rr')))).
    { intros d Hd. change (In d (leaves (Node dl' ll' lr') ++ leaves (Node dr' rl' rr'))). apply in_or_app. exact Hd. }
    change (PredictSingle (Node ?d ?l ?r) row) with (if t_leaf d then Ok (t_value d) else v <- idx row (t_split d) ;; if fleb v (t_thr d) then PredictSingle l row else PredictSingle r row) in HP.
    rewrite HL1 in HP. apply bind_Ok in HP as (x & _ & HP). destruct (fleb x _).
    + destruct (IHl _ _ _ HUl HP) as (d & Hd & ->). exists d. auto.
    + destruct (IHr _ _ _ HUr HP) as (d & Hd & ->). exists d. auto.
Qed.
Lemma one_label_nan {K} E rnd (D : DataBunch K) O0 tr a id : EnvOk E -> NewMultiClass E rnd D O0 = Ok tr -> (length (Data D) <= length (Labels D))%nat ->
  (forall v, In v (Labels D) -> v = a) -> o_xgb O0 = false -> o_loss O0 = MSELoss id ->
  ffinite (e_exp E (o_base O0)) = true -> fltb fzero (e_exp E (o_base O0)) = true ->
  forall row bufs preds bufs', PredictMC (tr_model tr) row bufs = Ok (preds, bufs') -> forall p, In p preds -> fnanb p = true.
Proof.
  intros HE HN HL HA HX HLoss F1 P1 row bufs preds bufs' HP.
  pose proof (proj1 (c106_lemma E rnd D O0 tr a HA HN)) as HC1.
  destruct (PredictMC_inv E rnd D O0 tr HN row bufs preds bufs' HP) as (_ & HLp & scores & HR & HLs & HS).
  destruct (rawScores_spec _ _ _ HR) as (b0 & rest & HBb & HLb & HLe & HAc). rewrite HC1 in HLs. cbn [length] in HLs.
  destruct b0 as [|t0 b0]; [cbn [length] in HLb; lia|].
  destruct (NewMultiClass_inv E rnd D O0 tr HN) as (EO & Eb & _).
  assert (EX : o_xgb (tr_opts tr) = false) by (rewrite EO; exact HX). assert (EL : o_loss (tr_opts tr) = MSELoss id) by (rewrite EO; exact HLoss).
  rewrite Eb in HBb. destruct (tr_hist tr) as [|cl hist] eqn:Eh; [discriminate HBb|]. cbn [map] in HBb.
  destruct cl as [|e cl]; [discriminate HBb|]. cbn [map] in HBb. assert (Ht0 : g_tree e = t0) by congruence. 
  assert (Hes : concat (tr_hist tr) = [] ++ e :: (cl ++ concat hist)) by (rewrite Eh; reflexivity).
  destruct (c81_lemma E rnd D O0 tr HN HL [] e (cl ++ concat hist) Hes) as (lab & pr & _ & HI & HPr & HF & _).
  assert (Hc : g_class e = O).
  { assert (He : In e (concat (tr_hist tr))) by (rewrite Hes; left; reflexivity). apply in_concat in He as (cl' & Hcl & He). apply In_nth_error in Hcl as [m Hm].
    destruct (c29_lemma E rnd D O0 tr HN) as (_ & HRr & _). destruct (HRr m cl' Hm) as [_ HR']. apply (in_map g_class) in He. apply HR' in He as [He _]. rewrite HC1 in He. cbn [length] in He. lia. }
  rewrite Hc, HC1 in HI, HPr. cbn [length] in HPr.
  assert (EB : o_base (tr_opts tr) = o_base O0) by (rewrite EO; reflexivity).
  unfold fitted in HF. rewrite EX, EL in HF. destruct HF as (topts & t1 & Ho & _ & HT & HU). assert (Oi : to_indexes topts = None) by congruence. clear Ho.
  apply NewTree_grown in HT. destruct (grown_updated _ _ _ _ _ _ _ HT _ HU) as (HM & HV & _).
  assert (Hnan : forall d, In d (leaves (g_tree e)) -> fnanb (t_value d) = true).
  { intros d Hd. destruct (HV d Hd) as (gs & hs & Fg & Fh & ->). apply (saturated_leaf id lab pr (samplesOf d)); auto.
    intros i Hi. assert (Hr : 0 <= i < Z.of_nat (length (Data D))).
    { apply (in_map samplesOf) in Hd. rewrite HM in Hd. apply in_map_iff in Hd as (d1 & E1 & Hd1). rewrite <- E1 in Hi. apply (grown_leaves _ _ _ _ _ HT d1 Hd1) in Hi.
      unfold initialSamples in Hi. rewrite Oi in Hi. apply iota_In. exact Hi. }
    exists fone, fone. split; [|split; [|split; [left; reflexivity|reflexivity]]].
    - split; [lia|]. destruct HI as [_ HI]. destruct (nth_error (Labels D) (Z.to_nat i)) as [y|] eqn:Ey; [|apply nth_error_None in Ey; lia].
      rewrite (HI _ y a Ey eq_refl). rewrite (HA y (nth_error_In _ _ Ey)), Z.eqb_refl. reflexivity.
    - split; [lia|]. destruct (nth_error (Data D) (Z.to_nat i)) as [row1|] eqn:Er; [|apply nth_error_None in Er; lia].
      destruct (HPr _ _ Er) as (scores1 & ps & v & Hsl & Hs & HS1 & Hv & Hpv). destruct scores1 as [|s [|]]; try discriminate Hsl.
      destruct (Hs 0%nat ltac:(lia)) as (s' & Hs' & (qs & HF2 & Hq)). inversion HF2; subst qs. cbn [fold_left] in Hq. cbn [nth_error] in Hs'. assert (s = o_base O0) by congruence. subst s.
      cbn [repeat] in HS1. rewrite (one_prob E _ _ ps HE HS1 F1 P1) in Hv. cbn [nth_error] in Hv. rewrite Hpv. congruence. }
  destruct (HAc O ltac:(cbn [length]; lia)) as (y & _ & (ps & HF2 & _)).
  assert (Hin : In t0 (positionTrees (mc_b (tr_model tr)) 0)).
  { unfold positionTrees. rewrite Eb; try rewrite Eh. cbn [map flat_map nth_error]. left. exact Ht0. }
  apply In_nth_error in Hin as [k Hk]. destruct (Forall2_nth1 _ _ _ HF2 _ _ Hk) as (v & _ & Hv). rewrite <- Ht0 in Hv.
  destruct (updated_predict _ _ _ _ _ _ _ HT _ _ _ HU Hv) as (d & Hd & ->).
  destruct (c120_nan_lemma E rnd D O0 tr HE HN (map g_tree (e :: cl)) (g_tree e) row (t_value d) bufs) as [H1 _].
  - rewrite Eb; try rewrite Eh. left. reflexivity.
  - left. reflexivity.
  - exact Hv.
  - apply Hnan. exact Hd.
  - exact (H1 _ _ HP).
Qed.

(** *** the lemmas of the section, in the form of the property *)
Lemma c145_zero_trees_lemma : forall K E rnd (D : DataBunch K) O0 tr a id, EnvOk E ->
  NewMultiClass E rnd D O0 = Ok tr -> (length (Data D) <= length (Labels D))%nat -> (forall v, In v (Labels D) -> v = a) ->
  o_xgb O0 = true -> (o_loss O0 = SQErrLoss id \/ o_loss O0 = MSELoss id) -> fltb (o_gamma O0) fzero = false -> fltb fzero (o_lambda O0) = true ->
  ffinite (o_lr O0) = true -> ffinite (o_base O0) = true ->
  (forall x, feqb x (o_base O0) = true -> ffinite (e_exp E x) = true /\ fltb fzero (e_exp E x) = true) ->
  forall ens t, In ens (mc_b (tr_model tr)) -> In t ens -> exists d, t = Node d Nil Nil /\ t_leaf d = true /\ feqb (t_value d) fzero = true.
Proof.
  intros K E rnd D O0 tr a id HE HN HL HA HX HLs HG HLam HLr HB HExp ens t H1 H2.
  destruct (model_zero E HE rnd D O0 tr a id HN HL HA HX HLs HG HLam HLr HB HExp ens t H1 H2) as (d & -> & Hl & [s Hs]). exists d. split; [reflexivity|]. split; [exact Hl|]. match type of Hs with ?x = _ => change (feqb x fzero = true) end. rewrite Hs. destruct s; reflexivity.
Qed.
Lemma c145_same_everywhere_lemma : forall K E rnd (D : DataBunch K) O0 tr a id, EnvOk E ->
  NewMultiClass E rnd D O0 = Ok tr -> (length (Data D) <= length (Labels D))%nat -> (forall v, In v (Labels D) -> v = a) ->
  o_xgb O0 = true -> (o_loss O0 = SQErrLoss id \/ o_loss O0 = MSELoss id) -> fltb (o_gamma O0) fzero = false -> fltb fzero (o_lambda O0) = true ->
  ffinite (o_lr O0) = true -> ffinite (o_base O0) = true ->
  (forall x, feqb x (o_base O0) = true -> ffinite (e_exp E x) = true /\ fltb fzero (e_exp E x) = true) ->
  feqb (o_base O0) fzero = false ->
  forall f row1 row2 b1 b2 p1 p2 b1' b2', let M := MkMC (mc_b (tr_model tr)) (mc_lr (tr_model tr)) (mc_labels (tr_model tr)) (Some f) (mc_base (tr_model tr)) (mc_xgb (tr_model tr)) in
  PredictMC M row1 b1 = Ok (p1, b1') -> PredictMC M row2 b2 = Ok (p2, b2') -> p1 = p2.
Proof.
  intros K E rnd D O0 tr a id HE HN HL HA HX HLs HG HLam HLr HB HExp Hz f row1 row2 b1 b2 p1 p2 b1' b2' M H1 H2.
  apply (activation E HE rnd D O0 tr a id HN HL HA HX HLs HG HLam HLr HB HExp) in H1 as (s1 & o1 & E1 & F1 & ->).
  apply (activation E HE rnd D O0 tr a id HN HL HA HX HLs HG HLam HLr HB HExp) in H2 as (s2 & o2 & E2 & F2 & ->).
  assert (Hs : forall s, feqb s (o_base O0) = true -> s = o_base O0).
  { intros s H. apply feqb_cases in H as [-> |(z & z' & _ & Eo)]; [reflexivity|]. rewrite Eo in Hz. destruct z'; discriminate Hz. }
  rewrite (Hs _ E1) in F1. rewrite (Hs _ E2) in F2. rewrite F1 in F2. apply Ok_inj' in F2. subst. reflexivity.
Qed.
