(** Training from a base score that has no useful exponential (proof support for C167). *)
From Coq Require Import Reals Lra Sorted.
From Flocq Require Import IEEE754.BinarySingleNaN.
From Verif Require Import RowProofs Base F64 F64Lemmas Env EnvLemmas Utils Tree Spec Options Train SpecTrain UtilsProofs UtilsThms ActProofs TreeProofs TreeSplit TreeThms TrainProofs TrainThms TrainMore TrainSteps SatProofs InvMore ErrProofs UseProofs CVProofs OneProofs RealProofs SpecFar.
Open Scope Z_scope.

(** ** NaN through the formulas *)
Lemma fadd_nan_r a b : fnanb b = true -> fnanb (fadd a b) = true.
Proof. intros H; apply fadd_nan; auto. Qed.
Lemma fsub_nan a b : fnanb a = true \/ fnanb b = true -> fnanb (fsub a b) = true.
Proof. intros [H|H]; apply nan_is in H; subst; [destruct b|destruct a]; reflexivity. Qed.
Lemma fmul_nan_r a b : fnanb b = true -> fnanb (fmul a b) = true.
Proof. intros H; apply nan_is in H; subst; destruct a; reflexivity. Qed.
Lemma fdiv_nan_l a b : fnanb a = true -> fnanb (fdiv a b) = true.
Proof. intros H; apply nan_is in H; subst; destruct b; reflexivity. Qed.
Lemma fltb_nan_r a b : fnanb b = true -> fltb a b = false.
Proof. intros H; apply nan_is in H; subst; destruct a; reflexivity. Qed.
Lemma fltb_nan_l a b : fnanb a = true -> fltb a b = false.
Proof. intros H; apply nan_is in H; subst; destruct b; reflexivity. Qed.
Lemma fleb_nan_r a b : fnanb b = true -> fleb a b = false.
Proof. intros H; apply nan_is in H; subst; destruct a; reflexivity. Qed.
Lemma fleb_nan_l a b : fnanb a = true -> fleb a b = false.
Proof. intros H; apply nan_is in H; subst; destruct b; reflexivity. Qed.
Lemma fold_add_nan l : forall a, fnanb a = true \/ (exists x, In x l /\ fnanb x = true) -> fnanb (fold_left fadd l a) = true.
Proof.
  induction l as [|x l IH]; intros a [H|(y & Hy & Hn)]; cbn [fold_left]; [exact H|destruct Hy|apply IH; left; apply fadd_nan; auto|].
  destruct Hy as [-> |Hy]; [apply IH; left; apply fadd_nan; auto|apply IH; right; eauto].
Qed.

(** ** trees from gradients that are not numbers *)
Lemma F2_nan g ix gs : (forall i v, In i ix -> look g i v -> fnanb v = true) -> Forall2 (look g) ix gs -> forall x, In x gs -> fnanb x = true.
Proof. intros H HF x Hx. apply In_nth_error in Hx as [k Hk]. destruct (Forall2_nth2 _ _ _ HF _ _ Hk) as (i & Hi & Hl). apply (H i); [eapply nth_error_In; eauto|exact Hl]. Qed.
Lemma sum_nan_all E gs (ix : list Z) g : EnvOk E -> Forall2 (look g) ix gs -> ix <> [] -> (forall x, In x gs -> fnanb x = true) -> fnanb (e_sum E gs) = true.
Proof.
  intros HE HF Hne H. apply (is_sum_nan gs); [apply (ok_sum E HE)|]. destruct HF as [|i x ix gs Hl HF]; [congruence|]. exists x. split; [left; auto|apply H; left; auto].
Qed.
Lemma nan_gradients E X o t : EnvOk E -> NewTree E X o = Ok t ->
  (forall i v, In i (initialSamples X o) -> look (if to_xgb o then orNil (to_grads o) else to_y o) i v -> fnanb v = true) ->
  exists d, t = Node d Nil Nil /\ t_leaf d = true /\ samplesOf d = initialSamples X o.
Proof.
  intros HE HT HZ. pose proof (NewTree_grown _ _ _ _ HT) as HG. destruct (grown_node _ _ _ _ _ HG) as (d & l & r & ->). exists d.
  assert (Hd : samplesOf d = initialSamples X o) by (inversion HG; reflexivity).
  assert (HL : t_leaf d = true).
  { destruct (t_leaf d) eqn:HL; [reflexivity|exfalso]. destruct (c07_lemma E X o _ d l r 0 HE HT (subAt_0 _)) as (row0 & _ & H & _).
    destruct (H HL) as (i & _ & Hc & Hb & _). rewrite Hd in Hc. unfold betterScore, startScore in Hb.
    destruct Hc as (col & a & b & Hcell & Hi & _ & _ & _ & _ & _ & _ & Hc). cbv zeta in Hi.
    assert (Hne : initialSamples X o <> []) by (intros Hn; rewrite Hn in Hi; cbn [length] in Hi; lia).
    destruct (to_xgb o).
    - destruct Hc as (g1 & h & sg & sh & Fg & Fh & Fsg & Fsh & Hc). cbv zeta in Hc.
      assert (Ns : fnanb (e_sum E g1) = true) by (eapply sum_nan_all; eauto; apply (F2_nan _ _ _ HZ Fg)).
      rewrite fltb_nan_r in Hb; [discriminate Hb|]. rewrite Hc. apply fsub_nan. left. apply fmul_nan_r. apply fsub_nan. right. apply fdiv_nan_l. apply fmul_nan_r. exact Ns.
    - destruct Hc as (y & sy & Fy & Fsy & Hc). cbv zeta in Hc.
      assert (Ny : forall x, In x sy -> fnanb x = true).
      { intros x Hx. apply In_nth_error in Hx as [k Hk]. destruct (Forall2_nth2 _ _ _ Fsy _ _ Hk) as (j & _ & [_ Hl]). apply (F2_nan _ _ _ HZ Fy). eapply nth_error_In; eauto. }
      assert (Ns : fnanb (fold_left fadd (firstn i sy) fzero) = true \/ firstn i sy = []).
      { destruct (firstn i sy) as [|x q] eqn:Eq; [right; reflexivity|left]. apply fold_add_nan. right. exists x. split; [left; auto|]. apply Ny. rewrite <- (firstn_skipn i sy), Eq. left; auto. }
      assert (Hsy : sy <> []).
      { intros ->. apply F2_length in Fsy. cbn [length] in Fsy. rewrite (proj1 (ArgSort_len E HE col)) in Fsy. apply F2_length in Hcell. lia. }
      destruct Ns as [Ns|Ns].
      + rewrite fltb_nan_l in Hb; [discriminate Hb|]. rewrite Hc. apply fadd_nan. left. apply fsub_nan. left. apply fdiv_nan_l. 
        apply nan_is in Ns. rewrite Ns. reflexivity.
      + destruct sy as [|x sy]; [congruence|]. destruct i; [lia|discriminate Ns]. }
  destruct (grown_leaf_iff _ _ _ _ _ _ _ HG) as [H1 _]. destruct (H1 HL) as [-> ->]. auto.
Qed.

Lemma sum_nil_isZ E : EnvOk E -> isZ (e_sum E []).
Proof. intros HE. apply (isZ_sum []); [apply (ok_sum E HE)|intros x []]. Qed.
Lemma isZ_feqb x : isZ x -> feqb x fzero = true.
Proof. intros [s ->]; destruct s; reflexivity. Qed.
Lemma feqb_isZ x : feqb x fzero = true -> isZ x.
Proof. destruct x as [s|s| |s m e He]; intros H; [eexists; reflexivity|destruct s; discriminate H|discriminate H|destruct s; discriminate H]. Qed.
Lemma blank_xgb E X o t g : EnvOk E -> NewTree E X o = Ok t -> to_xgb o = true -> to_grads o = Some g ->
  (forall i v, In i (initialSamples X o) -> look g i v -> fnanb v = true) -> blankLeaf t.
Proof.
  intros HE HT Hx Hg HZ. destruct (nan_gradients E X o t HE HT) as (d & -> & HL & Hd); [rewrite Hx, Hg; exact HZ|].
  exists d. split; [reflexivity|]. split; [exact HL|].
  destruct (node_value E X o _ d Nil Nil HT (sub_refl _)) as (ix & Hi & _ & _ & H). rewrite Hx, Hg in H. cbn [orNil] in H.
  assert (Hs : samplesOf d = ix) by (unfold samplesOf; rewrite Hi; reflexivity). destruct H as (gs & hs & Fg & Fh & ->). rewrite <- Hd, Hs in HZ. rewrite Hs.
  destruct ix as [|i ix].
  - inversion Fg; subst gs. destruct (isZ_div (fmul (fofZ (-1)) (e_sum E [])) (fadd (e_sum E hs) (to_lambda o))) as [Z|Z].
    + apply isZ_mul_l; [apply sum_nil_isZ; exact HE|reflexivity].
    + right. split; [reflexivity|apply isZ_feqb; exact Z].
    + left. exact Z.
  - left. apply fdiv_nan_l, fmul_nan_r. eapply sum_nan_all; eauto; [discriminate|apply (F2_nan _ _ _ HZ Fg)].
Qed.
Lemma blank_regular E X o t0 t h : EnvOk E -> NewTree E X o = Ok t0 -> to_xgb o = false ->
  (forall i v, In i (initialSamples X o) -> look (to_y o) i v -> fnanb v = true) -> leavesUpdated (to_y o) h t0 t -> blankLeaf t.
Proof.
  intros HE HT Hx HZ HU. destruct (nan_gradients E X o t0 HE HT) as (d & -> & HL & Hd); [rewrite Hx; exact HZ|].
  inversion HU as [|d0 l r l' r' HL1 HUl HUr|d0 d' l r l' r' ix gs hs HL1 HS Fg Fh HV1 HEq HUl HUr]; subst; [congruence|].
  inversion HUl; subst. inversion HUr; subst. exists d'. split; [reflexivity|].
  assert (HLd : t_leaf d' = true) by (unfold t_leaf in *; injection HEq; intros _ E2 _ _ _ E3 _; rewrite E2, E3; exact HL1). split; [exact HLd|].
  assert (HSd : samplesOf d = ix) by (unfold samplesOf; rewrite HS; reflexivity). rewrite <- Hd, HSd in HZ. rewrite HV1.
  destruct Fg as [|i x ix gs Hl Fg].
  - inversion Fh; subst hs. left. reflexivity.
  - left. apply fdiv_nan_l. apply fold_add_nan. right. exists x. split; [left; auto|]. apply (HZ i); [left; auto|exact Hl].
Qed.

(** ** scores and probabilities *)
Lemma keep_far lr row b ts v : feqb b fzero = false -> (forall t, In t ts -> blankLeaf t) -> accumulated lr row b ts v -> v = b \/ fnanb v = true.
Proof.
  intros Hb HT (ps & HF & ->).
  assert (HP : forall p, In p ps -> ZN p).
  { intros p Hp. apply In_nth_error in Hp as [k Hk]. destruct (Forall2_nth2 _ _ _ HF _ _ Hk) as (t & Ht & Hl). destruct (HT t (nth_error_In _ _ Ht)) as (d & -> & HL & HV).
    cbn [PredictSingle] in Hl. rewrite HL in Hl. apply Ok_inj' in Hl. subst p. destruct HV as [HV|[_ HV]]; [right; exact HV|left; apply feqb_isZ; exact HV]. }
  clear HF HT.
  assert (HG : forall acc, acc = b \/ fnanb acc = true -> let w := fold_left (fun a p => fadd a (fmul p lr)) ps acc in w = b \/ fnanb w = true).
  { induction ps as [|p ps IH]; intros acc Ha; cbn [fold_left]; [exact Ha|]. apply IH; [intros; apply HP; right; auto|].
    destruct Ha as [-> |Ha]; [|right; apply fadd_nan; auto].
    assert (Hm : ZN (fmul p lr)).
    { destruct (HP p (or_introl eq_refl)) as [[s ->]|Hp]; [|right; apply fmul_nan_l; exact Hp]. destruct lr as [u|u| |u m e He]; [left; eexists; reflexivity|right; reflexivity|right; reflexivity|left; eexists; reflexivity]. }
    destruct Hm as [[s ->]|Hm]; [|right; apply fadd_nan; auto].
    destruct b as [u|u| |u m e He]; [destruct u; discriminate Hb|left; reflexivity|right; reflexivity|left; reflexivity]. }
  apply HG. left; reflexivity.
Qed.
Lemma sum_inf l s : is_sum l s -> (forall x, In x l -> x = finf) -> (l = [] -> s = fzero) /\ (l <> [] -> s = finf).
Proof.
  intros H; induction H as [|x|l1 l2 a b H1 IH1 H2 IH2|l1 l2 a P H IH]; intros HF.
  - split; [auto|congruence].
  - split; [discriminate|]. intros _. apply HF. left; auto.
  - destruct IH1 as [A1 A2]; [intros; apply HF, in_or_app; auto|]. destruct IH2 as [B1 B2]; [intros; apply HF, in_or_app; auto|].
    destruct l1 as [|x l1], l2 as [|y l2]; (split; [intros Hn|intros Hn]); try discriminate Hn; try (exfalso; apply Hn; reflexivity).
    + rewrite A1, B1 by reflexivity. reflexivity.
    + rewrite A1, B2 by (reflexivity || discriminate). reflexivity.
    + rewrite A2, B1 by (reflexivity || discriminate). reflexivity.
    + rewrite A2, B2 by discriminate. reflexivity.
  - destruct IH as [A B]; [intros x Hx; apply HF; eapply Permutation_in; eauto|]. split.
    + intros ->. apply A. apply Permutation_nil. apply Permutation_sym; exact P.
    + intros Hn. apply B. intros ->. apply Permutation_nil in P. congruence.
Qed.
Lemma far_share E b p q out : EnvOk E -> farScore E b -> length q = length p -> SoftMax E p q = Ok out -> (forall x, In x p -> x = b \/ fnanb x = true) ->
  forall y, In y out -> fnanb y = true.
Proof.
  intros HE [_ Hb] HL H HP. destruct (existsb fnanb p) eqn:Hex.
  - apply existsb_exists in Hex as (x & Hx & Hn). eapply SoftMax_nan; eauto.
  - assert (HA : forall x, In x p -> x = b).
    { intros x Hx. destruct (HP x Hx) as [-> |Hn]; [reflexivity|]. exfalso. assert (existsb fnanb p = true) by (apply existsb_exists; eauto). congruence. }
    intros y Hy. destruct Hb as [Hn|Hb].
    { eapply SoftMax_nan; eauto. destruct p as [|x p]; [|exists x; split; [left; auto|rewrite (HA x); [exact Hn|left; auto]]].
      rewrite SoftMax_same in H by auto. apply Ok_inj' in H. subst out. destruct Hy. }
    rewrite SoftMax_same in H by auto. apply Ok_inj' in H. subst out. unfold softmax in Hy. cbn [carrier F ndiv] in Hy. apply in_map_iff in Hy as (e & <- & He).
    assert (HEx : forall z, In z (map (e_exp E) p) -> z = e_exp E b) by (intros z Hz; apply in_map_iff in Hz as (x & <- & Hx); rewrite (HA x Hx); reflexivity).
    rewrite (HEx _ He). destruct Hb as [Hb|Hb].
    + rewrite Hb. rewrite (proj2 (sum_inf _ _ (ok_sum E HE (map (e_exp E) p)) (fun z Hz => eq_trans (HEx z Hz) Hb))); [reflexivity|intros Hn; rewrite Hn in He; destruct He].
    + apply feqb_isZ in Hb. assert (Hs : isZ (e_sum E (map (e_exp E) p))) by (apply (isZ_sum _ _ (ok_sum E HE _)); intros z Hz; rewrite (HEx z Hz); exact Hb).
      destruct Hb as [s ->]. destruct Hs as [u ->]. reflexivity.
Qed.

(** ** training *)
Lemma combine_nth {A B} (l : list A) (l' : list B) k a b : nth_error (combine l l') k = Some (a, b) -> nth_error l k = Some a /\ nth_error l' k = Some b.
Proof. revert l l'; induction k as [|k IH]; intros [|x l] [|y l'] H; try discriminate H; cbn [combine nth_error] in *; [injection H as -> ->; auto|apply IH; exact H]. Qed.
Lemma neg_nan lab pr n : (forall i, 0 <= i < n -> exists v, look pr i v /\ fnanb v = true) -> forall i v, 0 <= i < n -> look (negGradients F lab pr) i v -> fnanb v = true.
Proof.
  intros HP i v Hi [_ Hv]. change (nth_error (map (fun p : f64 * f64 => fsub (fst p) (snd p)) (combine lab pr)) (Z.to_nat i) = Some v) in Hv. rewrite nth_error_map in Hv.
  cbn [carrier F] in *. destruct (nth_error (combine lab pr) (Z.to_nat i)) as [[a b]|] eqn:Ec; cbn [option_map] in Hv; [|discriminate Hv]. cbn [option_map fst snd] in Hv. assert (v = fsub a b) by congruence. subst v.
  apply combine_nth in Ec as [_ Eb]. destruct (HP i Hi) as (w & [_ Hw] & Hn). apply fsub_nan. right. congruence.
Qed.
Lemma grad_nan lab pr n : (forall i, 0 <= i < n -> exists v, look pr i v /\ fnanb v = true) -> forall i v, 0 <= i < n -> look (gradients F lab pr) i v -> fnanb v = true.
Proof.
  intros HP i v Hi [_ Hv]. pose proof (fun w => neg_nan lab pr n HP i w Hi) as Hneg. change (gradients F lab pr) with (map (fun x : f64 => fmul (fofZ (-1)) x) (negGradients F lab pr : list f64)) in Hv.
  assert (Hg : forall ng : list f64, (forall w, look ng i w -> fnanb w = true) -> nth_error (map (fun x : f64 => fmul (fofZ (-1)) x) ng) (Z.to_nat i) = Some v -> fnanb v = true).
  { clear -Hi. intros ng Hneg Hv. rewrite nth_error_map in Hv. destruct (nth_error ng (Z.to_nat i)) as [w|] eqn:Ew; [|discriminate Hv]. cbn [option_map] in Hv. assert (v = fmul (fofZ (-1)) w) by congruence. subst v.
    apply fmul_nan_r. apply Hneg. split; [lia|exact Ew]. }
  exact (Hg _ Hneg Hv).
Qed.

Section Far.
Context {K : Type} (E : Env) (HE : EnvOk E) (rnd : draws) (D : DataBunch K) (O0 : Options) (tr : trained) (id : Z).
Context (HN : NewMultiClass E rnd D O0 = Ok tr) (HL : (length (Data D) <= length (Labels D))%nat).
Context (HLoss : o_loss O0 = SQErrLoss id \/ o_loss O0 = MSELoss id) (HB : farScore E (o_base O0)).

Lemma far_probs es k pr : probsAt E (tr_opts tr) (Data D) (length (ClassLabels (tr_model tr))) es k pr ->
  (forall e, In e es -> blankLeaf (g_tree e)) -> forall i, 0 <= i < Z.of_nat (length (Data D)) -> exists v, look pr i v /\ fnanb v = true.
Proof.
  intros HP Hprev i Hi. destruct (NewMultiClass_inv E rnd D O0 tr HN) as (EO & _). assert (EB : o_base (tr_opts tr) = o_base O0) by (rewrite EO; reflexivity).
  destruct (nth_error (Data D) (Z.to_nat i)) as [row|] eqn:Er; [|apply nth_error_None in Er; lia].
  destruct (HP _ _ Er) as (scores & ps & v & Hsl & Hs & HS & Hv & Hpv). exists v. split; [split; [lia|exact Hpv]|].
  apply (far_share E (o_base O0) scores _ ps HE HB) with (2 := HS); [rewrite repeat_length; auto| |eapply nth_error_In; eauto].
  intros x Hx. apply In_nth_error in Hx as [j Hj]. assert (Hjl : (j < length (ClassLabels (tr_model tr)))%nat) by (rewrite <- Hsl; apply nth_error_Some; congruence).
  destruct (Hs j Hjl) as (s & Hs1 & Hacc). assert (s = x) by congruence. subst s. rewrite EB in Hacc. eapply keep_far; [apply HB| |exact Hacc].
  intros t Ht. unfold classTrees in Ht. apply in_map_iff in Ht as (e' & <- & He'). apply filter_In in He' as [He' _]. auto.
Qed.
Lemma far_history n : forall es1 e es2, length es1 = n -> concat (tr_hist tr) = es1 ++ e :: es2 -> blankLeaf (g_tree e).
Proof.
  induction n as [n IH] using lt_wf_ind. intros es1 e es2 Hlen Hes.
  destruct (NewMultiClass_inv E rnd D O0 tr HN) as (EO & _). assert (EL : o_loss (tr_opts tr) = o_loss O0) by (rewrite EO; reflexivity).
  assert (Hprev : forall e', In e' es1 -> blankLeaf (g_tree e')).
  { intros e' He'. apply in_split in He' as (p & q & Hpq). apply (IH (length p)) with (es1 := p) (es2 := q ++ e :: es2); [|reflexivity|].
    - rewrite <- Hlen, Hpq, app_length. cbn [length]. lia.
    - rewrite Hes, Hpq, <- app_assoc. reflexivity. }
  destruct (c81_lemma E rnd D O0 tr HN HL es1 e es2 Hes) as (lab & pr & _ & _ & HP & HF & _).
  pose proof (far_probs es1 (g_class e) pr HP Hprev) as Hpr.
  assert (Hg' : l_grad (o_loss O0) lab pr = gradients F lab pr) by (destruct HLoss as [-> | ->]; reflexivity).
  assert (Hn' : l_neg (o_loss O0) lab pr = negGradients F lab pr) by (destruct HLoss as [-> | ->]; reflexivity).
  unfold fitted in HF. rewrite EL, Hg', Hn' in HF. destruct (o_xgb (tr_opts tr)) eqn:EX.
  - destruct HF as (rows & cols & topts & Hrows & _ & Ho & Hg & Hh & HT). assert (Ox : to_xgb topts = true) by congruence. assert (Oi : to_indexes topts = rows) by congruence. clear Ho.
    apply (blank_xgb E (Data D) topts _ _ HE HT Ox Hg). intros i v Hi Hv. apply (grad_nan lab pr _ Hpr i v); [|exact Hv].
    exact (sampled_in D tr HL topts rows _ Oi Hrows i Hi).
  - destruct HF as (topts & t0 & Ho & Hy & HT & HU). assert (Ox : to_xgb topts = false) by congruence. assert (Oi : to_indexes topts = None) by congruence. clear Ho.
    rewrite <- Hy in HU. apply (blank_regular E (Data D) topts t0 _ _ HE HT Ox) with (2 := HU). rewrite Hy. intros i v Hi Hv. apply (neg_nan lab pr _ Hpr i v); [|exact Hv].
    unfold initialSamples in Hi. rewrite Oi in Hi. apply iota_In. exact Hi.
Qed.
Lemma far_all e : In e (concat (tr_hist tr)) -> blankLeaf (g_tree e).
Proof. intros He. apply in_split in He as (p & q & Hpq). eapply far_history; eauto. Qed.
Lemma far_trees ens t : In ens (mc_b (tr_model tr)) -> In t ens -> blankLeaf t.
Proof.
  intros He Ht. destruct (NewMultiClass_inv E rnd D O0 tr HN) as (_ & Eb & _). rewrite Eb in He. apply in_map_iff in He as (cl & <- & Hcl). apply in_map_iff in Ht as (e & <- & He).
  apply far_all. apply in_concat. eauto.
Qed.
Lemma far_predict row bufs preds bufs' : PredictMC (tr_model tr) row bufs = Ok (preds, bufs') -> forall p, In p preds -> fnanb p = true.
Proof.
  intros HP. destruct (PredictMC_inv E rnd D O0 tr HN row bufs preds bufs' HP) as (_ & HLp & scores & HR & HLs & HS).
  destruct (rawScores_spec _ _ _ HR) as (b0 & rest & HBb & HLb & HLe & HA).
  destruct (NewMultiClass_inv E rnd D O0 tr HN) as (EO & Eb & Elr & Ebase & _).
  apply (far_share E (o_base O0) scores _ preds HE HB) with (2 := HS); [rewrite repeat_length; auto|].
  intros x Hx. apply In_nth_error in Hx as [j Hj]. assert (Hjl : (j < length scores)%nat) by (apply nth_error_Some; congruence).
  destruct (HA j ltac:(lia)) as (y & Hy & Hacc). assert (y = x) by congruence. subst y.
  assert (Hbase : mc_base (tr_model tr) = o_base O0) by (rewrite Ebase, EO; reflexivity). rewrite Hbase in Hacc.
  eapply keep_far; [apply HB| |exact Hacc]. intros t Ht. unfold positionTrees in Ht. apply in_flat_map in Ht as (ens & Hens & Ht). 
  destruct (nth_error ens j) as [t'|] eqn:Et; [|destruct Ht]. destruct Ht as [<-|[]]. eapply far_trees; eauto. eapply nth_error_In; eauto.
Qed.
Lemma far_class row bufs k bufs' : PredictSingleClass (tr_model tr) row bufs = Ok (k, bufs') -> k = 0.
Proof.
  intros HP. destruct (c36_lemma _ _ _ _ _ HP) as (preds & HPM & Hr & _ & H0).
  destruct preds as [|x preds]; [cbn [length] in Hr; lia|]. apply (H0 x eq_refl). apply (far_predict _ _ _ _ HPM). left; auto.
Qed.
Lemma far_accuracy : exists l0, look (ClassLabels (tr_model tr)) 0 l0 /\ forall K' (D' : DataBunch K') a, Accuracy (tr_model tr) D' = Ok a ->
    a = fmul (fofZ 100) (fdiv (fofZ (Z.of_nat (count_occ Z.eq_dec (firstn (length (Data D')) (Labels D')) l0))) (fofZ (Z.of_nat (length (Data D'))))).
Proof.
  destruct (NewMultiClass_inv E rnd D O0 tr HN) as (_ & _ & _ & _ & _ & _ & _ & Hne & _). unfold ClassLabels.
  destruct (mc_labels (tr_model tr)) as [|l0 ls] eqn:EL; [congruence|]. exists l0. split; [split; [lia|reflexivity]|].
  intros K' D' a HA. destruct (c37_lemma _ _ _ HA) as (ps & HP & HLn & -> & _). cbv zeta. pose proof (F2_length _ _ _ HP) as HLp.
  rewrite HLp. rewrite (count_combine l0); [reflexivity| |lia].
  intros p Hp. apply In_nth_error in Hp as [i Hi]. destruct (Forall2_nth2 _ _ _ HP i p Hi) as (row & Hr & (k & b & b' & HQ & Hlk)).
  rewrite (far_class _ _ _ _ HQ) in Hlk. unfold ClassLabels in Hlk. rewrite EL in Hlk. destruct Hlk as [_ Hlk]. cbn in Hlk. congruence.
Qed.
(** the loss is NaN, so that no class is ever stopped *)
Lemma far_loss e : Data D <> [] -> In e (concat (tr_hist tr)) -> fnanb (g_loss e) = true.
Proof.
  intros Hd He. apply in_split in He as (es1 & es2 & Hes). destruct (c81_lemma E rnd D O0 tr HN HL es1 e es2 Hes) as (lab & pr & pr' & HI & _ & _ & HP' & ->).
  destruct (NewMultiClass_inv E rnd D O0 tr HN) as (EO & _). assert (EL : o_loss (tr_opts tr) = o_loss O0) by (rewrite EO; reflexivity).
  assert (Hbl : forall e', In e' (es1 ++ [e]) -> blankLeaf (g_tree e')).
  { intros e' He'. apply far_all. rewrite Hes. apply in_or_app. apply in_app_or in He' as [He'|[<-|[]]]; [left; exact He'|right; left; reflexivity]. }
  pose proof (far_probs (es1 ++ [e]) (g_class e) pr' HP' Hbl) as Hpr. 
  assert (H0 : 0 <= 0 < Z.of_nat (length (Data D))) by (destruct (Data D); [congruence|cbn [length]; lia]).
  destruct (Hpr 0 H0) as (v & [_ Hv] & Hn). cbn in Hv. destruct pr' as [|v' pr']; [discriminate Hv|]. assert (v' = v) by congruence. subst v'.
  destruct HI as [HIl _]. destruct lab as [|y lab]; [cbn [length] in HIl; lia|].
  rewrite EL. assert (Hl : l_loss (o_loss O0) (y :: lab) (v :: pr') = sqLoss F (y :: lab) (v :: pr')) by (destruct HLoss as [-> | ->]; reflexivity). rewrite Hl.
  unfold sqLoss. cbn [carrier F ndiv nadd nmul nsub nofZ]. apply fdiv_nan_l. apply fold_add_nan. right. eexists. split; [left; reflexivity|].
  cbn [fst snd]. apply fmul_nan_r. apply fsub_nan. right. exact Hn.
Qed.
Lemma far_never_stops : Data D <> [] -> forall k es, (forall e, In e es -> In e (concat (tr_hist tr))) -> ~ hasStopped (tr_opts tr) es k.
Proof.
  intros Hd k es Hsub (Hpos & n & Hn & Hm).
  assert (HLs : forall j r l, nth_error (lossesOf es k) j = Some (r, l) -> fnanb l = true).
  { intros j r l Hj. apply nth_error_In in Hj. unfold lossesOf in Hj. apply in_map_iff in Hj as (e & He & Hin). apply filter_In in Hin as [Hin _]. assert (l = g_loss e) by congruence. subst l. apply far_loss; auto. }
  destruct Hm as [(r & l & _ & Hl & Hle)|[Hes Hst]].
  - rewrite fleb_nan_l in Hle; [discriminate|eapply HLs; eauto].
  - destruct (Hst (n - 1)%nat ltac:(lia)) as (r & l & Hl & _ & Hle). rewrite fleb_nan_r in Hle; [discriminate|eapply HLs; eauto].
Qed.
Lemma far_full : Data D <> [] -> forall cl, In cl (tr_hist tr) -> forall k, (k < length (ClassLabels (tr_model tr)))%nat -> exists e, In e cl /\ g_class e = k.
Proof.
  intros Hd cl Hcl k Hk. apply In_nth_error in Hcl as [m Hm]. destruct (c32_lemma E rnd D O0 tr HN k Hk) as (_ & _ & H). apply (H m cl Hm). apply far_never_stops; [exact Hd|].
  intros e He. apply in_concat in He as (c & Hc & He). apply in_concat. exists c. split; [|exact He]. rewrite <- (firstn_skipn m (tr_hist tr)). apply in_or_app. left; exact Hc.
Qed.
End Far.

Lemma sorted_below l : StronglySorted lt l -> forall n, (forall k, In k l <-> (k < n)%nat) -> length l = n.
Proof.
  intros HS n HI. assert (ND : NoDup l).
  { clear HI. induction HS as [|a l HS IH HF]; constructor; auto. intros Hin. rewrite Forall_forall in HF. apply HF in Hin. lia. }
  assert (P : Permutation l (seq 0 n)). { apply NoDup_Permutation; [exact ND|apply seq_NoDup|]. intros k. rewrite HI, in_seq. lia. }
  apply Permutation_length in P. rewrite seq_length in P. exact P.
Qed.
Lemma far_trees_lemma : forall K E rnd (D : DataBunch K) O tr id, EnvOk E -> NewMultiClass E rnd D O = Ok tr -> (length (Data D) <= length (Labels D))%nat ->
  o_loss O = SQErrLoss id \/ o_loss O = MSELoss id -> farScore E (o_base O) ->
  (forall ens t, In ens (mc_b (tr_model tr)) -> In t ens -> blankLeaf t) /\
  (Data D <> [] -> (forall ens, In ens (mc_b (tr_model tr)) -> length ens = length (ClassLabels (tr_model tr))) /\
                   forall e, In e (concat (tr_hist tr)) -> fnanb (g_loss e) = true).
Proof.
  intros K E rnd D O tr id HE HN HL HLo HB. split; [exact (far_trees E HE rnd D O tr id HN HL HLo HB)|]. intros Hd. split; [|intros e He; exact (far_loss E HE rnd D O tr id HN HL HLo HB e Hd He)].
  intros ens Hens. destruct (c29_lemma E rnd D O tr HN) as (Eb & HR & _). rewrite Eb in Hens. apply in_map_iff in Hens as (cl & <- & Hcl). rewrite map_length, <- (map_length g_class).
  assert (Hcl' := Hcl). apply In_nth_error in Hcl as [m Hm]. destruct (HR m cl Hm) as [HS HI]. apply sorted_below; [exact HS|]. intros k. split; intros Hk.
  - apply HI in Hk as [Hk _]. exact Hk.
  - destruct (far_full E HE rnd D O tr id HN HL HLo HB Hd cl Hcl' k Hk) as (e & He & <-). apply in_map. exact He.
Qed.
Lemma far_predictions_lemma : forall K E rnd (D : DataBunch K) O tr id, EnvOk E -> NewMultiClass E rnd D O = Ok tr -> (length (Data D) <= length (Labels D))%nat ->
  o_loss O = SQErrLoss id \/ o_loss O = MSELoss id -> farScore E (o_base O) ->
  (forall row bufs preds bufs', PredictMC (tr_model tr) row bufs = Ok (preds, bufs') -> forall p, In p preds -> fnanb p = true) /\
  (forall row bufs k bufs', PredictSingleClass (tr_model tr) row bufs = Ok (k, bufs') -> k = 0) /\
  exists l0, look (ClassLabels (tr_model tr)) 0 l0 /\ forall K' (D' : DataBunch K') a, Accuracy (tr_model tr) D' = Ok a ->
    a = fmul (fofZ 100) (fdiv (fofZ (Z.of_nat (count_occ Z.eq_dec (firstn (length (Data D')) (Labels D')) l0))) (fofZ (Z.of_nat (length (Data D'))))).
Proof.
  intros K E rnd D O tr id HE HN HL HLo HB. split; [exact (far_predict E HE rnd D O tr id HN HL HLo HB)|]. split; [exact (far_class E HE rnd D O tr id HN HL HLo HB)|].
  exact (far_accuracy E HE rnd D O tr id HN HL HLo HB).
Qed.
Lemma far_check O b : Check (withBase O b) = Check O.
Proof. reflexivity. Qed.
Lemma rsum_scale c l : rsum (map (fun x => (c * x)%R) l) = (c * rsum l)%R.
Proof. induction l as [|x l IH]; cbn; [lra|]. unfold rsum in *. cbn [fold_right map] in *. lra. Qed.
Lemma softmax_shift (b : R) (p : list R) : softmax RN exp rsum (map (fun s => (b + s)%R) p) = softmax RN exp rsum p.
Proof.
  unfold softmax. cbn [carrier RN ndiv].
  assert (HM : map exp (map (fun s => (b + s)%R) p) = map (fun x => (exp b * x)%R) (map exp p)).
  { rewrite !map_map. apply map_ext. intros s. apply exp_plus. }
  rewrite HM, rsum_scale, !map_map. apply map_ext. intros s. pose proof (exp_pos b). 
  destruct (Req_dec (rsum (map exp p)) 0) as [Hz|Hz].
  - rewrite Hz. rewrite Rmult_0_r. unfold Rdiv. rewrite Rinv_0. lra.
  - field. split; lra.
Qed.
