(** An environment with an accurate exponential, and concrete inputs for C121. *)
From Coq Require Import Reals Lra String.
From Flocq Require Import Core BinarySingleNaN.
From Verif Require Import Base F64 F64Lemmas Env EnvLemmas Utils Tree Spec Options Train SpecTrain SpecTot SpecLearn NumErr ErrProofs LearnNum Examples TrainEx TrainTotEx TreeShort TrainMore.
From Coq Require Import List.
Open Scope Z_scope.

(** ** The exponential, truncated to a multiple of 2^-1070 and rounded *)
Definition exp_round (x : f64) : f64 :=
  if fleb (fofZ (-610)) x && fleb x (fofZ 610) then flit (Zfloor (exp (B2R x) * bpow radix2 1070)%R) (-1070) else exp_go x.
Definition envR : Env := MkEnv isort sum_left exp_round (fun x => x).

Lemma exp_round_facts x : fleb (fofZ (-610)) x && fleb x (fofZ 610) = true -> ffinite (exp_round x) = true /\ (0 <= B2R (exp_round x))%R /\
  (Rabs (B2R (exp_round x) - exp (B2R x)) <= bpow radix2 (-40) * exp (B2R x))%R /\ fnanb x = false.
Proof.
  intros Hx. unfold exp_round. rewrite Hx. apply andb_prop in Hx as [H1 H2]. apply fleb_true in H1 as (N0 & Nx & H1). apply fleb_true in H2 as (_ & N1 & H2).
  destruct (fofZ_exact50 610 ltac:(lia)) as (F1 & E1). rewrite (ext_finite _ F1), E1 in H2.
  assert (E0 : ext (fofZ (-610)) = (-610)%R).
  { destruct (fofZ_ext (-610)) as [_ ->]. assert (Hr : rnd (IZR (-610)) = (-610)%R). { change (IZR (-610)) with (- IZR 610)%R. rewrite rnd_opp, <- E1, rnd_B2R. ring_simplify. reflexivity. }
    rewrite Hr. apply clamp_id. assert (1024 < Mx)%R by (unfold Mx; change 1024%R with (bpow radix2 10); apply bpow_lt; lia). split; lra. }
  rewrite E0 in H1.
  assert (Fx : ffinite x = true). { apply finite_ext; auto. assert (1024 < Mx)%R by (unfold Mx; change 1024%R with (bpow radix2 10); apply bpow_lt; lia). split; lra. }
  rewrite (ext_finite _ Fx) in H1, H2. set (e := exp (B2R x)).
  assert (He : (bpow radix2 (-976) <= e <= bpow radix2 976)%R) by (split; [apply exp_lower|apply exp_610]; lra).
  pose proof (bpow_gt_0 radix2 (-976)) as P976.
  set (m := Zfloor (e * bpow radix2 1070)). set (v := (IZR m * bpow radix2 (-1070))%R).
  assert (Hm : (IZR m <= e * bpow radix2 1070 < IZR m + 1)%R) by (split; [apply Zfloor_lb|apply Zfloor_ub]).
  assert (EE : (bpow radix2 1070 * bpow radix2 (-1070) = 1)%R) by (rewrite <- bpow_plus; reflexivity).
  pose proof (bpow_gt_0 radix2 (-1070)) as P1070.
  assert (Hv : (e - bpow radix2 (-1070) <= v <= e)%R).
  { unfold v. assert (EQ : e = (e * bpow radix2 1070 * bpow radix2 (-1070))%R) by (rewrite Rmult_assoc, EE; ring). split.
    - apply Rlt_le.
      assert (HmR : (e * bpow radix2 1070 * bpow radix2 (-1070) < (IZR m + 1) * bpow radix2 (-1070))%R) by (apply Rmult_lt_compat_r; [exact P1070|apply Hm]). lra.
    - apply Rle_trans with (e * bpow radix2 1070 * bpow radix2 (-1070))%R; [|lra]. apply Rmult_le_compat_r; [lra|apply Hm]. }
  assert (S1 : (bpow radix2 (-1070) <= bpow radix2 (-50) * bpow radix2 (-976))%R) by (rewrite <- bpow_plus; apply bpow_le; lia).
  assert (S50 : (bpow radix2 (-50) * bpow radix2 (-976) <= bpow radix2 (-50) * e)%R) by (apply Rmult_le_compat_l; [apply bpow_ge_0|apply He]).
  assert (N50 : (bpow radix2 (-50) < / 1024)%R) by (change (/ 1024)%R with (bpow radix2 (-10)); apply bpow_lt; lia).
  assert (P50 : (0 < bpow radix2 (-50))%R) by apply bpow_gt_0.
  assert (Hee : (ee <= bpow radix2 (-50) * e)%R). { apply Rle_trans with (bpow radix2 (-1070)); [apply bpow_le; lia|lra]. }
  assert (Huu : (uu <= bpow radix2 (-50))%R) by (apply bpow_le; lia).
  assert (Pe : (0 < e)%R) by apply exp_pos.
  assert (N50e : (bpow radix2 (-50) * e <= / 1024 * e)%R) by (apply Rmult_le_compat_r; lra).
  assert (Pv : (0 < v)%R) by lra.
  pose proof (rnd_abs_any v) as Hr. rewrite (Rabs_pos_eq v) in Hr by lra. apply Rabs_le' in Hr.
  assert (Huv : (uu * v <= bpow radix2 (-50) * e)%R) by (apply Rmult_le_compat; [unfold uu; apply bpow_ge_0|lra|exact Huu|lra]).
  pose proof (binary_normalize_correct 53 1024 Hprec Hemax mode_NE m (-1070) false) as HN. cbv zeta in HN. fold (flit m (-1070)) in HN.
  change (F2R {| Fnum := m; Fexp := -1070 |}) with v in HN. change (round radix2 (SpecFloat.fexp 53 1024) (round_mode mode_NE) v) with (rnd v) in HN.
  rewrite Rlt_bool_true in HN.
  2:{ rewrite Rabs_pos_eq by lra. apply Rle_lt_trans with (bpow radix2 977); [|apply bpow_lt; lia].
      replace (bpow radix2 977) with (2 * bpow radix2 976)%R by (change 977 with (1 + 976); rewrite bpow_plus; reflexivity). lra. }
  destruct HN as (HB & HF & _). change (ffinite (flit m (-1070)) = true) in HF. unfold B2R in *. rewrite HB. split; [exact HF|]. split; [lra|]. split; [|exact Nx].
  assert (E40 : (bpow radix2 (-40) = 1024 * bpow radix2 (-50))%R) by (change 1024%R with (bpow radix2 10); rewrite <- bpow_plus; reflexivity).
  rewrite E40. apply Rabs_le. lra.
Qed.
Lemma envR_ok : EnvOk envR.
Proof.
  destruct env0_ok as [A1 A2 A3 A4 A5]. constructor; try assumption; cbn [envR e_exp]; intros x;
    destruct (fleb (fofZ (-610)) x && fleb x (fofZ 610)) eqn:Hx.
  - destruct (exp_round_facts x Hx) as (F1 & _ & _ & N). rewrite N. apply finite_nnan. exact F1.
  - unfold exp_round. rewrite Hx. apply A4.
  - destruct (exp_round_facts x Hx) as (F1 & P & _). destruct (fltb (exp_round x) fzero) eqn:E; [|reflexivity]. exfalso.
    apply fltb_true in E as (_ & _ & E). rewrite (ext_finite _ F1) in E. change (ext fzero) with 0%R in E. lra.
  - unfold exp_round. rewrite Hx. apply A5.
Qed.
Lemma envR_accurate : expAccurate envR.
Proof.
  intros x Fx Hx. cbn [envR e_exp]. apply Rabs_le' in Hx. destruct (exp_round_facts x) as (F1 & _ & HB & _); [|auto].
  destruct (fofZ_exact50 610 ltac:(lia)) as (F6 & E6).
  assert (E0 : ext (fofZ (-610)) = (-610)%R /\ fnanb (fofZ (-610)) = false).
  { destruct (fofZ_ext (-610)) as [N ->]. split; [|exact N]. assert (Hr : rnd (IZR (-610)) = (-610)%R). { change (IZR (-610)) with (- IZR 610)%R. rewrite rnd_opp, <- E6, rnd_B2R. ring_simplify. reflexivity. }
    rewrite Hr. apply clamp_id. assert (1024 < Mx)%R by (unfold Mx; change 1024%R with (bpow radix2 10); apply bpow_lt; lia). split; lra. }
  apply andb_true_intro. split; apply fleb_true; rewrite (ext_finite _ Fx).
  - split; [apply E0|]. split; [apply finite_nnan, Fx|]. rewrite (proj1 E0). lra.
  - split; [apply finite_nnan, Fx|]. split; [apply finite_nnan, F6|]. rewrite (ext_finite _ F6), E6. lra.
Qed.

(** three rows with three labels; two rounds of squared-error boosting with step 1/2, and of logistic boosting with step 1/2 *)
Definition learnSq : Options := MkOpts false 2 3 0 fhalf fone fone fzero fone fone fhalf 0 "exact" false (SQErrLoss 0).
Definition learnMse : Options := MkOpts false 2 3 0 fhalf fone fone fzero fone fone fhalf 0 "exact" false (MSELoss 0).
Lemma half_real : ffinite fhalf = true /\ B2R fhalf = (/ 2)%R.
Proof.
  split; [vm_compute; reflexivity|]. unfold fhalf. cbn. unfold F2R. cbn. lra.
Qed.
Lemma ex_c121 : EnvOk envR /\ expAccurate envR /\ goodTable (Data exD) /\ length (Labels exD) = length (Data exD) /\ distinctRows (Data exD) /\
  distinctCount (Labels exD) = 3%nat /\ deepPlain learnSq (length (Data exD)) /\ stepsBounded learnSq 3 /\ deepPlain learnMse (length (Data exD)) /\ stepsBounded learnMse 3 /\
  fractionOk (o_ss learnSq) /\ fractionOk (o_css learnSq).
Proof.
  split; [exact envR_ok|]. split; [exact envR_accurate|]. split; [exact (proj1 (proj2 ex_c98))|]. split; [reflexivity|]. split.
  { intros i j r s Hi Hj Hn. exists 0%nat.
    destruct i as [|[|[|i]]]; cbn [Data exD nth_error mat map] in Hi; try (destruct i; discriminate Hi); injection Hi as <-;
    destruct j as [|[|[|j]]]; cbn [Data exD nth_error mat map] in Hj; try (destruct j; discriminate Hj); injection Hj as <-; try congruence;
    eexists; eexists; (split; [reflexivity|]; split; [reflexivity|]); vm_compute; reflexivity. }
  split; [reflexivity|]. destruct half_real as [Fh Eh].
  assert (HD : forall l, deepPlain (MkOpts false 2 3 0 fhalf fone fone fzero fone fone fhalf 0 "exact" false l) (length (Data exD))).
  { intros l. repeat (split; [vm_compute; try reflexivity; try discriminate|]). vm_compute. discriminate. }
  assert (HL : (bpow radix2 (-30) <= / 2 <= 1)%R).
  { split; [|lra]. change (/ 2)%R with (bpow radix2 (-1)). apply bpow_le. lia. }
  split; [apply HD|]. split.
  { split; [exact Fh|]. split; [exact Fh|]. cbn [learnSq o_lr o_base o_rounds o_loss]. rewrite Eh. split; [exact HL|]. left. split; [exists 0; reflexivity|]. rewrite Rabs_pos_eq; lra. }
  split; [apply HD|]. split.
  { split; [exact Fh|]. split; [exact Fh|]. cbn [learnMse o_lr o_base o_rounds o_loss]. rewrite Eh. split; [exact HL|]. right. split; [exists 0; reflexivity|].
    split; [rewrite Rabs_pos_eq; lra|]. cbn [INR]. lra. }
  split; intros _; vm_compute; reflexivity.
Qed.
(** with a BaseScore of 800 every exponential is infinite and nothing is learnt *)
Definition learnHigh : Options := MkOpts false 2 3 0 fhalf fone fone fzero fone fone (fofZ 800) 0 "exact" false (SQErrLoss 0).
Lemma ex_c121_high : exists tr a, NewMultiClass env0 draws0 exD learnHigh = Ok tr /\ Accuracy (tr_model tr) exD = Ok a /\ fltb a (fofZ 34) = true.
Proof.
  destruct (ok_ex (NewMultiClass env0 draws0 exD learnHigh) (fun tr => match Accuracy (tr_model tr) exD with Ok a => fltb a (fofZ 34) | _ => false end)) as (tr & Ht & HB); [vm_compute; reflexivity|].
  exists tr. destruct (Accuracy (tr_model tr) exD) as [a| |] eqn:Ea; try discriminate HB. exists a. auto.
Qed.
