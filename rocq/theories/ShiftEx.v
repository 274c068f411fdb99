(** Concrete cases of C166. *)
From Coq Require Import Reals Lra String.
From Flocq Require Import Core BinarySingleNaN.
From Coq Require Import List.
From Verif Require Import Base F64 F64Lemmas Env EnvLemmas Utils Tree Spec SpecErr Options Train SpecTrain SpecTot Examples NumErr TrainEx TrainTotEx LearnEx BoundEx SpecShift ShiftProofs.
Open Scope Z_scope.

(** 5/4, next to the value 1 of the second row of [exD] *)
Definition quarter5 : f64 := fdiv (fofZ 5) (fofZ 4).
Lemma exD_cells i f v : cell (Data exD) i f v -> f = 0 /\ (v = fofZ 0 \/ v = fofZ 1 \/ v = fofZ 2).
Proof.
  intros (row & [Hi0 Hi] & [Hf0 Hf]). cbn [Data exD mat map] in Hi.
  destruct (Z.to_nat i) as [|[|[|k]]]; cbn [nth_error] in Hi; try (destruct k; discriminate Hi); injection Hi as <-;
  (destruct (Z.to_nat f) as [|k] eqn:Ef; [|destruct k; discriminate Hf]; cbn [nth_error] in Hf; split; [lia|]; injection Hf as <-; auto).
Qed.
Lemma ex_finite : finiteTable (Data exD).
Proof. intros i f v H. destruct (exD_cells i f v H) as (_ & [-> | [-> | ->]]); reflexivity. Qed.
Lemma ex_moved : movedLittle (Data exD) [fofZ 1] [quarter5].
Proof.
  split; [reflexivity|]. intros f v v' [Hf Hv] [_ Hv'].
  destruct (Z.to_nat f) as [|k] eqn:Ef; [|destruct k; discriminate Hv]. cbn [nth_error] in Hv, Hv'. injection Hv as <-. injection Hv' as <-.
  intros j w Hw. destruct (exD_cells _ _ _ Hw) as (_ & [-> | [-> | ->]]); split; intros H; vm_compute in H |- *; try reflexivity; discriminate H.
Qed.
(** sub-sampling leaves the second row out in both rounds *)
Definition shiftO : Options := MkOpts true 2 3 0 fhalf fone fone fzero fhalf fone fhalf 0 "exact" false (SQErrLoss 0).
Definition shiftDraws : draws := fun _ => ((fun i => if Nat.eqb i 1 then fone else fzero), fun _ => fzero).
Lemma ex_left_out : exists tr, NewMultiClass env0 shiftDraws exD shiftO = Ok tr /\ PredictSingleClass (tr_model tr) [fofZ 1] [] = Ok (0, []) /\ PredictSingleClass (tr_model tr) [quarter5] [] = Ok (2, []).
Proof.
  destruct (ok_ex (NewMultiClass env0 shiftDraws exD shiftO) (fun tr => match PredictSingleClass (tr_model tr) [fofZ 1] [], PredictSingleClass (tr_model tr) [quarter5] [] with Ok (0, []), Ok (2, []) => true | _, _ => false end)) as (tr & Ht & HB); [vm_compute; reflexivity|].
  exists tr. split; [exact Ht|]. destruct (PredictSingleClass (tr_model tr) [fofZ 1] []) as [[[| |] [|]]| |]; try discriminate HB. split; [reflexivity|].
  destruct (PredictSingleClass (tr_model tr) [quarter5] []) as [[[|[|[| |]|]|] [|]]| |]; try discriminate HB. reflexivity.
Qed.
Lemma ex_shift : EnvOk env0 /\ goodTable (Data exD) /\ finiteTable (Data exD) /\ (length (Data exD) <= length (Labels exD))%nat /\ In [fofZ 1] (Data exD) /\ movedLittle (Data exD) [fofZ 1] [quarter5] /\
  fltb (o_ss boundO) fone = false /\ exists tr, NewMultiClass env0 draws0 exD boundO = Ok tr /\ PredictSingleClass (tr_model tr) [fofZ 1] [] = Ok (1, []).
Proof.
  split; [exact env0_ok|]. split; [exact (proj1 (proj2 ex_c98))|]. split; [exact ex_finite|]. split; [cbn; lia|]. split; [right; left; reflexivity|]. split; [exact ex_moved|]. split; [reflexivity|].
  destruct (ok_ex (NewMultiClass env0 draws0 exD boundO) (fun tr => match PredictSingleClass (tr_model tr) [fofZ 1] [] with Ok (1, []) => true | _ => false end)) as (tr & Ht & HB); [vm_compute; reflexivity|].
  exists tr. split; [exact Ht|]. destruct (PredictSingleClass (tr_model tr) [fofZ 1] []) as [[[|[| |]|] [|]]| |]; try discriminate HB. reflexivity.
Qed.
Lemma ex_close : closeTo (Data exD) 0 (fofZ 1) quarter5.
Proof.
  split; [reflexivity|]. destruct (fofZ_exact50 0 ltac:(lia)) as [_ Z0]. destruct (fofZ_exact50 1 ltac:(lia)) as [_ Z1]. destruct (fofZ_exact50 2 ltac:(lia)) as [_ Z2].
  assert (Q : B2R quarter5 = (5 / 4)%R) by (unfold quarter5; cbn; unfold F2R; cbn; lra).
  assert (P1 : (two (-52) <= / 1000)%R). { unfold two. apply Rle_trans with (bpow radix2 (-10)); [apply bpow_le; lia|cbn; lra]. }
  assert (P2 : (two (-1073) <= / 1000)%R). { unfold two. apply Rle_trans with (bpow radix2 (-10)); [apply bpow_le; lia|cbn; lra]. }
  assert (P3 : (0 < two (-52))%R) by (unfold two; apply bpow_gt_0).
  intros j w Hw Hn. destruct (exD_cells _ _ _ Hw) as (_ & [-> | [-> | ->]]); rewrite Z1 in *; [rewrite Z0|congruence|rewrite Z2]; rewrite Q;
    (replace (5 / 4 - 1)%R with (/ 4)%R by lra); rewrite (Rabs_pos_eq (/ 4)), (Rabs_pos_eq 1) by lra.
  - rewrite Rabs_R0. replace (0 - 1)%R with (- (1))%R by lra. rewrite Rabs_Ropp, Rabs_R1. nra.
  - rewrite (Rabs_pos_eq 2) by lra. replace (2 - 1)%R with 1%R by lra. rewrite Rabs_R1. nra.
Qed.
