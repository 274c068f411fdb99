(** Witnesses for C146. *)
From Coq Require Import String Reals.
From Verif Require Import Base F64 F64Lemmas Env EnvLemmas Utils Tree Options Train Spec SpecTrain SpecErr SpecLearn LearnEx JsonMore SpecScore Examples TrainEx MissEx ScoreEx Fma FmaProofs.
From Coq Require Import List.
Open Scope Z_scope.

(** a trained model whose scores for a training row are not the scores of the training *)
Definition fmaScores (tr : trained) : bool :=
  match rawScoresF true (tr_model tr) (vec [0]), nth_error (d_data (s_raw (tr_state tr))) 0 with
  | Ok (y :: _), Some v => negb (feqb y v) && ffinite y && ffinite v && Nat.eqb (d_c (s_raw (tr_state tr))) 2
  | _, _ => false
  end.
Lemma fma_training : exists (D : DataBunch unit) O tr row out y v, NewMultiClass env0 draws0 D O = Ok tr /\ nth_error (Data D) 0 = Some row /\
  rawScoresF true (tr_model tr) row = Ok out /\ nth_error out 0 = Some y /\ entry (s_raw (tr_state tr)) 0 0 v /\ ffinite y = true /\ ffinite v = true /\ feqb y v = false.
Proof.
  exists fullG, (DefaultGOptions 0). destruct (ok_ex (NewMultiClass env0 draws0 fullG (DefaultGOptions 0)) fmaScores) as (tr & Htr & H); [vm_compute; reflexivity|].
  unfold fmaScores in H. exists tr, (vec [0]). destruct (rawScoresF true (tr_model tr) (vec [0])) as [out| |] eqn:Eo; try discriminate H. destruct out as [|y out]; [discriminate H|].
  destruct (nth_error (d_data (s_raw (tr_state tr))) 0) as [v|] eqn:Ev; [|discriminate H]. exists (y :: out), y, v.
  apply andb_true_iff in H as [H H4]. apply andb_true_iff in H as [H H3]. apply andb_true_iff in H as [H1 H2]. apply negb_true_iff in H1. apply Nat.eqb_eq in H4.
  split; [exact Htr|]. split; [reflexivity|]. split; [reflexivity|]. split; [reflexivity|].
  split; [|split; [exact H2|split; [exact H3|exact H1]]]. split; [rewrite H4; lia|exact Ev].
Qed.
(** a model and a row that get different classes *)
Definition fmaM : MultiClass :=
  MkMC [[leafOf (fofZ 1990); leafOf (flit 8752112557096961 (-42))]] (fdec 3 10) [0; 1] (softmaxOf env0) (fofZ (-597)) false.
Lemma fma_class : exists M row, PredictSingleClassF false M row = Ok 0 /\ PredictSingleClassF true M row = Ok 1.
Proof. exists fmaM, []. split; vm_compute; reflexivity. Qed.
(** a gain with the fused operation *)
Lemma fma_gain : let x := fsub (fadd (fdiv (fmul fone fone) (fadd fone fone)) (fdiv (fmul fone fone) (fadd fone fone))) (fdiv (fmul fzero fzero) (fadd ftwo fone)) in feqb x fone = true.
Proof. vm_compute. reflexivity. Qed.
Lemma ex_fma : exists out, EnvOk envR /\ expAccurate envR /\ mc_pt scM = softmaxOf envR /\ rawScoresF true scM scRow = Ok out /\ (1 < length out)%nat /\
  (Z.of_nat (length out) <= 2 ^ 40) /\ (forall j, (j < length out)%nat -> Z.of_nat (length (positionTrees (mc_b scM) j)) < 2 ^ 40) /\
  (forall j, (j < length out)%nat -> exists Sj Aj Sk Ak, classScore scM scRow j Sj Aj /\ classScore scM scRow 1 Sk Ak /\ (Aj <= 600)%R /\
    (j <> 1%nat -> (Sj + scoreError (length (positionTrees (mc_b scM) j)) Aj + scoreError (length (positionTrees (mc_b scM) 1)) Ak + two (-34) <= Sk)%R)).
Proof.
  destruct ex_score as (out & H1 & H2 & H3 & H4 & H5 & H6 & H7 & H8).
  destruct (rawScoresF_any false true scM scRow out) as (o2 & Ho & HL); [rewrite rawScoresF_plain; exact H4|].
  exists o2. rewrite HL. repeat (split; [assumption|]). exact H8.
Qed.
