(** A concrete model for C136: two classes, two rounds, the second class leads by 8. *)
From Coq Require Import Reals Lra.
From Verif Require Import Base F64 F64Lemmas Env EnvLemmas Utils Tree Spec SpecErr NumErr ErrProofs Train SpecTrain SpecLearn LearnNum LearnEx JsonMore SpecScore ScoreProofs TrainEx.
From Coq Require Import List.
Open Scope R_scope.

Definition leafOf (v : f64) : tree := Node (MkT None finf v 1 0 fzero false 1) Nil Nil.
Definition stumpOf (a b : f64) : tree := Node (MkT None fone fzero 2 0 fone false 3) (leafOf a) (leafOf b).
Definition scM : MultiClass := MkMC [[leafOf (fofZ 1); stumpOf (fofZ 3) (fofZ 0)]; [leafOf (fofZ 1); stumpOf (fofZ 4) (fofZ 0)]]
  (fofZ 2) [0; 1]%Z (softmaxOf envR) (fofZ 1) false.
Definition scRow : list f64 := [fzero].
Lemma sc_walk a b : PredictSingle (stumpOf a b) scRow = Ok a.
Proof. unfold stumpOf, scRow. cbn [PredictSingle t_split t_thr]. change (t_leaf (MkT None fone fzero 2 0 fone false 3)) with false. cbn iota.
  change (idx [fzero] 0) with (Ok fzero : res f64). cbn [bind]. change (fleb fzero fone) with true. reflexivity. Qed.
Lemma sc_leaf a : PredictSingle (leafOf a) scRow = Ok a.
Proof. reflexivity. Qed.
Lemma sc_two t u (a b : Z) : PredictSingle t scRow = Ok (fofZ a) -> PredictSingle u scRow = Ok (fofZ b) -> (0 <= a < 2 ^ 53)%Z -> (0 <= b < 2 ^ 53)%Z ->
  exactScore (fofZ 2) scRow (fofZ 1) [t; u] (1 + IZR a * 2 + IZR b * 2) (1 + IZR a * 2 + IZR b * 2).
Proof.
  intros Ht Hu Ha Hb. destruct (fofZ_exact50 a Ha) as [Fa Ea]. destruct (fofZ_exact50 b Hb) as [Fb Eb].
  destruct (fofZ_exact50 1 ltac:(lia)) as [F1 E1]. destruct (fofZ_exact50 2 ltac:(lia)) as [F2 E2].
  assert (Pa : 0 <= IZR a) by (apply IZR_le; lia). assert (Pb : 0 <= IZR b) by (apply IZR_le; lia).
  exists [fofZ a; fofZ b]. split; [repeat constructor; assumption|]. split.
  - intros x [<-|[<-|[<-|[<-|[]]]]]; assumption.
  - cbn [map rsum]. rewrite Ea, Eb, E1, E2. split; [ring|]. rewrite !Rabs_pos_eq by (try apply Rmult_le_pos; lra). ring.
Qed.
Lemma sc_scores : classScore scM scRow 0 5 5 /\ classScore scM scRow 1 15 15.
Proof.
  split; unfold classScore; cbn [scM mc_lr mc_base mc_b positionTrees flat_map nth_error app].
  - replace 5 with (1 + IZR 1 * 2 + IZR 1 * 2) by ring. apply sc_two; try apply sc_leaf; lia.
  - replace 15 with (1 + IZR 3 * 2 + IZR 4 * 2) by ring. apply sc_two; try apply sc_walk; lia.
Qed.
Lemma ex_score : exists out, EnvOk envR /\ expAccurate envR /\ mc_pt scM = softmaxOf envR /\ rawScores scM scRow = Ok out /\ (1 < length out)%nat /\
  (Z.of_nat (length out) <= 2 ^ 40)%Z /\ (forall j, (j < length out)%nat -> (Z.of_nat (length (positionTrees (mc_b scM) j)) < 2 ^ 40)%Z) /\
  (forall j, (j < length out)%nat -> exists Sj Aj Sk Ak, classScore scM scRow j Sj Aj /\ classScore scM scRow 1 Sk Ak /\ Aj <= 600 /\
    (j <> 1%nat -> Sj + scoreError (length (positionTrees (mc_b scM) j)) Aj + scoreError (length (positionTrees (mc_b scM) 1)) Ak + two (-34) <= Sk)).
Proof.
  destruct (ok_ex (rawScores scM scRow) (fun l => Nat.eqb (length l) 2)) as (out & Ho & Hl); [vm_compute; reflexivity|].
  apply Nat.eqb_eq in Hl. exists out. split; [exact envR_ok|]. split; [exact envR_accurate|]. split; [reflexivity|]. split; [exact Ho|]. rewrite Hl.
  split; [lia|]. split; [lia|]. destruct sc_scores as [S0 S1]. split; intros j Hj; (assert (Ej : j = 0%nat \/ j = 1%nat) by lia); destruct Ej as [-> | ->].
  - simpl. lia.
  - simpl. lia.
  - exists 5, 5, 15, 15. split; [exact S0|]. split; [exact S1|]. split; [lra|]. intros _. unfold scoreError. rewrite two_uu, two_ee.
    change (length (positionTrees (mc_b scM) 0)) with 2%nat. change (length (positionTrees (mc_b scM) 1)) with 2%nat.
    assert (two (-34) <= 1) by (unfold two; change 1 with (bpow radix2 0); apply bpow_le; lia). pose proof ee_small. pose proof one_uu. simpl INR. lra.
  - exists 15, 15, 15, 15. split; [exact S1|]. split; [exact S1|]. split; [lra|]. intros H. congruence.
Qed.
