(** Concrete cases for labels that occur only among the test rows (C164). *)
From Verif Require Import Base F64 Env Utils Tree Options Train Examples TrainEx Spec SpecTrain CV SpecCV CVProofs CVEx SpecChance ChanceEx SpecUnseen.
Open Scope Z_scope.

(** the label 9 does not occur in [exD] *)
Definition testRows : DataBunch unit := MkData (mat [[0]; [1]; [1]; [2]]) [] [7; 9; 5; 6].
Lemma ex_seen : exists tr a, NewMultiClass env0 draws0 exD (mkO true 0 3 2 (fdec 3 10)) = Ok tr /\ Accuracy (tr_model tr) testRows = Ok a /\
  feqb a (fofZ 75) = true /\ known (Labels exD) (Labels testRows) = 3%nat.
Proof.
  destruct (ok_ex (NewMultiClass env0 draws0 exD (mkO true 0 3 2 (fdec 3 10))) (fun tr => match Accuracy (tr_model tr) testRows with Ok a => feqb a (fofZ 75) | _ => false end)) as (tr & Htr & HB); [vm_compute; reflexivity|].
  destruct (Accuracy (tr_model tr) testRows) as [a| |] eqn:E; try discriminate HB. exists tr, a. auto.
Qed.
Definition sevenLabels : DataBunch unit := MkData (Data exCV) [tt] [1; 2; 3; 4; 5; 6; 7].
Lemma sevenLabels_nodup : NoDup (Labels sevenLabels).
Proof. cbn. repeat constructor; cbn; lia. Qed.
Lemma ex_distinct : exists r, MultiClassCrossValidation env0 10 ints0 (fun _ => draws0) 0 sevenLabels 3 (Some (mkO true 0 2 2 (fdec 3 10))) true = Ok r /\ cv_err r = false.
Proof.
  destruct (ok_ex (MultiClassCrossValidation env0 10 ints0 (fun _ => draws0) 0 sevenLabels 3 (Some (mkO true 0 2 2 (fdec 3 10))) true) (fun r => negb (cv_err r))) as (r & Hr & HB); [vm_compute; reflexivity|].
  exists r. split; auto. destruct (cv_err r); [discriminate HB|auto].
Qed.
(** 2 * 1 / (4 * 3) of the 240 cases *)
Lemma ex_together : ways (iota 4) 5 (putsAll fourRows 2 [0; 2]%nat 1) = 40 /\ falling 4 2 = 12 /\ falling 2 2 = 2 /\ falling 2 3 = 0 /\ ways (iota 4) 5 (putsAll fourRows 2 [0; 2; 3]%nat 1) = 0.
Proof. vm_compute. repeat split. Qed.
