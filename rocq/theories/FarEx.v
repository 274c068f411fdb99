(** Concrete case for C167. *)
From Coq Require Import String.
From Verif Require Import Base F64 F64Lemmas Env EnvLemmas Utils Tree Options Train Spec SpecTrain Examples TrainEx SpecFar.
From Coq Require Import List.
Import ListNotations.
Open Scope Z_scope.
(** options that [Check] accepts *)
Definition farO : Options := MkOpts true 4 2 2 (fdec 3 10) fone fone fzero fhalf fhalf fhalf 1 "exact" false (SQErrLoss 0).
Definition accOf (b : f64) : res f64 := tr <- NewMultiClass env0 draws0 exD (withBase farO b) ;; Accuracy (tr_model tr) exD.
Lemma acc_run b lo hi : match accOf b with Ok a => fleb lo a && fleb a hi | _ => false end = true ->
  exists tr a, NewMultiClass env0 draws0 exD (withBase farO b) = Ok tr /\ Accuracy (tr_model tr) exD = Ok a /\ fleb lo a = true /\ fleb a hi = true.
Proof.
  unfold accOf. destruct (NewMultiClass env0 draws0 exD (withBase farO b)) as [tr| |]; cbn [bind]; try discriminate.
  destruct (Accuracy (tr_model tr) exD) as [a| |] eqn:EA; try discriminate. intros H. apply andb_prop in H as [H1 H2]. exists tr, a. auto.
Qed.
(** with BaseScore 1/2 or -700 the three rows are learnt; with 710, -746 or NaN a third of the accuracy is left; with 709
    only the sum of the exponentials overflows, and the result is as bad *)
Lemma ex_far : Check (withBase farO (fofZ 710)) = true /\ (length (Data exD) <= length (Labels exD))%nat /\ Data exD <> [] /\ o_loss farO = SQErrLoss 0 /\
  farScore env0 (fofZ 710) /\ farScore env0 (fofZ (-746)) /\ farScore env0 fnan /\
  (forall b, In b [fhalf; fofZ (-700)] -> exists tr a, NewMultiClass env0 draws0 exD (withBase farO b) = Ok tr /\ Accuracy (tr_model tr) exD = Ok a /\ fleb (fofZ 100) a = true) /\
  (forall b, In b [fofZ 710; fofZ (-746); fnan; fofZ 709] -> exists tr a, NewMultiClass env0 draws0 exD (withBase farO b) = Ok tr /\ Accuracy (tr_model tr) exD = Ok a /\ fleb a (fofZ 34) = true) /\
  (exists tr ps bufs, NewMultiClass env0 draws0 exD (withBase farO (fofZ 710)) = Ok tr /\ PredictMC (tr_model tr) (vec [1]) [] = Ok (ps, bufs) /\ length (mc_b (tr_model tr)) = 4%nat /\ length ps = 3%nat).
Proof.
  split; [vm_compute; reflexivity|]. split; [cbn; lia|]. split; [discriminate|]. split; [reflexivity|].
  split. { split; [vm_compute; reflexivity|]. right; left. vm_compute. reflexivity. }
  split. { split; [vm_compute; reflexivity|]. right; right. vm_compute. reflexivity. }
  split. { split; [vm_compute; reflexivity|]. left. reflexivity. }
  split. { intros b Hb. destruct (acc_run b (fofZ 100) (fofZ 100)) as (tr & a & H1 & H2 & H3 & _); [destruct Hb as [<- |[<- |[]]]; vm_compute; reflexivity|]. eauto. }
  split. { intros b Hb. destruct (acc_run b fzero (fofZ 34)) as (tr & a & H1 & H2 & _ & H3); [destruct Hb as [<- |[<- |[<- |[<- |[]]]]]; vm_compute; reflexivity|]. eauto. }
  assert (R : match NewMultiClass env0 draws0 exD (withBase farO (fofZ 710)) with Ok tr => match PredictMC (tr_model tr) (vec [1]) [] with Ok (ps, _) => Nat.eqb (length (mc_b (tr_model tr))) 4 && Nat.eqb (length ps) 3 | _ => false end | _ => false end = true) by (vm_compute; reflexivity).
  destruct (NewMultiClass env0 draws0 exD (withBase farO (fofZ 710))) as [tr| |]; try discriminate R. destruct (PredictMC (tr_model tr) (vec [1]) []) as [[ps bufs]| |] eqn:EP; try discriminate R.
  apply andb_prop in R as [R1 R2]. apply Nat.eqb_eq in R1, R2. exists tr, ps, bufs. auto.
Qed.
