(** Concrete inputs for C122. *)
From Coq Require Import String.
From Verif Require Import Base F64 F64Lemmas Env EnvLemmas Utils Tree Spec Options Train SpecTrain SpecOpt Examples TrainEx.
From Coq Require Import List.
Open Scope Z_scope.

Definition optA : Options := MkOpts false 2 2 0 fhalf fone (fdec 3 10) fzero fone fone fhalf 0 "exact" false (SQErrLoss 0).
Definition optB : Options := MkOpts false 2 2 (-4) fhalf (fofZ 7) (fdec 17 10) (fofZ 2) fhalf fzero fhalf (-1) "hist" true (SQErrLoss 0).
Lemma ex_c122 : sameTraining optA optB /\ noDraws optA /\ exists tr, NewMultiClass env0 draws0 exD optA = Ok tr /\ length (tr_hist tr) = 2%nat /\ o_mcw optA <> o_mcw (tr_opts tr).
Proof.
  split.
  { constructor; unfold sameOrOff; try (left; reflexivity); try (right; split; vm_compute; discriminate); try reflexivity; discriminate. }
  split; [left; reflexivity|].
  destruct (ok_ex (NewMultiClass env0 draws0 exD optA) (fun tr => Nat.eqb (length (tr_hist tr)) 2 && fltb (o_mcw optA) (o_mcw (tr_opts tr)))) as (tr & Ht & HB); [vm_compute; reflexivity|].
  apply andb_prop in HB as [H1 H2]. exists tr. split; [exact Ht|]. split; [apply Nat.eqb_eq; exact H1|]. intros Heq. rewrite <- Heq, fltb_irrefl in H2. discriminate H2.
Qed.
(** row sub-sampling makes XGB training depend on the draws *)
Definition optS : Options := MkOpts true 1 2 0 fhalf fone fone fzero fhalf fone fhalf 1 "exact" false (SQErrLoss 0).
Definition drawsA : draws := fun _ => (fun i => match i with O => fzero | _ => fone end, fun _ => fzero).
Definition drawsB : draws := fun _ => (fun _ => fzero, fun _ => fzero).
Lemma ex_c122_draws : resultOf (NewMultiClass env0 drawsA exD optS) <> resultOf (NewMultiClass env0 drawsB exD optS).
Proof.
  intros H. set (g := fun r : res (MultiClass * list (list entryG)) => match r with Ok (_, h) => map (map (fun e => branchesOf (g_tree e))) h | _ => [] end).
  apply (f_equal g) in H. assert (A : match g (resultOf (NewMultiClass env0 drawsA exD optS)), g (resultOf (NewMultiClass env0 drawsB exD optS)) with
    (a :: _) :: _, (b :: _) :: _ => negb (a =? b) | _, _ => false end = true) by (vm_compute; reflexivity).
  rewrite H in A. destruct (g (resultOf (NewMultiClass env0 drawsB exD optS))) as [|[|b l] l']; try discriminate A. rewrite Z.eqb_refl in A. discriminate A.
Qed.
