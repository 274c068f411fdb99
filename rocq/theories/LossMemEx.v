(** Concrete cases for C156 (utils/loss_acti.go): labels and predictions as 2x2 matrices. *)
From Verif Require Import Base F64 Env EnvLemmas Utils Spec Examples TrainEx LossMem SpecLossMem.
From Coq Require Import List Lia.
Open Scope Z_scope.

Definition exM : mem := [vec [1; 0; 1; 0]; vec [3; 5; 2; 7]; vec [9; 9; 9; 9; 9; 9]].
Definition exY : matM := MkM 2 2 0.
Definition exP : matM := MkM 2 2 1.
Definition exW : matM := MkM 2 3 2.
Lemma ex_stored : stored exM exY /\ stored exM exP /\ stored exM exW /\ shaped exY exP.
Proof. unfold stored, shaped. vm_compute. repeat split; lia. Qed.
Definition isInts (l : list f64) (z : list Z) : bool := if list_eq_dec Z.eq_dec (map ftoZ l) z then true else false.
Lemma isInts_ok l z : isInts l z = true -> map ftoZ l = z.
Proof. unfold isInts. destruct (list_eq_dec _ _ _); [auto|discriminate]. Qed.
(** the loss is computed into the labels, the gradients into the predictions *)
Lemma ex_in_place : (exists h' l, LossM exM exY exP (Some exY) = Ok (h', l) /\ feqb l (fdiv (fofZ 79) (fofZ 4)) = true /\ map ftoZ (arr h' 0) = [4; 25; 1; 49]) /\
  exists h' g, GradientsM exM exY exP (Some exP) = Ok (h', g) /\ map ftoZ (arr h' 1) = [2; 5; 1; 7] /\ map ftoZ (arr h' 0) = [1; 0; 1; 0].
Proof.
  split.
  - destruct (ok_ex (LossM exM exY exP (Some exY)) (fun r => feqb (snd r) (fdiv (fofZ 79) (fofZ 4)) && isInts (arr (fst r) 0) [4; 25; 1; 49])) as ([h l] & E & HB); [vm_compute; reflexivity|].
    apply andb_prop in HB as [H1 H2]. exists h, l. split; [exact E|]. split; [exact H1|]. apply isInts_ok; exact H2.
  - destruct (ok_ex (GradientsM exM exY exP (Some exP)) (fun r => isInts (arr (fst r) 1) [2; 5; 1; 7] && isInts (arr (fst r) 0) [1; 0; 1; 0])) as ([h g] & E & HB); [vm_compute; reflexivity|].
    apply andb_prop in HB as [H1 H2]. exists h, g. split; [exact E|]. split; apply isInts_ok; auto.
Qed.
(** a destination that is too long: its old last entry is part of the sum *)
Lemma ex_longer : exists h' x, SoftMaxM env0 exM (MkS (0%nat, 0%nat) 1) (MkS (2%nat, 0%nat) 2) = Ok h' /\ nth_error (arr h' 2) 0 = Some x /\ feqb x fone = false /\
  exists y, SoftMax env0 (readS exM (MkS (0%nat, 0%nat) 1)) [fzero] = Ok [y] /\ feqb y fone = true.
Proof.
  destruct (ok_ex (SoftMaxM env0 exM (MkS (0%nat, 0%nat) 1) (MkS (2%nat, 0%nat) 2)) (fun h => match nth_error (arr h 2) 0 with Some x => negb (feqb x fone) | None => false end)) as (h & E & HB); [vm_compute; reflexivity|].
  destruct (nth_error (arr h 2) 0) as [x|] eqn:EX; [|discriminate HB]. exists h, x. split; [exact E|]. split; [exact EX|]. split; [apply Bool.negb_true_iff; exact HB|].
  destruct (ok_ex (SoftMax env0 (readS exM (MkS (0%nat, 0%nat) 1)) [fzero]) (fun l => match l with [y] => feqb y fone | _ => false end)) as ([|y [|]] & E' & HB'); [vm_compute; reflexivity|discriminate|eauto|discriminate].
Qed.
