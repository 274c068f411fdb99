(** Concrete cases for C161-C163. *)
From Verif Require Import Base F64 Env Utils Tree Options Train TrainEx CV CVEx Grid Grad GradEx SpecInv SpecChance.
Open Scope Z_scope.

(** two random bits: the values 0, 1/4, 1/2, 3/4 *)
Lemma ex_sub : subsampleOf 3 fhalf [fzero; fdec 3 4; fhalf] = Ok [0; 2] /\ keptOf (unitValues 2) fhalf = 3 /\
  ways (unitValues 2) 3 (selects 3 fhalf [0; 2]) = 9 /\ ways (unitValues 2) 3 (selectsMany 3 fhalf 2) = 27 /\
  keptOf (unitValues 2) fzero = 1 /\ ways (unitValues 2) 3 (selects 3 fzero [1]) = 9.
Proof. vm_compute. repeat split. Qed.
(** four rows, two folds, and at most five draws *)
Definition fourRows : DataBunch unit := MkData (map (fun k => [fofZ k]) [1; 2; 3; 4]) [] [0; 1; 0; 1].
Lemma ex_folds : assignOf fourRows 2 [2; 2; 0; 3; 1] = Some [0; 1; 0; 1]%nat /\ assignOf fourRows 2 [2; 2; 0; 3; 3] = None /\
  ways (iota 4) 5 (assigns fourRows 2 [0; 1; 0; 1]%nat) = 40 /\ ways (iota 4) 5 (assigns fourRows 2 [1; 1; 0; 0]%nat) = 40 /\
  ways (iota 4) 5 (enough fourRows 2) = 240 /\ ways (iota 4) 5 (putsIn fourRows 2 3 1) = 120 /\ ways (iota 4) 5 (fun w => negb (enough fourRows 2 w)) = 784.
Proof. vm_compute. repeat split. Qed.
Definition fzDown (i : nat) : f64 * bool := (fhalf, true).
Definition fzUp (i : nat) : f64 * bool := (fdec 9 10, false).
Definition nine : Options := withRounds (DefaultXOptions 0) 9.
Lemma ex_fuzz : o_rounds (fuzzOptions fzDown None nine) = 8 /\ o_rounds (fuzzOptions fzUp None nine) = 9 /\
  o_rounds (fold_left (fun o d => fuzzOptions d None o) [fzUp; fzDown; fzUp; fzDown; fzDown] nine) = 6.
Proof. vm_compute. repeat split. Qed.
