(** Vocabulary of C136: the scores of a model in exact arithmetic. *)
From Coq Require Import Reals.
From Verif Require Import Base F64 Utils Tree Spec SpecErr Train SpecTrain.
Open Scope R_scope.

(** the trees [ts] give [row] finite values; [S] is the exact score, the start plus the values times the learning rate,
    and [A] the sum of the magnitudes of these terms *)
Definition exactScore (lr : f64) (row : list f64) (start : f64) (ts : list tree) (S A : R) : Prop :=
  exists ps, Forall2 (fun t p => PredictSingle t row = Ok p) ts ps /\ allFinite (start :: lr :: ps) /\
    S = B2R start + rsum (map (fun p => B2R p * B2R lr) ps) /\
    A = Rabs (B2R start) + rsum (map (fun p => Rabs (B2R p * B2R lr)) ps).
(** the exact score of class number [j] of a model *)
Definition classScore (M : MultiClass) (row : list f64) (j : nat) (S A : R) : Prop :=
  exactScore (mc_lr M) row (mc_base M) (positionTrees (mc_b M) j) S A.
(** bound on the rounding error of a score with [n] trees *)
Definition scoreError (n : nat) (A : R) : R := (INR n + 1) * two (-52) * A + INR n * two (-1074).
