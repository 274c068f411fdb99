(** Specification vocabulary for bounded scores (C165). *)
From Coq Require Import Reals.
From Verif Require Import Base F64 Env Utils Tree Spec SpecErr Options Train SpecTrain.
Open Scope R_scope.

(** a float64 of magnitude at most [B] *)
Definition upTo (B : R) (x : f64) : Prop := ffinite x = true /\ Rabs (B2R x) <= B.
(** the squared error loss, and an L2 penalty that is not negative (nor absurdly large) *)
Definition plainSquared (O : Options) : Prop :=
  (exists id, o_loss O = SQErrLoss id) /\ ffinite (o_lambda O) = true /\ 0 <= B2R (o_lambda O) <= IZR (2 ^ 900).
(** the probability of score number [j] in exact arithmetic *)
Definition exactShare (S : list R) (j : nat) : R := exp (nth j S 0) / rsum (map exp S).
