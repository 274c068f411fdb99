(** Specification vocabulary: an accurate exponential, and training sets that can be learnt. *)
From Coq Require Import Reals.
From Flocq Require Import Core.
From Verif Require Import Base F64 Env Utils Tree Options Train Spec.
Open Scope R_scope.

(** between -610 and 610 the relative error of [math.Exp] is at most 2^-40 (one unit in the last place is 2^-52) *)
Definition expAccurate (E : Env) : Prop := forall x, ffinite x = true -> Rabs (B2R x) <= 610 ->
  ffinite (e_exp E x) = true /\ Rabs (B2R (e_exp E x) - exp (B2R x)) <= bpow radix2 (-40) * exp (B2R x).
(** no two rows hold the same values *)
Definition distinctRows (X : list (list f64)) : Prop := forall i j r s, nth_error X i = Some r -> nth_error X j = Some s ->
  i <> j -> exists f a b, nth_error r f = Some a /\ nth_error s f = Some b /\ feqb a b = false.
(** plain gradient boosting (no XGB, no early stopping) with at least one round of trees as deep as the training set of [n] rows is large *)
Definition deepPlain (O : Options) (n : nat) : Prop :=
  o_xgb O = false /\ (o_earlystop O <= 0)%Z /\ (o_minsample O <= 0)%Z /\ (Z.of_nat n <= o_maxdepth O)%Z /\ (ftoZ (o_mcw O) <= 1)%Z /\ (1 <= o_rounds O)%Z.
(** steps that keep the scores of [K] classes where the probabilities are neither all 0 nor exactly 1 *)
Definition stepsBounded (O : Options) (K : nat) : Prop :=
  ffinite (o_lr O) = true /\ ffinite (o_base O) = true /\ bpow radix2 (-30) <= B2R (o_lr O) <= 1 /\
  (((exists id, o_loss O = SQErrLoss id) /\ Rabs (B2R (o_base O)) + IZR (o_rounds O) * B2R (o_lr O) <= 600) \/
   ((exists id, o_loss O = MSELoss id) /\ Rabs (B2R (o_base O)) <= 500 /\ INR K * IZR (o_rounds O) * B2R (o_lr O) <= 7)).
(** the number of different labels *)
Definition distinctCount (l : list Z) : nat := length (nodup Z.eq_dec l).
