(** Specification vocabulary: grid options with which the gradient searches return. *)
From Coq Require Import Reals.
From Verif Require Import Base F64 F64Lemmas Env Utils Tree Options Train Spec CV SpecCV Grid SpecGridTot Grad.
Open Scope Z_scope.

(** the searched axes have fair steps, the two fractions have no negative bound, DeltaFraction is between 0 and 1, and Step is not
    tiny *)
Record goodClimb (o : GridOptions) : Prop := {
  gc_maxdepth : 1 <= r_step (g_maxdepth o);
  gc_mcw : fairStep (g_mcw o);
  gc_ss : fleb fzero (r_lo (g_ss o)) = true /\ fleb fzero (r_hi (g_ss o)) = true;
  gc_css : fleb fzero (r_lo (g_css o)) = true /\ fleb fzero (r_hi (g_css o)) = true;
  gc_delta : fleb fzero (g_delta o) = true /\ fleb (g_delta o) fone = true;
  gc_step : fltb fzero (g_step o) = true -> fleb (flit 1 (-990)) (g_step o) = true
}.
(** a source of integers for the splits of [n] rows *)
Definition goodInts (n : nat) (ints : nat -> Z) : Prop := validInts (Z.of_nat n) ints /\ fairInts (Z.of_nat n) ints.
(** all random values of a search are of the kind the generators return *)
Definition goodOracles (n : nat) (q : oracles) : Prop :=
  (forall k, goodInts n (fst (q_cv q k))) /\ (forall k, goodInts n (fst (q_cur q k))) /\ (forall k p up, goodInts n (fst (q_par q k p up))) /\
  forall k i, ffinite (fst (q_fuzz q k i)) = true /\ (0 <= B2R (fst (q_fuzz q k i)) < 1)%R.
