(** Specification vocabulary: well-formed training input. *)
From Coq Require Import Reals.
From Verif Require Import Base F64 F64Lemmas Env Utils Tree Options Train Spec.
Open Scope Z_scope.

(** a table that can be split: at least one row, rows of equal length, no NaN, and between two different values of a
    column the midpoint is a number that separates them *)
Record goodTable (X : list (list f64)) : Prop := {
  gt_rows : X <> [];
  gt_rect : forall r1 r2, In r1 X -> In r2 X -> length r1 = length r2;
  gt_nan : forall i f v, cell X i f v -> fnanb v = false;
  gt_mid : forall f i j a b, cell X i f a -> cell X j f b -> fltb a b = true ->
    fleb a (fdiv (fadd a b) (fofZ 2)) = true /\ fltb (fdiv (fadd a b) (fofZ 2)) b = true
}.

(** the derivatives of the loss have one entry per sample *)
Definition lossSized (L : LossFunc) : Prop := forall lab pr, length lab = length pr ->
  length (l_neg L lab pr) = length pr /\ length (l_grad L lab pr) = length pr /\ length (l_hess L pr) = length pr.

(** fractions that are used for sub-sampling are not negative *)
Definition fractionOk (p : f64) : Prop := fltb p fone = true -> fleb fzero p = true.

(** a round with row draws [draw] sees at least one of [n] rows, or is skipped because of MinSample *)
Definition roundFed (O : Options) (n : nat) (draw : nat -> f64) : Prop :=
  o_xgb O = false \/ fltb (o_ss O) fone = false \/ 1 <= o_minsample O \/
  exists i, (i < n)%nat /\ fleb (draw i) (o_ss O) = true.

(** a number with at most 52 significant bits, away from overflow and from the last denormal bit: float32 values and
    integers below 2^52 are of this kind *)
Definition shortNum (v : f64) : Prop :=
  ffinite v = true /\ (Rabs (B2R v) <= bpow radix2 1022)%R /\
  exists m e, Z.abs m < 2 ^ 52 /\ -1073 <= e /\ B2R v = (IZR m * bpow radix2 e)%R.

(** options with which no round trains on an empty sample: in particular those accepted by Check *)
Record optsOk (O : Options) : Prop := {
  oo_loss : lossSized (o_loss O);
  oo_ss : fractionOk (o_ss O);
  oo_css : fractionOk (o_css O);
  oo_fed : o_xgb O = false \/ fltb (o_ss O) fone = false \/ 1 <= o_minsample O
}.
(** dimensions that fit in memory *)
Definition sizesOk (X : list (list f64)) : Prop :=
  Z.of_nat (length X) < 2 ^ 62 /\ forall row, In row X -> Z.of_nat (length row) < 2 ^ 62.
