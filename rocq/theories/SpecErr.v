(** Vocabulary of the error-bound properties: exact means and sums of float64 data. *)
From Coq Require Import Reals.
From Verif Require Import Base F64 Spec.
Open Scope R_scope.

(** the exact values of a slice *)
Definition exact (l : list f64) : list R := map (@B2R 53 1024) l.
Definition absSum (l : list R) : R := rsum (map Rabs l).
(** the mean of the squared differences *)
Definition meanSquare (y p : list R) : R := rsum (map (fun q => (fst q - snd q) * (fst q - snd q)) (combine y p)) / INR (length y).
(** 2^e *)
Definition two (e : Z) : R := bpow radix2 e.
Definition allFinite (l : list f64) : Prop := forall x, In x l -> ffinite x = true.
(** no more elements than the error bounds allow *)
Definition fits (n : nat) : Prop := (Z.of_nat n <= 2 ^ 50)%Z.
