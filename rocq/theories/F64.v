(** float64 (IEEE-754 binary64, round to nearest even) and the record of numeric
    operations over which the formulas of the library are written once.
    Models the Go type [float64] and its operators; no particular line of /repo. *)
From Coq Require Import ZArith Reals.
From Flocq Require Export Core BinarySingleNaN.
From Verif Require Import Base.
Open Scope Z_scope.

Definition f64 : Type := binary_float 53 1024.
Lemma Hprec : Prec_gt_0 53. Proof. reflexivity. Qed.
Lemma Hemax : Prec_lt_emax 53 1024. Proof. reflexivity. Qed.
#[global] Existing Instance Hprec.
#[global] Existing Instance Hemax.

Definition fadd : f64 -> f64 -> f64 := Bplus mode_NE.
Definition fsub : f64 -> f64 -> f64 := Bminus mode_NE.
Definition fmul : f64 -> f64 -> f64 := Bmult mode_NE.
Definition fdiv : f64 -> f64 -> f64 := Bdiv mode_NE.
Definition fopp : f64 -> f64 := @Bopp 53 1024.
(** Go [a < b], [a <= b], [a == b] on float64: false whenever an operand is NaN. *)
Definition fltb : f64 -> f64 -> bool := @Bltb 53 1024.
Definition fleb : f64 -> f64 -> bool := @Bleb 53 1024.
Definition feqb : f64 -> f64 -> bool := @Beqb 53 1024.
(** [float64(z)] for an int [z] *)
Definition fofZ (z : Z) : f64 := binary_normalize 53 1024 Hprec Hemax mode_NE z 0 false.
(** the constant [m * 2^e], used to write literals *)
Definition flit (m e : Z) : f64 := binary_normalize 53 1024 Hprec Hemax mode_NE m e false.
Definition finf : f64 := @B754_infinity 53 1024 false.
Definition fninf : f64 := @B754_infinity 53 1024 true.
Definition fnan : f64 := @B754_nan 53 1024.
Definition fzero : f64 := @B754_zero 53 1024 false.
Definition fone : f64 := Bone.
Definition fhalf : f64 := flit 1 (-1).
Definition ftwo : f64 := fofZ 2.
Definition fnanb (x : f64) : bool := is_nan x.
Definition ffinite (x : f64) : bool := is_finite x.
(** [math.IsInf(x, 1)] *)
Definition fisposinf (x : f64) : bool :=
  match x with B754_infinity false => true | _ => false end.
(** Go [int(x)] on amd64: truncation towards zero, [-2^63] when NaN or out of range
    (the Go specification leaves those cases implementation-defined). *)
Definition ftoZ (x : f64) : Z :=
  match x with
  | B754_zero _ => 0
  | B754_finite _ _ _ _ =>
      let z := Btrunc x in
      if (-(2 ^ 63) <=? z) && (z <? 2 ^ 63) then z else - (2 ^ 63)
  | _ => - (2 ^ 63)
  end.

(** ** The operations used by the numeric formulas of the library *)
Record num : Type := Num {
  carrier : Type;
  nadd : carrier -> carrier -> carrier;
  nsub : carrier -> carrier -> carrier;
  nmul : carrier -> carrier -> carrier;
  ndiv : carrier -> carrier -> carrier;
  nopp : carrier -> carrier;
  nofZ : Z -> carrier
}.

(** what the program computes with *)
Definition F : num := Num f64 fadd fsub fmul fdiv fopp fofZ.
(** exact arithmetic *)
Definition RN : num := Num R Rplus Rminus Rmult Rdiv Ropp IZR.
