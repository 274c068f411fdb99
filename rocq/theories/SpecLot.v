(** Vocabulary for the chance that rounds are trained (C168) and for the columns offered to a root (C169). *)
From Verif Require Import Base F64 Env Utils Tree Options Train Spec SpecChance.
Open Scope Z_scope.

(** the row draws of round [r] are [ws[r]], the column draws are [cols] *)
Definition lotDraws (cols : nat -> nat -> f64) (ws : list (list f64)) : draws :=
  fun r => (fun i => nth i (nth r ws []) fzero, cols r).
(** with these draws training returns a model of exactly [j] rounds *)
Definition trainsRounds {K} (E : Env) (cols : nat -> nat -> f64) (D : DataBunch K) (O : Options) (j : nat) (ws : list (list f64)) : bool :=
  match NewMultiClass E (lotDraws cols ws) D O with Ok tr => Nat.eqb (length (mc_b (tr_model tr))) j | _ => false end.
(** sum of [f i] for [from <= i < from + n] *)
Fixpoint sumFrom (from n : nat) (f : nat -> Z) : Z := match n with O => 0 | S k => f from + sumFrom (S from) k f end.
(** of |U|^n sequences of draws for [n] rows, those that select at least [m] rows *)
Definition enoughWays (U : list f64) (n : nat) (s : f64) (m : Z) : Z :=
  sumFrom 0 (S n) (fun i => if m <=? Z.of_nat i then binom n i * keptOf U s ^ Z.of_nat i * (Z.of_nat (length U) - keptOf U s) ^ Z.of_nat (n - i) else 0).

(** the columns that the root of a tree with [n] features may split on, when [w] was drawn for them *)
Definition offers (n : nat) (s : f64) (cols : list Z) (w : list f64) : bool :=
  match subsampleOf n s w with Ok a => if list_eq_dec Z.eq_dec (scannedColumns n a) cols then true else false | _ => false end.
