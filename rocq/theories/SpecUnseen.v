(** Specification vocabulary for labels that occur only among the test rows (C164). *)
From Verif Require Import Base F64 Env Utils Tree Spec Options Train SpecTrain CV SpecCV SpecChance.
Open Scope Z_scope.

(** how many of the labels [ls] occur in [seen] *)
Definition known (seen ls : list Z) : nat := length (filter (fun l => existsb (Z.eqb l) seen) ls).
(** the percentage [k] out of [n], as Accuracy computes it *)
Definition percent (k n : nat) : f64 := fmul (fofZ 100) (fdiv (fofZ (Z.of_nat k)) (fofZ (Z.of_nat n))).
(** the draws are enough and put all the rows [S] into fold [i] *)
Definition putsAll {K} (D : DataBunch K) (nfold : Z) (S : list nat) (i : nat) (w : list Z) : bool :=
  match assignOf D nfold w with
  | Some a => forallb (fun r => match nth_error a r with Some j => Nat.eqb j i | None => false end) S
  | None => false
  end.
(** n (n-1) ... (n-m+1); 0 if m > n *)
Fixpoint falling (n m : nat) : Z :=
  match m with O => 1 | S m' => falling n m' * Z.of_nat (n - m') end.
