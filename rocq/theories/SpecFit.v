(** Specification vocabulary: how well a tree fits the samples it was built from, in exact arithmetic. *)
From Coq Require Import Reals.
From Flocq Require Import Core.
From Verif Require Import Base F64 Env Utils Tree Spec.
Open Scope R_scope.

(** [F] summed over the sample lists of the leaves *)
Definition leafSum (F : list Z -> R) (t : tree) : R := rsum (map (fun d => F (samplesOf d)) (leaves t)).
Definition rootSamples (t : tree) : list Z := match t with Nil => [] | Node d _ _ => samplesOf d end.
(** [G left right] summed over the inner nodes, [left] and [right] being the sample lists of the two children *)
Fixpoint innerSum (G : list Z -> list Z -> R) (t : tree) : R :=
  match t with
  | Nil => 0
  | Node _ Nil Nil => 0
  | Node _ l r => G (rootSamples l) (rootSamples r) + innerSum G l + innerSum G r
  end.
(** sum of the squared deviations of [y] from its mean over [ix] *)
Definition spread (y : Z -> R) (ix : list Z) : R := deviations (map y ix) (mean (map y ix)).
(** the samples' derivatives *)
Definition pairsOf (g h : Z -> R) (ix : list Z) : list (R * R) := map (fun i => (g i, h i)) ix.
(** the smallest value of the regularised second-order objective of a leaf *)
Definition bestObjective (g h : Z -> R) (lambda : R) (ix : list Z) : R :=
  - (sumG (pairsOf g h ix) * sumG (pairsOf g h ix)) / (2 * (sumH (pairsOf g h ix) + lambda)).
(** the gain of a split, as in tree.go:228 but exact *)
Definition exactGain (g h : Z -> R) (lambda gamma : R) (il ir : list Z) : R :=
  let G ix := sumG (pairsOf g h ix) in
  let H ix := sumH (pairsOf g h ix) in
  1 / 2 * (G il * G il / (H il + lambda) + G ir * G ir / (H ir + lambda)
           - (G il + G ir) * (G il + G ir) / (H il + H ir + lambda)) - gamma / 2.
(** a target of moderate size: no overflow in the sums of squares *)
Definition moderate (y : f64) : Prop := ffinite y = true /\ Rabs (B2R y) <= bpow radix2 400.
(** rows [i] and [j] hold the same values *)
Definition sameRow (X : list (list f64)) (i j : Z) : Prop := forall f a b, cell X i f a -> cell X j f b -> feqb a b = true.
