(** Specification vocabulary for rows that are moved a little (C166). *)
From Coq Require Import Reals.
From Verif Require Import Base F64 Utils Tree Spec SpecErr.
Open Scope Z_scope.

(** the number half-way between two values, as computed in float64 *)
Definition halfway (a b : f64) : f64 := fdiv (fadd a b) (fofZ 2).
(** [v'] is on the same side as [v] of the half-way points between [v] and the other values in column [f] of [X] *)
Definition stays (X : list (list f64)) (f : Z) (v v' : f64) : Prop :=
  forall j w, cell X j f w -> (fltb v w = true -> fleb v' (halfway v w) = true) /\ (fltb w v = true -> fltb (halfway w v) v' = true).
Definition movedLittle (X : list (list f64)) (row row' : list f64) : Prop :=
  length row' = length row /\ forall f v v', look row f v -> look row' f v' -> stays X f v v'.
(** all cells are finite *)
Definition finiteTable (X : list (list f64)) : Prop := forall i f v, cell X i f v -> ffinite v = true.
(** in real numbers: [v'] is closer to [v] than half the distance to any other value of the column, less the rounding error of the half-way point *)
Definition closeTo (X : list (list f64)) (f : Z) (v v' : f64) : Prop :=
  ffinite v' = true /\ forall j w, cell X j f w -> B2R w <> B2R v ->
    (Rabs (B2R v' - B2R v) + (Rabs (B2R v) + Rabs (B2R w)) * two (-52) + two (-1073) < Rabs (B2R w - B2R v) / 2)%R.
(** two rows on the same side of a threshold [snd p] in column [fst p] *)
Definition sameSide (row row' : list f64) (p : Z * f64) : Prop :=
  (v <- idx row (fst p) ;; Ok (fleb v (snd p))) = (v <- idx row' (fst p) ;; Ok (fleb v (snd p))).
(** the columns and thresholds of a tree *)
Fixpoint splitsOf (t : tree) : list (Z * f64) :=
  match t with
  | Nil => []
  | Node d l r => (if t_leaf d then [] else [(t_split d, t_thr d)]) ++ splitsOf l ++ splitsOf r
  end.
