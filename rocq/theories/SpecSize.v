(** Specification vocabulary: the size of trees and ensembles. *)
From Verif Require Import Base F64 Env Utils Tree Options Train Spec.
Open Scope Z_scope.

(** the smallest number of samples a node other than the root can have *)
Definition leastSamples (mcw : f64) : Z := Z.max 1 (ftoZ mcw).
(** the most nodes a tree over [s] samples can have when each of its nodes below the root has at least [m] of them *)
Definition mostNodes (s m : Z) : Z := Z.max 1 (2 * (s / m) - 1).
(** the nodes of all trees of an ensemble *)
Definition allNodes (ts : list tree) : Z := fold_right (fun t n => nodes t + n) 0 ts.
