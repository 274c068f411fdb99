(** Specification vocabulary: the order of the rows. *)
From Coq Require Import Permutation.
From Verif Require Import Base F64 Env Utils Tree Spec.
From Coq Require Import List.
Open Scope Z_scope.

(** sums of these numbers, in any order, need no rounding: multiples of a power of two with less than 54 bits in total
    (integers with a total below [2^53], for instance); a negative zero is not among them *)
Definition sumsExactly (l : list f64) : Prop :=
  exists k ms, -1074 <= k <= 971 /\ l = map (fun m => flit m k) ms /\ fold_right (fun m s => Z.abs m + s) 0 ms < 2 ^ 53.

(** what a tree is grown from: the row of a sample with its gradient and Hessian, or with its target *)
Definition sampleInfo (X : list (list f64)) (o : TreeOptions) (i : Z) : option (list f64) * (option f64 * option f64) :=
  let at_ (l : list f64) := nth_error l (Z.to_nat i) in
  (nth_error X (Z.to_nat i), if to_xgb o then (at_ (orNil (to_grads o)), at_ (orNil (to_hess o))) else (at_ (to_y o), None)).
(** two calls of NewTree with the same hyperparameters and the same samples in any order *)
Definition sameSamples (X : list (list f64)) (o : TreeOptions) (X' : list (list f64)) (o' : TreeOptions) : Prop :=
  to_xgb o' = to_xgb o /\ to_mcw o' = to_mcw o /\ to_allowed o' = to_allowed o /\ to_lambda o' = to_lambda o /\ to_gamma o' = to_gamma o /\
  to_maxdepth o' = to_maxdepth o /\
  Permutation (map (sampleInfo X o) (initialSamples X o)) (map (sampleInfo X' o') (initialSamples X' o')).
(** the numbers that are summed *)
Definition summed (X : list (list f64)) (o : TreeOptions) (l : list f64) : Prop :=
  if to_xgb o then Forall2 (look (orNil (to_grads o))) (initialSamples X o) l \/ Forall2 (look (orNil (to_hess o))) (initialSamples X o) l
  else Forall2 (look (to_y o)) (initialSamples X o) l.

(** a tree without the numbers of the samples *)
Fixpoint noSamples (t : tree) : tree :=
  match t with
  | Nil => Nil
  | Node d l r => Node (MkT None (t_best d) (t_value d) (t_nsamples d) (t_split d) (t_thr d) (t_xgb d) (t_branches d)) (noSamples l) (noSamples r)
  end.
