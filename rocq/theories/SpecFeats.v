(** Specification vocabulary for feature importance and ids. *)
From Verif Require Import Base F64 Env Utils Tree Options Train Spec Feats.
Open Scope Z_scope.

(** the gains reported for feature [f], in order *)
Definition gainsFor (adds : list (Z * f64)) (f : Z) : list f64 := map snd (filter (fun p => fst p =? f) adds).
(** left-to-right sum without a starting zero *)
Definition leftSum (l : list f64) : f64 := match l with [] => fzero | x :: t => fold_left fadd t x end.
(** the (feature, gain) pairs of a set *)
Definition pairsOf (f : feats) : list (Z * f64) := combine (fe_feat f) (fe_gains f).
(** the set holds every reported feature exactly once, with the sum of its gains *)
Definition tallies (adds : list (Z * f64)) (f : feats) : Prop :=
  length (fe_gains f) = length (fe_feat f) /\ NoDup (fe_feat f) /\
  (forall x, In x (fe_feat f) <-> In x (map fst adds)) /\
  (forall x g, In (x, g) (pairsOf f) -> g = leftSum (gainsFor adds x)).
(** the split features and scores of a tree's inner nodes, in pre-order *)
Fixpoint splitScores (t : tree) : list (Z * f64) :=
  match t with
  | Nil => []
  | Node d l r => if t_leaf d then [] else (t_split d, t_best d) :: splitScores l ++ splitScores r
  end.
(** best first: decreasing gains for XGB, increasing scores otherwise *)
Definition bestFirst (xgb : bool) (f : feats) : Prop :=
  forall i j x y, (i < j)%nat -> nth_error (fe_gains f) i = Some x -> nth_error (fe_gains f) j = Some y ->
    if xgb then fleb y x = true else fleb x y = true.
(** nodes that are not leaves have two children *)
Inductive twoChildren : tree -> Prop :=
| tc_leaf d l r : t_leaf d = true -> twoChildren (Node d l r)
| tc_inner d l r : t_leaf d = false -> twoChildren l -> twoChildren r -> twoChildren (Node d l r).

(** calls made on a set by one goroutine *)
Inductive featOp : Type := OpAdd (f : Z) (g : f64) | OpMerge (f2 : feats).
Definition opAdds (o : featOp) : list (Z * f64) := match o with OpAdd f g => [(f, g)] | OpMerge f2 => pairsOf f2 end.
Definition runOp (f : feats) (o : featOp) : res feats :=
  match o with OpAdd x g => Add f x g | OpMerge f2 => Merge f f2 end.

(** the ids returned so far *)
Definition idsOf (s : idState) : list Z := flat_map (fun p => match p with IDone r => [r] | _ => [] end) (is_threads s).
Definition idFinished (p : idPc) : Prop := exists r, p = IDone r.

(** [contrib] distributes the (feature, gain) pairs [all] over the entries of the set, each pair to one entry of its
    own feature, and every entry is the sum of its share *)
Definition distributes (all : list (Z * f64)) (f : feats) (contrib : list (list f64)) : Prop :=
  length contrib = length (fe_feat f) /\ fe_gains f = map leftSum contrib /\
  (forall c, In c contrib -> c <> []) /\
  Permutation all (flat_map (fun p => map (pair (fst p)) (snd p)) (combine (fe_feat f) contrib)).
