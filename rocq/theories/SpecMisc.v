(** Specification vocabulary: sorters with index slices, one-hot encodings of names, texts of nodes and errors. *)
From Coq Require Import Ascii String.
From Verif Require Import Base F64 Env Utils Tree Text Confu Readers Json Print Misc Spec SpecPrint.
From Coq Require Import List.
Open Scope Z_scope.

(** [Less] and [Swap] are called with valid positions of a slice of length [n] *)
Inductive inRange (n : Z) : sorter -> Prop :=
| ir_done : inRange n Done
| ir_less i j k : 0 <= i < n -> 0 <= j < n -> (forall b, inRange n (k b)) -> inRange n (AskLess i j k)
| ir_swap i j k : 0 <= i < n -> 0 <= j < n -> inRange n k -> inRange n (DoSwap i j k).

(** [de] are the different elements of [l] in the order of their first occurrence *)
Definition firstsOf {A} (l de : list A) : Prop :=
  NoDup de /\ (forall x, In x de <-> In x l) /\
  forall a b x y, (a < b)%nat -> nth_error de a = Some x -> nth_error de b = Some y ->
    exists i, nth_error l i = Some x /\ forall j, (j <= i)%nat -> nth_error l j <> Some y.

(** what the text of a node shows: everything but the feature it splits on, numbers with three decimals *)
Definition sameNode (j k : JSONNode) : Prop :=
  j_id j = j_id k /\ orNil (j_samples j) = orNil (j_samples k) /\ j_nsamples j = j_nsamples k /\ same3 (j_best j) (j_best k) /\
  same3 (j_value j) (j_value k) /\ same3 (j_thr j) (j_thr k) /\ j_leaf j = j_leaf k /\ j_branches j = j_branches k /\
  j_left j = j_left k /\ j_right j = j_right k /\ j_xgb j = j_xgb k.

(** the complete lines of a text, with their line ends *)
Inductive linesOf : text -> list text -> Prop :=
| lines_end r : ~ In NL r -> linesOf r []
| lines_cons s r ls : ~ In NL s -> linesOf r ls -> linesOf (s ++ NL :: r) ((s ++ [NL]) :: ls).
