(** Specification vocabulary: what the printed descriptions show. *)
From Coq Require Import Reals Ascii String.
From Flocq Require Import Core.Generic_fmt IEEE754.BinarySingleNaN.
From Verif Require Import Base F64 Env Utils Tree Options Train Spec Text Confu Readers Feats Print.
From Coq Require Import List.
Open Scope Z_scope.

(** two numbers that look the same with three decimals *)
Definition same3 (x y : f64) : Prop :=
  if is_finite x then is_finite y = true /\ Bsign x = Bsign y /\ ZnearestE (Rabs (B2R x) * 1000) = ZnearestE (Rabs (B2R y) * 1000)
  else y = x.
Definition oneLineT (t : text) : Prop := ~ In NL t.
Definition namesOneLine (names : option (list text)) : Prop := forall ns, names = Some ns -> forall n, In n ns -> oneLineT n.

(** what a printed tree shows *)
Inductive printed : Type :=
| PLeaf (value : f64) (samples : list Z)
| PNode (feat : text) (thr : f64) (l r : printed).
(** the text shown for feature [f] *)
Definition shownName (names : option (list text)) (f : Z) (n : text) : Prop :=
  match names with None => 0 <= f /\ n = padL 2 (decZ f) | Some ns => look ns f n end.
Inductive shows (names : option (list text)) : tree -> printed -> Prop :=
| shows_leaf d l r : t_leaf d = true -> shows names (Node d l r) (PLeaf (t_value d) (samplesOf d))
| shows_node d l r n pl pr : t_leaf d = false -> shownName names (t_split d) n -> shows names l pl -> shows names r pr ->
    shows names (Node d l r) (PNode n (t_thr d) pl pr).
(** equal up to three decimals *)
Fixpoint samePrinted (p q : printed) : Prop :=
  match p, q with
  | PLeaf v s, PLeaf v' s' => same3 v v' /\ s = s'
  | PNode n t l r, PNode n' t' l' r' => n = n' /\ same3 t t' /\ samePrinted l l' /\ samePrinted r r'
  | _, _ => False
  end.
Fixpoint printedLines (p : printed) : nat :=
  match p with PLeaf _ _ => 1%nat | PNode _ _ l r => (3 + printedLines l + printedLines r)%nat end.

(** prediction by the rule as it is printed: the branch "True" if the feature is less than the threshold *)
Inductive readsRule (row : list f64) : tree -> f64 -> Prop :=
| rr_leaf d l r : t_leaf d = true -> readsRule row (Node d l r) (t_value d)
| rr_true d l r x v : t_leaf d = false -> look row (t_split d) x -> fltb x (t_thr d) = true -> readsRule row l v -> readsRule row (Node d l r) v
| rr_false d l r x v : t_leaf d = false -> look row (t_split d) x -> fltb x (t_thr d) = false -> readsRule row r v -> readsRule row (Node d l r) v.

(** line [i] (from 0) of a printed feature set *)
Definition featLine (i : nat) (f : Z) (g : f64) : text :=
  decZ (Z.of_nat i + 1) ++ tx " Feature " ++ decZ f ++ tx " with score: " ++ fmt3 g.
Definition sameOptions3 (O O' : Options) : Prop :=
  o_xgb O = o_xgb O' /\ o_rounds O = o_rounds O' /\ o_maxdepth O = o_maxdepth O' /\ same3 (o_lr O) (o_lr O') /\ same3 (o_mcw O) (o_mcw O') /\
  (o_xgb O = true -> same3 (o_ss O) (o_ss O') /\ same3 (o_base O) (o_base O') /\ same3 (o_gamma O) (o_gamma O') /\ same3 (o_lambda O) (o_lambda O') /\ same3 (o_css O) (o_css O')).
(** values with their units *)
Definition withUnits (ps : list (text * text)) : text := joinT (map (fun p => fst p ++ tx " " ++ snd p) ps) (tx "/").
