(** Specification vocabulary: pairs of runs on related inputs. *)
From Verif Require Import Base F64 Env Utils Tree Options Train Spec.
Open Scope Z_scope.

(** the sort only looks at its elements through the comparison (sort.Sort calls Less and Swap only) *)
Definition sortsByComparison (E : Env) : Prop := forall A B (f : A -> B) lessA lessB l,
  (forall a b, In a l -> In b l -> lessB (f a) (f b) = lessA a b) ->
  e_sort E B lessB (map f l) = map f (e_sort E A lessA l).

(** two tables of the same shape whose columns are ordered in the same way *)
Definition sameOrder (X X' : list (list f64)) : Prop :=
  Forall2 (fun r r' => length r = length r') X X' /\
  forall f i j a b a' b', cell X i f a -> cell X j f b -> cell X' i f a' -> cell X' j f b' -> fltb a b = fltb a' b'.

(** the tree without its thresholds *)
Fixpoint noThr (t : tree) : tree :=
  match t with
  | Nil => Nil
  | Node d l r => Node (MkT (t_samples d) (t_best d) (t_value d) (t_nsamples d) (t_split d) fzero (t_xgb d) (t_branches d)) (noThr l) (noThr r)
  end.

(** [t] is [u] cut off below level [n]: the nodes above level [n] make the same decisions, those at level [n] are leaves *)
Inductive cutAt : nat -> tree -> tree -> Prop :=
| cut_bottom du l r d : t_samples d = t_samples du -> t_value d = t_value du -> t_nsamples d = t_nsamples du -> t_xgb d = t_xgb du ->
    t_leaf d = true -> cutAt 0 (Node du l r) (Node d Nil Nil)
| cut_leaf n d : t_leaf d = true -> cutAt (S n) (Node d Nil Nil) (Node d Nil Nil)
| cut_inner n du d ul ur l r : t_samples d = t_samples du -> t_best d = t_best du -> t_value d = t_value du -> t_nsamples d = t_nsamples du ->
    t_split d = t_split du -> t_thr d = t_thr du -> t_xgb d = t_xgb du ->
    cutAt n ul l -> cutAt n ur r -> cutAt (S n) (Node du ul ur) (Node d l r).

(** the option record with another MaxDepth *)
Definition withDepth (o : TreeOptions) (m : Z) : TreeOptions :=
  MkTO (to_xgb o) (to_mcw o) (to_allowed o) (to_lambda o) (to_gamma o) (to_grads o) (to_hess o) (to_y o) (to_in o) (to_val o) m (to_indexes o).
(** training options with another number of rounds *)
Definition withRounds (O : Options) (n : Z) : Options :=
  MkOpts (o_xgb O) n (o_maxdepth O) (o_earlystop O) (o_lr O) (o_lambda O) (o_mcw O) (o_gamma O) (o_ss O) (o_css O)
         (o_base O) (o_minsample O) (o_method O) (o_verbose O) (o_loss O).
(** the table with a last column that is constant *)
Definition addColumn (X : list (list f64)) (c : f64) : list (list f64) := map (fun row => row ++ [c]) X.
(** the model with its class labels renamed *)
Definition renameModel (f : Z -> Z) (M : MultiClass) : MultiClass := MkMC (mc_b M) (mc_lr M) (map f (mc_labels M)) (mc_pt M) (mc_base M) (mc_xgb M).
(** the table with a further last column *)
Definition appendColumn (X : list (list f64)) (col : list f64) : list (list f64) := map (fun p => fst p ++ [snd p]) (combine X col).
(** [col] has one value per row and orders the rows like column [f] of [X] does: a copy of that column, the same
    quantity in other units, a logarithm of it, ... *)
Definition followsColumn (X : list (list f64)) (f : Z) (col : list f64) : Prop :=
  length col = length X /\ (forall v, In v col -> fnanb v = false) /\ (forall i a, cell X i f a -> fnanb a = false) /\
  forall i j a b v w, cell X i f a -> cell X j f b -> look col i v -> look col j w -> fltb v w = fltb a b.
