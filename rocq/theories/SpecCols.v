(** Specification vocabulary: tables whose columns are in another order. *)
From Verif Require Import Base F64 Env Utils Tree Options Train Spec SpecTrain.
Open Scope Z_scope.

(** [s] puts the [n] columns in another order: column [f] becomes column [s f] *)
Definition reorders (n : nat) (s : Z -> Z) : Prop :=
  (forall f, 0 <= f < Z.of_nat n -> 0 <= s f < Z.of_nat n) /\ forall g, 0 <= g < Z.of_nat n -> exists f, 0 <= f < Z.of_nat n /\ s f = g.
(** a row and the same row with its columns in the other order *)
Definition movedRow (n : nat) (s : Z -> Z) (row row' : list f64) : Prop :=
  length row = n /\ length row' = n /\ forall f v, look row f v -> look row' (s f) v.
Definition movedColumns (n : nat) (s : Z -> Z) (X X' : list (list f64)) : Prop := Forall2 (movedRow n s) X X'.
(** the same set of columns after the move; the empty list stands for all columns *)
Definition movedSet (n : nat) (s : Z -> Z) (A A' : list Z) : Prop :=
  (A = [] <-> A' = []) /\ forall f, 0 <= f < Z.of_nat n -> (In f A <-> In (s f) A').
(** tree options that only differ in the columns that may be used *)
Definition withColumns (o : TreeOptions) (A : list Z) : TreeOptions :=
  MkTO (to_xgb o) (to_mcw o) A (to_lambda o) (to_gamma o) (to_grads o) (to_hess o) (to_y o) (to_in o) (to_val o) (to_maxdepth o) (to_indexes o).

(** the tree with the columns of its tests renamed *)
Fixpoint moveTree (s : Z -> Z) (t : tree) : tree :=
  match t with
  | Nil => Nil
  | Node d l r => Node (MkT (t_samples d) (t_best d) (t_value d) (t_nsamples d) (if t_leaf d then t_split d else s (t_split d)) (t_thr d) (t_xgb d) (t_branches d))
                       (moveTree s l) (moveTree s r)
  end.
Definition moveModel (s : Z -> Z) (M : MultiClass) : MultiClass :=
  MkMC (map (map (moveTree s)) (mc_b M)) (mc_lr M) (mc_labels M) (mc_pt M) (mc_base M) (mc_xgb M).

(** in no node of [t] does a column other than the one chosen reach the score of the chosen split; the root may use the
    columns [A], the other nodes all columns *)
Fixpoint noTies (E : Env) (X : list (list f64)) (o : TreeOptions) (n : nat) (A : list Z) (t : tree) : Prop :=
  match t with
  | Nil => True
  | Node d l r =>
      (t_leaf d = false -> forall f j sc thr, 0 <= f < Z.of_nat n -> (A = [] \/ In f A) -> candidate E X o (samplesOf d) f j sc thr ->
         feqb sc (t_best d) = true -> f = t_split d) /\
      noTies E X o n [] l /\ noTies E X o n [] r
  end.

(** the options of the tree that a round with draws [rd] grows from the labels [lab] and the probabilities [pr] (see [fitted]) *)
Definition fittedOptions (O : Options) (data : list (list f64)) (rd : (nat -> f64) * (nat -> f64)) (lab pr : list f64) (o : TreeOptions) : Prop :=
  if o_xgb O then
    (to_xgb o, to_mcw o, to_lambda o, to_gamma o, to_maxdepth o) = (true, o_mcw O, o_lambda O, o_gamma O, o_maxdepth O) /\
    to_grads o = Some (l_grad (o_loss O) lab pr) /\ to_hess o = Some (l_hess (o_loss O) pr) /\
    if fltb (o_css O) fone
    then exists row0, nth_error data 0 = Some row0 /\ to_allowed o = map Z.of_nat (filter (fun i => fleb (snd rd i) (o_css O)) (seq 0 (length row0)))
    else to_allowed o = []
  else (to_xgb o, to_mcw o, to_allowed o, to_maxdepth o) = (false, o_mcw O, [], o_maxdepth O) /\ to_y o = l_neg (o_loss O) lab pr.
(** no tree of the training has ties between columns *)
Definition noTiesTraining {K} (E : Env) (rnd : draws) (D : DataBunch K) (n : nat) (tr : trained) : Prop :=
  forall es1 e es2 lab pr o, concat (tr_hist tr) = es1 ++ e :: es2 ->
    indicator (Labels D) (ClassLabels (tr_model tr)) (g_class e) lab -> length pr = length (Labels D) ->
    probsAt E (tr_opts tr) (Data D) (length (ClassLabels (tr_model tr))) es1 (g_class e) pr ->
    fittedOptions (tr_opts tr) (Data D) (rnd (g_round e)) lab pr o -> noTies E (Data D) o n (to_allowed o) (g_tree e).
(** the same draws, those for columns following the columns *)
Definition movedDraws (n : nat) (s : Z -> Z) (rnd rnd' : draws) : Prop :=
  forall r, (forall i, fst (rnd' r) i = fst (rnd r) i) /\
            forall f, 0 <= f < Z.of_nat n -> snd (rnd' r) (Z.to_nat (s f)) = snd (rnd r) (Z.to_nat f).
