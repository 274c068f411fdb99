(** Specification vocabulary for training and ensemble prediction. *)
From Verif Require Import Base F64 Env Utils Tree Options Train Spec.
Open Scope Z_scope.

(** [v] is [start] plus the learning-rate scaled predictions of the trees [ts] for [row], added one after the other *)
Definition accumulated (lr : f64) (row : list f64) (start : f64) (ts : list tree) (v : f64) : Prop :=
  exists ps, Forall2 (fun t p => PredictSingle t row = Ok p) ts ps /\
             v = fold_left (fun a p => fadd a (fmul p lr)) ps start.

(** the trees stored at position [j] of each round *)
Definition positionTrees (b : list (list tree)) (j : nat) : list tree :=
  flat_map (fun ens => match nth_error ens j with Some t => [t] | None => [] end) b.
(** the trees trained for class [k], in order *)
Definition classTrees (es : list entryG) (k : nat) : list tree :=
  map g_tree (filter (fun e => Nat.eqb (g_class e) k) es).

(** the (round, loss) pairs of class [k], in order *)
Definition lossesOf (es : list entryG) (k : nat) : list (nat * f64) :=
  map (fun e => (g_round e, g_loss e)) (filter (fun e => Nat.eqb (g_class e) k) es).
(** the loss before the j-th one: 0 when there is none *)
Definition lossBefore (L : list (nat * f64)) (j : nat) : f64 :=
  match j with O => fzero | S j' => match nth_error L j' with Some (_, l) => l | None => fzero end end.
(** the j-th loss of a class is not an improvement; the loss of round 0 has nothing to be compared to *)
Definition stalled (L : list (nat * f64)) (j : nat) : Prop :=
  exists r l, nth_error L j = Some (r, l) /\ r <> O /\ fleb (lossBefore L j) l = true.
(** after its first [n] losses a class has to stop: the last one is below the threshold or the last [es] ones stalled *)
Definition mustStop (es : Z) (L : list (nat * f64)) (n : nat) : Prop :=
  (exists r l, (0 < n)%nat /\ nth_error L (n - 1) = Some (r, l) /\ fleb l epsilon = true) \/
  (es <= Z.of_nat n /\ forall j, (n - Z.to_nat es <= j < n)%nat -> stalled L j).

(** how many rows are sub-sampled in a round with row draws [draw] *)
Definition sampledRows (O : Options) (n : nat) (draw : nat -> f64) : Z :=
  if fltb (o_ss O) fone && o_xgb O
  then Z.of_nat (length (filter (fun i => fleb (draw i) (o_ss O)) (seq 0 n)))
  else 0.

(** [t'] is [t] with other values in its leaves: the new value of a leaf with samples [ix] is
    (sum of grad over ix) / (sum of hess over ix), sums taken left to right from 0 *)
Inductive leavesUpdated (grad hess : list f64) : tree -> tree -> Prop :=
| lu_nil : leavesUpdated grad hess Nil Nil
| lu_inner d l r l' r' : t_leaf d = false -> leavesUpdated grad hess l l' -> leavesUpdated grad hess r r' ->
    leavesUpdated grad hess (Node d l r) (Node d l' r')
| lu_leaf d d' l r l' r' ix gs hs : t_leaf d = true -> t_samples d = Some ix ->
    Forall2 (look grad) ix gs -> Forall2 (look hess) ix hs ->
    t_value d' = fdiv (fold_left fadd gs fzero) (fold_left fadd hs fzero) ->
    (t_samples d', t_best d', t_nsamples d', t_split d', t_thr d', t_xgb d', t_branches d') =
    (t_samples d, t_best d, t_nsamples d, t_split d, t_thr d, t_xgb d, t_branches d) ->
    leavesUpdated grad hess l l' -> leavesUpdated grad hess r r' ->
    leavesUpdated grad hess (Node d l r) (Node d' l' r').

(** [k] is the position of the first maximum of [l] *)
Definition firstMax (l : list f64) (k : Z) : Prop :=
  exists m, look l k m /\ (forall x, In x l -> fleb x m = true) /\
            forall j x, 0 <= j < k -> look l j x -> fltb x m = true.

(** class [k] has met the stopping criterion somewhere in the history [es] *)
Definition hasStopped (O : Options) (es : list entryG) (k : nat) : Prop :=
  0 < o_earlystop O /\
  exists n, (n <= length (lossesOf es k))%nat /\ mustStop (o_earlystop O) (lossesOf es k) n.

(** [pr] holds, for each training row, the SoftMax probability of class [k] when the score of class [j] is BaseScore plus
    the scaled predictions of the trees in [es] that were trained for [j] *)
Definition probsAt (E : Env) (O : Options) (data : list (list f64)) (nl : nat) (es : list entryG) (k : nat) (pr : list f64) : Prop :=
  forall i row, nth_error data i = Some row -> exists scores ps v,
    length scores = nl /\
    (forall j, (j < nl)%nat -> exists s, nth_error scores j = Some s /\ accumulated (o_lr O) row (o_base O) (classTrees es j) s) /\
    SoftMax E scores (repeat fzero nl) = Ok ps /\ nth_error ps k = Some v /\ nth_error pr i = Some v.

(** the 0/1 vector of the rows that carry the [k]-th distinct label *)
Definition indicator (labels classes : list Z) (k : nat) (lab : list f64) : Prop :=
  length lab = length labels /\
  forall i y c, nth_error labels i = Some y -> nth_error classes k = Some c ->
    nth_error lab i = Some (if c =? y then fone else fzero).

(** [t] is a tree grown for class [k] in a round with row and column draws [rd] from the loss derivatives at [pr] *)
Definition fitted (E : Env) (O : Options) (data : list (list f64)) (rd : (nat -> f64) * (nat -> f64)) (lab pr : list f64) (t : tree) : Prop :=
  let n := length data in
  if o_xgb O then
    exists rows cols topts,
      (if fltb (o_ss O) fone then rows = Some (map Z.of_nat (filter (fun i => fleb (fst rd i) (o_ss O)) (seq 0 n))) else rows = None) /\
      (if fltb (o_css O) fone
       then exists row0, nth_error data 0 = Some row0 /\ cols = map Z.of_nat (filter (fun i => fleb (snd rd i) (o_css O)) (seq 0 (length row0)))
       else cols = []) /\
      (to_xgb topts, to_mcw topts, to_allowed topts, to_lambda topts, to_gamma topts, to_maxdepth topts, to_indexes topts) =
      (true, o_mcw O, cols, o_lambda O, o_gamma O, o_maxdepth O, rows) /\
      to_grads topts = Some (l_grad (o_loss O) lab pr) /\ to_hess topts = Some (l_hess (o_loss O) pr) /\
      NewTree E data topts = Ok t
  else
    exists topts t0,
      (to_xgb topts, to_mcw topts, to_allowed topts, to_maxdepth topts, to_indexes topts) = (false, o_mcw O, [], o_maxdepth O, None) /\
      to_y topts = l_neg (o_loss O) lab pr /\
      NewTree E data topts = Ok t0 /\ leavesUpdated (l_neg (o_loss O) lab pr) (l_hess (o_loss O) pr) t0 t.

(** [l] is the label the model predicts for [row] *)
Definition predictsLabel (M : MultiClass) (row : list f64) (l : Z) : Prop :=
  exists k b b', PredictSingleClass M row b = Ok (k, b') /\ look (ClassLabels M) k l.
