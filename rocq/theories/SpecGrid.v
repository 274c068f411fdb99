(** Specification vocabulary for the grid search. *)
From Verif Require Import Base F64 Env Utils Tree Options Train Spec CV SpecCV Grid.
Open Scope Z_scope.

(** [l] holds the values lo, lo+step, lo+step+step, ... that are not above [hi], up to the first one that is *)
Inductive progression {A} (le : A -> A -> bool) (add : A -> A -> A) (hi step : A) : A -> list A -> Prop :=
| pr_end x : le x hi = false -> progression le add hi step x []
| pr_more x l : le x hi = true -> progression le add hi step (add x step) l -> progression le add hi step x (x :: l).
Definition rangeZ (r : range Z) (l : list Z) : Prop := progression Z.leb Z.add (r_hi r) (r_step r) (r_lo r) l.
Definition rangeF (r : range f64) (l : list f64) : Prop := progression fleb fadd (r_hi r) (r_step r) (r_lo r) l.

(** the values of the eight hyperparameters *)
Record axes : Type := MkAxes { x_rounds : list Z; x_mcw : list f64; x_md : list Z; x_css : list f64;
                               x_lr : list f64; x_lam : list f64; x_gam : list f64; x_ss : list f64 }.
Definition axesOf (o : GridOptions) (a : axes) : Prop :=
  rangeZ (g_rounds o) (x_rounds a) /\ rangeF (g_mcw o) (x_mcw a) /\ rangeZ (g_maxdepth o) (x_md a) /\ rangeF (g_css o) (x_css a) /\
  rangeF (g_lr o) (x_lr a) /\ rangeF (g_lambda o) (x_lam a) /\ rangeF (g_gamma o) (x_gam a) /\ rangeF (g_ss o) (x_ss a).
(** all combinations, the last hyperparameter varying fastest *)
Definition combinations (a : axes) : list (Z * f64 * Z * f64 * f64 * f64 * f64 * f64) :=
  flat_map (fun rounds => flat_map (fun cw => flat_map (fun md => flat_map (fun css => flat_map (fun lr =>
  flat_map (fun lam => flat_map (fun gam => map (fun ss => (rounds, cw, md, css, lr, lam, gam, ss))
   (x_ss a)) (x_gam a)) (x_lam a)) (x_lr a)) (x_css a)) (x_md a)) (x_mcw a)) (x_rounds a).
(** [t] is the option record for combination [c]: the eight hyperparameters, XGB and EarlyStop of the grid, all else as in
    the default options *)
Definition isPoint (id : Z) (o : GridOptions) (c : Z * f64 * Z * f64 * f64 * f64 * f64 * f64) (t : Options) : Prop :=
  let d := if g_xgb o then DefaultXOptions id else DefaultGOptions id in
  c = (o_rounds t, o_mcw t, o_maxdepth t, o_css t, o_lr t, o_lambda t, o_gamma t, o_ss t) /\
  o_xgb t = g_xgb o /\ o_earlystop t = g_earlystop o /\
  (o_base t, o_minsample t, o_method t, o_verbose t, o_loss t) = (o_base d, o_minsample d, o_method d, o_verbose d, o_loss d).
(** the eight hyperparameters of [t] are within the bounds of the grid *)
Definition inBounds (o : GridOptions) (t : Options) : Prop :=
  o_rounds t <= r_hi (g_rounds o) /\ o_maxdepth t <= r_hi (g_maxdepth o) /\
  fleb (o_mcw t) (r_hi (g_mcw o)) = true /\ fleb (o_css t) (r_hi (g_css o)) = true /\ fleb (o_lr t) (r_hi (g_lr o)) = true /\
  fleb (o_lambda t) (r_hi (g_lambda o)) = true /\ fleb (o_gamma t) (r_hi (g_gamma o)) = true /\ fleb (o_ss t) (r_hi (g_ss o)) = true /\
  (0 <= r_step (g_rounds o) -> r_lo (g_rounds o) <= o_rounds t) /\ (0 <= r_step (g_maxdepth o) -> r_lo (g_maxdepth o) <= o_maxdepth t) /\
  (fleb fzero (r_step (g_mcw o)) = true -> fleb (r_lo (g_mcw o)) (o_mcw t) = true) /\
  (fleb fzero (r_step (g_css o)) = true -> fleb (r_lo (g_css o)) (o_css t) = true) /\
  (fleb fzero (r_step (g_lr o)) = true -> fleb (r_lo (g_lr o)) (o_lr t) = true) /\
  (fleb fzero (r_step (g_lambda o)) = true -> fleb (r_lo (g_lambda o)) (o_lambda t) = true) /\
  (fleb fzero (r_step (g_gamma o)) = true -> fleb (r_lo (g_gamma o)) (o_gamma t) = true) /\
  (fleb fzero (r_step (g_ss o)) = true -> fleb (r_lo (g_ss o)) (o_ss t) = true).

(** the outcome of evaluating a combination: [None] for an error or a negative accuracy, otherwise the accuracy and the
    option record after training *)
Definition outcomeIs (r : cvRet) (out : option (f64 * option Options)) : Prop :=
  match out with
  | None => cv_err r = true \/ fltb (cv_acc r) fzero = true
  | Some (a, op) => cv_err r = false /\ cv_acc r = a /\ fltb a fzero = false /\ cv_opts r = op
  end.
(** [best] and [fin] are the first maximum among the positive accuracies, 0 and nil if there is none *)
Definition firstBest (outs : list (f64 * option Options)) (best : f64) (fin : option Options) : Prop :=
  (best = fzero /\ fin = None /\ forall a op, In (a, op) outs -> fltb fzero a = false) \/
  exists k, nth_error outs k = Some (best, fin) /\ fltb fzero best = true /\
    (forall a op, In (a, op) outs -> fltb best a = false) /\
    (forall j a op, (j < k)%nat -> nth_error outs j = Some (a, op) -> fleb best a = false).
(** every hyperparameter has a value: some combination exists *)
Definition nonemptyGrid (o : GridOptions) : Prop :=
  r_lo (g_rounds o) <= r_hi (g_rounds o) /\ fleb (r_lo (g_mcw o)) (r_hi (g_mcw o)) = true /\ r_lo (g_maxdepth o) <= r_hi (g_maxdepth o) /\
  fleb (r_lo (g_css o)) (r_hi (g_css o)) = true /\ fleb (r_lo (g_lr o)) (r_hi (g_lr o)) = true /\ fleb (r_lo (g_lambda o)) (r_hi (g_lambda o)) = true /\
  fleb (r_lo (g_gamma o)) (r_hi (g_gamma o)) = true /\ fleb (r_lo (g_ss o)) (r_hi (g_ss o)) = true.
(** the step of some hyperparameter leads nowhere: not positive for an integer, too small to change a float *)
Definition stepStuck (o : GridOptions) : Prop :=
  let stuckF (r : range f64) := fadd (r_lo r) (r_step r) = r_lo r in
  r_step (g_rounds o) <= 0 \/ stuckF (g_mcw o) \/ r_step (g_maxdepth o) <= 0 \/ stuckF (g_css o) \/ stuckF (g_lr o) \/ stuckF (g_lambda o) \/
  stuckF (g_gamma o) \/ stuckF (g_ss o).
(** the outcome of the k-th of the combinations [pts] *)
Definition outcomeAt (eval : nat -> Options -> res cvRet) (pts : list Options) (k : nat) (out : option (f64 * option Options)) : Prop :=
  exists t r, nth_error pts k = Some t /\ eval k t = Ok r /\ outcomeIs r out.
(** an evaluation reports, in this order, an error, an accuracy and options, and they are those it returns *)
Definition sentShape (r : cvRet) : Prop :=
  cv_sent r = if cv_err r then [SErr true; SAcc (fofZ (-1)); SOpt None] else [SErr false; SAcc (cv_acc r); SOpt (cv_opts r)].
Definition evalShape (eval : nat -> Options -> res cvRet) : Prop := forall k t r, eval k t = Ok r -> sentShape r.
