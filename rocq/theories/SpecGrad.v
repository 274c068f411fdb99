(** Specification vocabulary for the gradient searches. *)
From Verif Require Import Base F64 Env Utils Tree Options Train Spec CV SpecCV Grid SpecGrid Grad GradConc.
Open Scope Z_scope.

(** a copy of an option record: Options.Clone leaves out EarlyStop and fixes TreeMethod *)
Definition copyOf (o c : Options) : Prop :=
  (o_xgb c, o_rounds c, o_maxdepth c, o_lr c, o_lambda c, o_mcw c, o_gamma c, o_ss c, o_css c, o_base c, o_minsample c, o_verbose c, o_loss c) =
  (o_xgb o, o_rounds o, o_maxdepth o, o_lr o, o_lambda o, o_mcw o, o_gamma o, o_ss o, o_css o, o_base o, o_minsample o, o_verbose o, o_loss o).
(** the six parameters of the gradient search *)
Definition paramOf (p : param) (o : Options) : f64 + Z :=
  match p with
  | PGamma => inl (o_gamma o) | PLambda => inl (o_lambda o) | PSubSample => inl (o_ss o) | PColSubSample => inl (o_css o) | PLearningRate => inl (o_lr o)
  | PRounds => inr (o_rounds o) | PCurr => inr 0 | POther => inr 0
  end.
(** every other field *)
Definition othersOf (o : Options) := (o_xgb o, o_maxdepth o, o_earlystop o, o_mcw o, o_base o, o_minsample o, o_method o, o_verbose o, o_loss o).
(** [a] is [b] except for parameter [p] *)
Definition sameBut (p : param) (a b : Options) : Prop := othersOf a = othersOf b /\ forall q, q <> p -> paramOf q a = paramOf q b.
(** within a range; a NaN is within every range, as for the library *)
Definition inF (x : f64) (r : range f64) : Prop := fltb x (r_lo r) = false /\ fltb (r_hi r) x = false.
Definition inZ (x : Z) (r : range Z) : Prop := r_lo r <= x <= r_hi r.
(** [o] is in the search box of the grid options *)
Definition inBox (co : GridOptions) (o : Options) : Prop :=
  inZ (o_rounds o) (g_rounds co) /\ inF (o_lr o) (g_lr co) /\ inF (o_ss o) (g_ss co) /\ inF (o_css o) (g_css co) /\ inF (o_lambda o) (g_lambda co) /\
  inF (o_mcw o) (g_mcw co) /\ inF (o_gamma o) (g_gamma co) /\ inZ (o_maxdepth o) (g_maxdepth co) /\ 1 <= o_minsample o.

(** a strictly increasing list of positive accuracies *)
Fixpoint increasing (lo : f64) (l : list f64) : Prop := match l with [] => True | a :: t => fltb lo a = true /\ increasing a t end.
(** [o'] is [o] with parameter [p] raised or lowered by the fraction [fd] (for Rounds: truncated) *)
Definition shifted (fd : f64) (up : bool) (p : param) (o o' : Options) : Prop :=
  sameBut p o' o /\
  let ch x := if up then fadd x (fmul x fd) else fsub x (fmul x fd) in
  match p with
  | PGamma => o_gamma o' = ch (o_gamma o) | PLambda => o_lambda o' = ch (o_lambda o) | PSubSample => o_ss o' = ch (o_ss o)
  | PColSubSample => o_css o' = ch (o_css o) | PLearningRate => o_lr o' = ch (o_lr o)
  | PRounds => o_rounds o' = if up then o_rounds o + ftoZ (fmul (fofZ (o_rounds o)) fd) else o_rounds o - ftoZ (fmul (fofZ (o_rounds o)) fd)
  | _ => True
  end.
(** true counts 1 *)
Definition b2n (b : bool) : nat := if b then 1%nat else 0%nat.
(** cross-validations report what they return *)
Definition parShape (evs : param -> bool -> Options -> res cvRet) : Prop := forall p up o r, evs p up o = Ok r -> sentShape r.
(** every parameter step that has begun in state [s] sends exactly one record *)
Definition sendOnce (fuel : nat) (evs : param -> bool -> Options -> res cvRet) (co : GridOptions) (step fd curr : f64) (central : bool) (s : gst) : Prop :=
  forall p src o l, m_ws s p = PRun src o l -> forall sent, ParamaterGradStep fuel (evs p) co p step fd curr central src = Ok sent -> length sent = 1%nat.
(** what the two searches promise. [cv k o] is the k-th cross-validation they make, of options [o]; the ghost list of the result
    holds the options before and after, and the accuracy *)
Definition searchOk (cv : nat -> Options -> res cvRet) (r : ggRet) : Prop :=
  (* every listed evaluation is that cross-validation *)
  (forall k o o' a, nth_error (gg_evals r) k = Some (o, o', a) ->
     exists c, cv k o = Ok c /\ cv_err c = false /\ cv_acc c = a /\ o' = match cv_opts c with Some x => x | None => o end) /\
  if gg_err r then gg_acc r = fofZ (-1) /\ gg_accuracies r = [] /\ gg_opts r = None /\
    exists o c, cv (length (gg_evals r)) o = Ok c /\ cv_err c = true
  else
    increasing fzero (gg_accuracies r) /\ gg_acc r = last (gg_accuracies r) fzero /\ (gg_opts r = None <-> gg_accuracies r = []) /\
    (* the best accuracy is the maximum *)
    (forall o o' a, In (o, o', a) (gg_evals r) -> fltb (gg_acc r) a = false) /\
    (forall a, In a (gg_accuracies r) -> exists o o', In (o, o', a) (gg_evals r)).
(** [r] has evaluated options that satisfy [P] *)
Definition evaluated (r : ggRet) (P : Options -> Prop) : Prop := exists o o' a, In (o, o', a) (gg_evals r) /\ P o.
(** the middle of a range *)
Definition midF (r : range f64) : f64 := fdiv (fadd (r_lo r) (r_hi r)) ftwo.
Definition midZ (r : range Z) : Z := Z.quot (r_lo r + r_hi r) 2.
(** the fields that are never searched, as in the default options *)
Definition restOf (id : Z) (o : GridOptions) (t : Options) : Prop :=
  let d := if g_xgb o then DefaultXOptions id else DefaultGOptions id in
  o_xgb t = g_xgb o /\ (o_base t, o_minsample t, o_method t, o_verbose t, o_loss t) = (o_base d, o_minsample d, o_method d, o_verbose d, o_loss d).
(** where GradientGrid starts for a MinChildWeight and a MaxDepth: the middle of the other ranges, the default EarlyStop *)
Definition isGradStart (id : Z) (o : GridOptions) (cw : f64) (md : Z) (t : Options) : Prop :=
  (o_rounds t, o_mcw t, o_maxdepth t, o_lr t, o_lambda t, o_gamma t, o_ss t, o_css t) =
  (midZ (g_rounds o), cw, md, midF (g_lr o), midF (g_lambda o), midF (g_gamma o), midF (g_ss o), midF (g_css o)) /\
  o_earlystop t = o_earlystop (if g_xgb o then DefaultXOptions id else DefaultGOptions id) /\ restOf id o t.
(** where HybridGradientGrid starts for Rounds, MinChildWeight, MaxDepth and Lambda *)
Definition isHybridStart (id : Z) (o : GridOptions) (rounds : Z) (cw : f64) (md : Z) (lam : f64) (t : Options) : Prop :=
  (o_rounds t, o_mcw t, o_maxdepth t, o_lr t, o_lambda t, o_gamma t, o_ss t, o_css t) =
  (rounds, cw, md, midF (g_lr o), midF (MkRange (fsub lam (r_step (g_lambda o))) (fadd lam (r_step (g_lambda o))) fzero), midF (g_gamma o), midF (g_ss o), midF (g_css o)) /\
  o_earlystop t = g_earlystop o /\ restOf id o t.
(** grid options that differ at most in EarlyStop, NCPUs and printing *)
Definition sameSearch (o o' : GridOptions) : Prop :=
  (g_xgb o, g_rounds o, g_maxdepth o, g_lr o, g_gamma o, g_lambda o, g_ss o, g_css o, g_mcw o, g_step o, g_delta o, g_nsteps o, g_central o) =
  (g_xgb o', g_rounds o', g_maxdepth o', g_lr o', g_gamma o', g_lambda o', g_ss o', g_css o', g_mcw o', g_step o', g_delta o', g_nsteps o', g_central o').
(** [t] is between [f - q |f|] and [f + q |f|], computed in float64 *)
Definition fuzzed (q f t : f64) : Prop := fleb (fsub f (fmul q (Babs f))) t = true /\ fleb t (fadd f (fmul q (Babs f))) = true.
