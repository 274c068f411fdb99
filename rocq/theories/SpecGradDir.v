(** Specification vocabulary: where a gradient step moves a parameter. *)
From Verif Require Import Base F64 Env Utils Tree Options Train Spec CV SpecCV Grid SpecGrid Grad SpecGrad.
Open Scope Z_scope.

(** the value of a parameter as a float *)
Definition valueOf (p : param) (o : Options) : f64 := match paramOf p o with inl x => x | inr n => fofZ n end.
(** the third entry of the parameter's range *)
Definition gridStepOf (co : GridOptions) (p : param) : f64 :=
  match p with
  | PGamma => r_step (g_gamma co) | PLambda => r_step (g_lambda co) | PSubSample => r_step (g_ss co) | PColSubSample => r_step (g_css co)
  | PLearningRate => r_step (g_lr co) | PRounds => fofZ (r_step (g_rounds co)) | _ => fzero
  end.
(** [v] is [c] with [d] added to parameter [p]; for Rounds [d] is truncated to an integer *)
Definition movedBy (p : param) (d : f64) (c v : Options) : Prop :=
  sameBut p v c /\
  match paramOf p c, paramOf p v with inl x, inl y => y = fadd x d | inr n, inr m => m = n + ftoZ d | _, _ => False end.
(** [step] reduced [k] times by a fifth *)
Fixpoint reduced (step : f64) (k : nat) : f64 := match k with O => step | S n => fsub (reduced step n) (fmul (reduced step n) (fdec 2 10)) end.
(** the k-th trial: [c] moved along the derivative [der] *)
Definition trial (co : GridOptions) (p : param) (der step : f64) (c : Options) (k : nat) (w : Options) : Prop :=
  movedBy p (fmul (fmul der (gridStepOf co p)) (reduced step k)) c w.
(** [v] is the first trial in the box, among those with more than a tenth of the step; [c] itself if there is none *)
Definition firstInBox (co : GridOptions) (p : param) (der step : f64) (c v : Options) : Prop :=
  exists k, (forall j, (j < k)%nat -> fltb (fmul (fdec 1 10) step) (reduced step j) = true /\ forall w, trial co p der step c j w -> ~ inBox co w) /\
    (fltb (fmul (fdec 1 10) step) (reduced step k) = true /\ trial co p der step c k v /\ inBox co v \/
     fltb (fmul (fdec 1 10) step) (reduced step k) = false /\ v = c).
(** the accuracy a cross-validation reports: -1 with an error *)
Definition accOf (r : cvRet) : f64 := if cv_err r then fofZ (-1) else cv_acc r.
(** the six parameters of the gradient search *)
Definition searched (p : param) : Prop := p <> PCurr /\ p <> POther.
(** [new] is not below [old] if [better] is at least [base], and not above it if [better] is at most [base]; a NaN is
    possible *)
Definition follows (base better : f64) (old new : f64 + Z) : Prop :=
  match old, new with
  | inl x, inl y => (fleb base better = true -> fnanb y = true \/ fleb x y = true) /\ (fleb better base = true -> fnanb y = true \/ fleb y x = true)
  | inr n, inr m => (fleb base better = true -> n <= m) /\ (fleb better base = true -> m <= n)
  | _, _ => False
  end.
