(** Vocabulary for base scores that are too far from zero (C167). *)
From Verif Require Import Base F64 Env Utils Tree Options Train Spec.
Open Scope Z_scope.

(** [b] is not zero and has no useful exponential: it is NaN, too large (exp gives +Inf) or too small (exp gives 0) *)
Definition farScore (E : Env) (b : f64) : Prop :=
  feqb b fzero = false /\ (fnanb b = true \/ e_exp E b = finf \/ feqb (e_exp E b) fzero = true).

(** [t] is a single leaf that knows nothing: its value is NaN or, if it was grown without any row, perhaps 0 *)
Definition blankLeaf (t : tree) : Prop :=
  exists d, t = Node d Nil Nil /\ t_leaf d = true /\
    (fnanb (t_value d) = true \/ (samplesOf d = [] /\ feqb (t_value d) fzero = true)).

(** [O] with another BaseScore *)
Definition withBase (O : Options) (b : f64) : Options :=
  MkOpts (o_xgb O) (o_rounds O) (o_maxdepth O) (o_earlystop O) (o_lr O) (o_lambda O) (o_mcw O) (o_gamma O) (o_ss O)
         (o_css O) b (o_minsample O) (o_method O) (o_verbose O) (o_loss O).
