(** Specification vocabulary for C135: options that restrict the growth of a tree. *)
From Verif Require Import Base F64 Env Utils Tree Spec.
Open Scope Z_scope.

(** [o'] is [o] with a MinChildWeight and a Gamma that are at least as large; depth, samples and columns may differ as well *)
Definition harsher (o o' : TreeOptions) : Prop :=
  to_xgb o' = to_xgb o /\ to_grads o' = to_grads o /\ to_hess o' = to_hess o /\ to_y o' = to_y o /\ to_lambda o' = to_lambda o /\
  ftoZ (to_mcw o) <= ftoZ (to_mcw o') /\ (to_xgb o = true -> fleb (to_gamma o) (to_gamma o') = true).
(** [o] with another Lambda *)
Definition withLambda (o : TreeOptions) (l : f64) : TreeOptions :=
  MkTO (to_xgb o) (to_mcw o) (to_allowed o) l (to_gamma o) (to_grads o) (to_hess o) (to_y o) (to_in o) (to_val o) (to_maxdepth o) (to_indexes o).
(** [o] with another Gamma *)
Definition withGamma (o : TreeOptions) (g : f64) : TreeOptions :=
  MkTO (to_xgb o) (to_mcw o) (to_allowed o) (to_lambda o) g (to_grads o) (to_hess o) (to_y o) (to_in o) (to_val o) (to_maxdepth o) (to_indexes o).
(** [o] with another MinChildWeight *)
Definition withMCW (o : TreeOptions) (w : f64) : TreeOptions :=
  MkTO (to_xgb o) w (to_allowed o) (to_lambda o) (to_gamma o) (to_grads o) (to_hess o) (to_y o) (to_in o) (to_val o) (to_maxdepth o) (to_indexes o).
(** the absolute value *)
Definition magnitude (v : f64) : f64 := if fltb v fzero then fopp v else v.
