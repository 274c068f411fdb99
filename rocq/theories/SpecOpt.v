(** Specification vocabulary: which options a training depends on. *)
From Verif Require Import Base F64 Env Utils Tree Options Train Spec.
Open Scope Z_scope.

(** the number of samples a MinChildWeight asks for on either side of a split *)
Definition askedWeight (m : f64) : Z := if fltb m fone then 1 else ftoZ m.
(** two numbers that are equal, or both out of force *)
Definition sameOrOff (a b : Z) : Prop := a = b \/ (a <= 0 /\ b <= 0).
(** two sub-sampling fractions that are equal, or neither of which sub-samples *)
Definition sameOrAll (a b : f64) : Prop := a = b \/ (fltb a fone = false /\ fltb b fone = false).
(** option records that ask for the same training *)
Record sameTraining (O O' : Options) : Prop := {
  st_xgb : o_xgb O = o_xgb O';
  st_rounds : sameOrOff (o_rounds O) (o_rounds O');
  st_depth : sameOrOff (o_maxdepth O) (o_maxdepth O');
  st_stop : sameOrOff (o_earlystop O) (o_earlystop O');
  st_min : sameOrOff (o_minsample O) (o_minsample O');
  st_lr : o_lr O = o_lr O';
  st_base : o_base O = o_base O';
  st_loss : o_loss O = o_loss O';
  st_mcw : askedWeight (o_mcw O) = askedWeight (o_mcw O');
  st_xgbonly : o_xgb O = true -> o_lambda O = o_lambda O' /\ o_gamma O = o_gamma O' /\ sameOrAll (o_ss O) (o_ss O') /\ sameOrAll (o_css O) (o_css O')
}.
(** a training that draws no random numbers *)
Definition noDraws (O : Options) : Prop := o_xgb O = false \/ (fltb (o_ss O) fone = false /\ fltb (o_css O) fone = false).
(** what a training call gives back: the model with the trees of each round and class, or how it failed *)
Definition resultOf (r : res trained) : res (MultiClass * list (list entryG)) :=
  match r with Ok tr => Ok (tr_model tr, tr_hist tr) | Panic => Panic | Diverge => Diverge end.
