(** Model of options.go. *)
From Coq Require Import String.
From Verif Require Import Base F64 Utils.
Open Scope Z_scope.

(** options.go:10-27 [Options]. A LossFunc value is a pointer to a loss object; [l_name] is the identity of the
    object it points to. *)
Record Options : Type := MkOpts {
  o_xgb : bool;
  o_rounds : Z;
  o_maxdepth : Z;
  o_earlystop : Z;
  o_lr : f64;           (** LearningRate *)
  o_lambda : f64;
  o_mcw : f64;          (** MinChildWeight *)
  o_gamma : f64;
  o_ss : f64;           (** SubSample *)
  o_css : f64;          (** ColSubSample *)
  o_base : f64;         (** BaseScore *)
  o_minsample : Z;
  o_method : string;    (** TreeMethod *)
  o_verbose : bool;
  o_loss : LossFunc
}.

(** decimal literals of options.go, as the nearest float64: [num/den] correctly rounded *)
Definition fdec (num den : Z) : f64 := fdiv (fofZ num) (fofZ den).

(** options.go:31-49; [loss] is the object allocated by [&utils.SQErrLoss{}] *)
Definition DefaultXOptions (id : Z) : Options :=
  MkOpts true 20 5 10 (fdec 3 10) (fdec 3 2) (fofZ 3) (fdec 2 10) (fdec 8 10) (fdec 8 10) (fdec 5 10) 5
         "exact" false (SQErrLoss id).
(** options.go:121-131; the fields not mentioned keep Go's zero values *)
Definition DefaultGOptions (id : Z) : Options :=
  MkOpts false 10 4 0 (fdec 1 10) fzero (fofZ 3) fzero fzero fzero fzero 0
         "" false (MSELoss id).
(** options.go:133-135 *)
Definition DefaultOptions (id : Z) : Options := DefaultXOptions id.

(** [a != b] on float64 *)
Definition fneqb (a b : f64) : bool := negb (feqb a b).

(** options.go:51-96 [o.Equal(O)] *)
Definition Equal (o O : Options) : bool :=
  if negb (Bool.eqb (o_xgb O) (o_xgb o)) then false
  else if negb (o_rounds O =? o_rounds o) then false
  else if fneqb (o_ss O) (o_ss o) then false
  else if fneqb (o_css O) (o_css o) then false
  else if fneqb (o_lambda O) (o_lambda o) then false
  else if fneqb (o_mcw O) (o_mcw o) then false
  else if fneqb (o_gamma O) (o_gamma o) then false
  else if negb (o_maxdepth O =? o_maxdepth o) then false
  else if fneqb (o_lr O) (o_lr o) then false
  else if fneqb (o_base O) (o_base o) then false
  else if negb (String.eqb (o_method O) "exact") then false
  else if negb (l_name (o_loss O) =? l_name (o_loss o)) then false
  else if negb (Bool.eqb (o_verbose O) (o_verbose o)) then false
  else if negb (o_minsample O =? o_minsample o) then false
  else true.

(** options.go:98-116 [Clone]: a new record; EarlyStop is not assigned, TreeMethod is a constant *)
Definition Clone (o : Options) : Options :=
  MkOpts (o_xgb o) (o_rounds o) (o_maxdepth o) 0 (o_lr o) (o_lambda o) (o_mcw o) (o_gamma o) (o_ss o) (o_css o)
         (o_base o) (o_minsample o) "exact" (o_verbose o) (o_loss o).

(** options.go:148-179 [Check]: true for a nil error *)
Definition Check (o : Options) : bool :=
  if o_rounds o <=? 0 then false
  else if fleb (o_lr o) fzero then false
  else if fleb (o_ss o) fzero || fleb (o_css o) fzero then false
  else if fltb fone (o_ss o) || fltb fone (o_css o) then false
  else if fltb (o_lambda o) fzero then false
  else if fltb (o_mcw o) fone then false
  else if fltb (o_gamma o) fzero then false
  else if o_maxdepth o <? 2 then false
  else if o_minsample o <? 1 then false
  else true.
