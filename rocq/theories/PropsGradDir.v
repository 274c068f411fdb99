(** Size and direction of a gradient step: C139. *)
From Verif Require Import Base F64 Env Utils Tree Options Train Spec CV SpecCV Grid SpecGrid Grad SpecGrad SpecGradDir GradDir GradDirEx.
Open Scope Z_scope.

(** C139: the last record a parameter step sends is the first trial in the box, the records before are unchanged copies *)
Theorem c139_step_size : forall fuel eval co p step fd curr central, (forall up o r, eval up o = Ok r -> sentShape r) -> searched p ->
  forall Op sent, ParamaterGradStep fuel eval co p step fd curr central Op = Ok sent ->
  exists c pO rp pre v, copyOf Op c /\ shifted fd true p c pO /\ eval true pO = Ok rp /\ sent = pre ++ [v] /\ (forall w, In w pre -> w = c) /\
  let h := fmul fd (valueOf p c) in
  if central then exists mO rm, shifted fd false p c mO /\ eval false mO = Ok rm /\
    firstInBox co p (fmul (fdiv (fsub (accOf rp) (accOf rm)) (fofZ 2)) h) step c v
  else if fltb h fzero then v = c else firstInBox co p (fdiv (fsub (accOf rp) curr) h) step c v.
Proof. exact step_size. Qed.
(** the parameter moves towards the better accuracy *)
Theorem c139_direction : forall fuel eval co p step fd curr central Op sent v, (forall up o r, eval up o = Ok r -> sentShape r) -> searched p ->
  fltb fzero (fmul fd (valueOf p Op)) = true -> fleb fzero (gridStepOf co p) = true -> (p = PRounds -> o_rounds Op - 2 ^ 63 < r_lo (g_rounds co)) ->
  ParamaterGradStep fuel eval co p step fd curr central Op = Ok sent -> In v sent ->
  exists c pO rp, copyOf Op c /\ shifted fd true p c pO /\ eval true pO = Ok rp /\
  if central then exists mO rm, shifted fd false p c mO /\ eval false mO = Ok rm /\ follows (accOf rm) (accOf rp) (paramOf p Op) (paramOf p v)
  else follows curr (accOf rp) (paramOf p Op) (paramOf p v).
Proof. exact direction. Qed.
(** a whole step takes each of the six parameters from the first record its parameter step sends, and nothing else *)
Theorem c139_whole_step : forall fuel evc evs co step fd central Ori R curr o, gradBegin evc central Ori = Ok (inl (curr, o)) ->
  GradStep fuel evc evs co step fd central Ori = Ok R ->
  othersOf R = othersOf o /\ forall p, searched p ->
    exists v more, ParamaterGradStep fuel (evs p) co p step fd curr central o = Ok (v :: more) /\ paramOf p R = paramOf p v.
Proof. exact whole_step. Qed.
Example c139_nonvacuous : ((forall up o r, dEval up o = Ok r -> sentShape r) /\ searched PLambda /\ fltb fzero (fmul (fdec 1 10) (valueOf PLambda dO)) = true /\
  fleb fzero (gridStepOf dBox PLambda) = true) /\
  exists v, ParamaterGradStep 30 dEval dBox PLambda fone (fdec 1 10) fzero true dO = Ok [v] /\
  fltb (fdec 139 100) (o_lambda v) = true /\ fltb (o_lambda v) (fdec 141 100) = true.
Proof. exact (conj ex_dir_hyps ex_dir). Qed.
Example c139_whole_nonvacuous : gradBegin (dEval true) true dO = Ok (inl (fzero, dO)) /\
  exists R, GradStep 30 (dEval true) (fun _ => dEval) dBox fone (fdec 1 10) true dO = Ok R /\ fltb fone (o_lambda R) = true.
Proof. exact ex_dir_whole. Qed.

Print Assumptions c139_step_size.
Print Assumptions c139_direction.
Print Assumptions c139_whole_step.
