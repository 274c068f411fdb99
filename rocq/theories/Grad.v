(** Model of cv/grad.go and cv/hybrid.go. Printing (Verbose) is not modelled: it does not change what the functions return. Saving
    the best model (WriteBest) is in SaveGrad.v. *)
From Coq Require Import String.
From Verif Require Import Base F64 Env Utils Tree Options Train CV Grid.
From Coq Require Import List.
Open Scope Z_scope.

(** ** Parameters *)
(** the parameter names ParamaterGradStep and currentValue know; [POther] is any other string *)
Inductive param : Type := PGamma | PLambda | PSubSample | PColSubSample | PLearningRate | PRounds | PCurr | POther.
Definition param_eq_dec (p q : param) : {p = q} + {p <> q}. Proof. decide equality. Defined.

Definition set_rounds (v : Z) (o : Options) : Options :=
  MkOpts (o_xgb o) v (o_maxdepth o) (o_earlystop o) (o_lr o) (o_lambda o) (o_mcw o) (o_gamma o) (o_ss o) (o_css o) (o_base o) (o_minsample o) (o_method o) (o_verbose o) (o_loss o).
Definition set_lr (v : f64) (o : Options) : Options :=
  MkOpts (o_xgb o) (o_rounds o) (o_maxdepth o) (o_earlystop o) v (o_lambda o) (o_mcw o) (o_gamma o) (o_ss o) (o_css o) (o_base o) (o_minsample o) (o_method o) (o_verbose o) (o_loss o).
Definition set_lambda (v : f64) (o : Options) : Options :=
  MkOpts (o_xgb o) (o_rounds o) (o_maxdepth o) (o_earlystop o) (o_lr o) v (o_mcw o) (o_gamma o) (o_ss o) (o_css o) (o_base o) (o_minsample o) (o_method o) (o_verbose o) (o_loss o).
Definition set_gamma (v : f64) (o : Options) : Options :=
  MkOpts (o_xgb o) (o_rounds o) (o_maxdepth o) (o_earlystop o) (o_lr o) (o_lambda o) (o_mcw o) v (o_ss o) (o_css o) (o_base o) (o_minsample o) (o_method o) (o_verbose o) (o_loss o).
Definition set_ss (v : f64) (o : Options) : Options :=
  MkOpts (o_xgb o) (o_rounds o) (o_maxdepth o) (o_earlystop o) (o_lr o) (o_lambda o) (o_mcw o) (o_gamma o) v (o_css o) (o_base o) (o_minsample o) (o_method o) (o_verbose o) (o_loss o).
Definition set_css (v : f64) (o : Options) : Options :=
  MkOpts (o_xgb o) (o_rounds o) (o_maxdepth o) (o_earlystop o) (o_lr o) (o_lambda o) (o_mcw o) (o_gamma o) (o_ss o) v (o_base o) (o_minsample o) (o_method o) (o_verbose o) (o_loss o).
Definition set_base (v : f64) (o : Options) : Options :=
  MkOpts (o_xgb o) (o_rounds o) (o_maxdepth o) (o_earlystop o) (o_lr o) (o_lambda o) (o_mcw o) (o_gamma o) (o_ss o) (o_css o) v (o_minsample o) (o_method o) (o_verbose o) (o_loss o).

(** cv/grad.go:24-54 [checkAgainstOptions]: true for a nil error *)
Definition checkAgainstOptions (o : Options) (co : GridOptions) : bool :=
  if (o_rounds o <? r_lo (g_rounds co)) || (r_hi (g_rounds co) <? o_rounds o) then false
  else if fltb (o_lr o) (r_lo (g_lr co)) || fltb (r_hi (g_lr co)) (o_lr o) then false
  else if fltb (o_ss o) (r_lo (g_ss co)) || fltb (o_css o) (r_lo (g_css co)) then false
  else if fltb (r_hi (g_ss co)) (o_ss o) || fltb (r_hi (g_css co)) (o_css o) then false
  else if fltb (o_lambda o) (r_lo (g_lambda co)) || fltb (r_hi (g_lambda co)) (o_lambda o) then false
  else if fltb (o_mcw o) (r_lo (g_mcw co)) || fltb (r_hi (g_mcw co)) (o_mcw o) then false
  else if fltb (o_gamma o) (r_lo (g_gamma co)) || fltb (r_hi (g_gamma co)) (o_gamma o) then false
  else if (o_maxdepth o <? r_lo (g_maxdepth co)) || (r_hi (g_maxdepth co) <? o_maxdepth o) then false
  else if o_minsample o <? 1 then false
  else true.

(** cv/grad.go:56-73 [currentValue] *)
Definition currentValue (o : Options) (p : param) : f64 :=
  match p with
  | PGamma => o_gamma o
  | PLambda => o_lambda o
  | PSubSample => o_ss o
  | PColSubSample => o_css o
  | PLearningRate => o_lr o
  | PRounds => fofZ (o_rounds o)
  | _ => fofZ (-1)
  end.

(** cv/grad.go:80-92, the map [f]: [f[param][1]] for [up = true], [f[param][0]] otherwise. For a name not in the map the
    function value is nil and the call panics. *)
Definition nudge (fd : f64) (up : bool) (p : param) (o : Options) : res Options :=
  let ch x := (if up then fadd else fsub) x (fmul x fd) in
  match p with
  | PGamma => Ok (set_gamma (ch (o_gamma o)) o)
  | PLambda => Ok (set_lambda (ch (o_lambda o)) o)
  | PSubSample => Ok (set_ss (ch (o_ss o)) o)
  | PColSubSample => Ok (set_css (ch (o_css o)) o)
  | PLearningRate => Ok (set_lr (ch (o_lr o)) o)
  | PRounds => let d := ftoZ (fmul (fofZ (o_rounds o)) fd) in Ok (set_rounds (if up then o_rounds o + d else o_rounds o - d) o)
  | PCurr => Ok o
  | POther => Panic
  end.

(** cv/grad.go:144-160, one case of the switch; [None] is the default case *)
Definition move (co : GridOptions) (der st : f64) (p : param) (o : Options) : option Options :=
  match p with
  | PGamma => Some (set_gamma (fadd (o_gamma o) (fmul (fmul der (r_step (g_gamma co))) st)) o)
  | PLambda => Some (set_lambda (fadd (o_lambda o) (fmul (fmul der (r_step (g_lambda co))) st)) o)
  | PSubSample => Some (set_ss (fadd (o_ss o) (fmul (fmul der (r_step (g_ss co))) st)) o)
  | PColSubSample => Some (set_css (fadd (o_css o) (fmul (fmul der (r_step (g_css co))) st)) o)
  | PLearningRate => Some (set_lr (fadd (o_lr o) (fmul (fmul der (r_step (g_lr co))) st)) o)
  | PRounds => Some (set_rounds (o_rounds o + ftoZ (fmul (fmul der (fofZ (r_step (g_rounds co)))) st)) o)
  | _ => None
  end.

(** cv/grad.go:131 and 139, the two derivatives *)
Definition forwardDer (N : num) (pacc curr h : carrier N) : carrier N := ndiv N (nsub N pacc curr) h.
Definition centralDer (N : num) (pacc macc h : carrier N) : carrier N := nmul N (ndiv N (nsub N pacc macc) (nofZ N 2)) h.

(** cv/grad.go:143-165: [for st := step; st > 0.1*step; st -= st*0.2]; [Diverge]: more than [fuel] iterations. The result is
    the value of O after the loop. *)
Fixpoint trialLoop (fuel : nat) (co : GridOptions) (p : param) (der step st : f64) (O prev : Options) : res Options :=
  match fuel with
  | O => Diverge
  | S f =>
      if fltb (fmul (fdec 1 10) step) st then
        match move co der st p O with
        | None => Ok O
        | Some O1 => if checkAgainstOptions O1 co then Ok O1
                     else trialLoop f co p der step (fsub st (fmul st (fdec 2 10))) (Clone prev) prev
        end
      else Ok O
  end.

(** what a parameter step does with its output channel and with the record allocated by [O := Op.Clone()] (cv/grad.go:77):
    send that record, change its contents, send another record *)
Inductive act : Type := ASend0 | AMut (v : Options) | ASendV (v : Options).

(** the values received from the three channels of a cross-validation; anything else would block *)
Definition received (r : cvRet) : res (bool * f64) :=
  match cv_sent r with [SErr e; SAcc a; SOpt _] => Ok (e, a) | _ => Diverge end.

(** cv/grad.go:75-171 [ParamaterGradStep] once [Op] has been read; [eval up] is the cross-validation of the raised or lowered
    options *)
Definition gradActs (fuel : nat) (eval : bool -> Options -> res cvRet) (co : GridOptions) (p : param) (step fd curr : f64) (central : bool)
    (Op : Options) : res (list act) :=
  let O := Clone Op in
  pO <- nudge fd true p (Clone O) ;;
  early <- (if central then mO <- nudge fd false p (Clone O) ;; Ok (if Check mO then [] else [ASend0]) else Ok []) ;;
  rp <- eval true pO ;;
  ' (perr, pacc) <- received rp ;;
  let s1 := if perr then [ASend0] else [] in
  let h := fmul fd (currentValue O p) in
  let prev := Clone O in
  let rest := fun der =>
    if fltb (fmul (fdec 1 10) step) step then
      match move co der step p O with
      | None => Ok [ASend0]
      | Some O1 =>
          O' <- trialLoop fuel co p der step step O prev ;;
          Ok [AMut O1; ASendV (if checkAgainstOptions O' co then O' else prev)]
      end
    else Ok [ASendV (if checkAgainstOptions O co then O else prev)] in
  if central then
    mO <- nudge fd false p (Clone O) ;;
    rm <- eval false mO ;;
    ' (merr, macc) <- received rm ;;
    tl <- rest (centralDer F pacc macc h) ;;
    Ok (early ++ s1 ++ (if merr then [ASend0] else []) ++ tl)
  else if fltb h fzero then Ok (early ++ s1 ++ [ASend0])
  else tl <- rest (forwardDer F pacc curr h) ;; Ok (early ++ s1 ++ tl).

(** the records sent, as they are at the moment they are sent *)
Fixpoint sends (obj0 : Options) (l : list act) : list Options :=
  match l with
  | [] => []
  | ASend0 :: t => obj0 :: sends obj0 t
  | AMut v :: t => sends v t
  | ASendV v :: t => v :: sends obj0 t
  end.
(** [ParamaterGradStep] with a reader that takes everything it sends *)
Definition ParamaterGradStep (fuel : nat) (eval : bool -> Options -> res cvRet) (co : GridOptions) (p : param) (step fd curr : f64) (central : bool)
    (Op : Options) : res (list Options) :=
  l <- gradActs fuel eval co p step fd curr central Op ;; Ok (sends (Clone Op) l).

(** ** GradStep *)
(** copying a parameter from a received record (cv/grad.go:192-197) *)
Definition copyParam (p : param) (from to : Options) : Options :=
  match p with
  | PGamma => set_gamma (o_gamma from) to
  | PLambda => set_lambda (o_lambda from) to
  | PSubSample => set_ss (o_ss from) to
  | PColSubSample => set_css (o_css from) to
  | PLearningRate => set_lr (o_lr from) to
  | PRounds => set_rounds (o_rounds from) to
  | _ => to
  end.
(** the order of the receives *)
Definition gradOrder : list param := [PGamma; PLambda; PSubSample; PLearningRate; PRounds; PColSubSample].

(** cv/grad.go:178-186: the current accuracy; [inr] if GradStep returns here. [evc] is the cross-validation of the options
    themselves. *)
Definition gradBegin (evc : Options -> res cvRet) (central : bool) (Ori : Options) : res ((f64 * Options) + Options) :=
  if central then Ok (inl (fzero, Ori))
  else r <- evc Ori ;;
       let o' := match cv_opts r with Some o' => o' | None => Ori end in
       if cv_err r then Ok (inr o') else Ok (inl (cv_acc r, o')).

(** cv/grad.go:173-203 [GradStep] with a nil output channel, in an execution in which every parameter step reads the options
    before the first receive and each received record is looked at before its sender goes on. See GradConc.v for all
    executions. *)
Definition GradStep (fuel : nat) (evc : Options -> res cvRet) (evs : param -> bool -> Options -> res cvRet) (co : GridOptions)
    (step fd : f64) (central : bool) (Ori : Options) : res Options :=
  b <- gradBegin evc central Ori ;;
  match b with
  | inr o => Ok o
  | inl (curr, o) =>
      foldM (fun acc p =>
        l <- ParamaterGradStep fuel (evs p) co p step fd curr central o ;;
        match l with v :: _ => Ok (copyParam p v acc) | [] => Diverge end) o gradOrder
  end.

(** ** fuzz *)
(** cv/grad.go:301-308 [fuzz]: [u] is the value of rand.Float64(), [neg] whether rand.IntN(2) is 0 *)
Definition fuzz (N : num) (u : carrier N) (neg : bool) (f perc : carrier N) : carrier N :=
  let fu := nmul N u perc in
  let sign := if neg then nofZ N (-1) else nofZ N 1 in
  nadd N f (nmul N (nmul N sign fu) f).
(** cv/grad.go:310-323 [fuzzOptions]: [d i] are the two values drawn by the i-th call of fuzz. The record is changed in place:
    this is its new contents. *)
Definition fuzzOptions (d : nat -> f64 * bool) (perc : option f64) (o : Options) : Options :=
  let f := match perc with Some q => if fltb fzero q then q else fdec 1 10 | None => fdec 1 10 end in
  let fz i x := fuzz F (fst (d i)) (snd (d i)) x f in
  MkOpts (o_xgb o) (ftoZ (fz 0%nat (fofZ (o_rounds o)))) (o_maxdepth o) (o_earlystop o) (fz 5%nat (o_lr o)) (fz 3%nat (o_lambda o)) (o_mcw o)
         (fz 4%nat (o_gamma o)) (fz 1%nat (o_ss o)) (fz 2%nat (o_css o)) (fz 6%nat (o_base o)) (o_minsample o) (o_method o) (o_verbose o) (o_loss o).

(** ** GradientGrid and HybridGradientGrid *)
(** cv/grad.go:205-217 [setSomeOptionsToMid] *)
Definition setSomeOptionsToMid (o : Options) (co : GridOptions) : Options :=
  let av (r : range f64) := fdiv (fadd (r_lo r) (r_hi r)) ftwo in
  let avint (r : range Z) := Z.quot (r_lo r + r_hi r) 2 in
  MkOpts (o_xgb o) (avint (g_rounds co)) (o_maxdepth o) (o_earlystop o) (av (g_lr co)) (av (g_lambda co)) (o_mcw o) (av (g_gamma co))
         (av (g_ss co)) (av (g_css co)) (o_base o) (o_minsample o) (o_method o) (o_verbose o) (o_loss o).
(** cv/grad.go:11-22 [setOptionsToMid], used nowhere *)
Definition setOptionsToMid (o : Options) (co : GridOptions) : Options :=
  let av (r : range f64) := fdiv (fadd (r_lo r) (r_hi r)) ftwo in
  let avint (r : range Z) := Z.quot (r_lo r + r_hi r) 2 in
  MkOpts (o_xgb o) (avint (g_rounds co)) (avint (g_maxdepth co)) (o_earlystop o) (av (g_lr co)) (av (g_lambda co)) (av (g_mcw co)) (av (g_gamma co))
         (av (g_ss co)) (av (g_css co)) (o_base o) (o_minsample o) (o_method o) (o_verbose o) (o_loss o).

(** the variables of the two searches. Option records are objects: [h_heap] holds their contents, a pointer is a position.
    [h_evals] is ghost: the contents of the record before and after each cross-validation made by CompareAccs, and the accuracy. *)
Record hs : Type := MkHS {
  h_heap : list Options; h_accs : list f64; h_best : f64; h_final : option nat;
  h_evals : list (Options * Options * f64); h_steps : nat; h_fuzz : nat }.
Definition hs0 : hs := MkHS [] [] fzero None [] 0 0.
Definition alloc (o : Options) (s : hs) : nat * hs :=
  (length (h_heap s), MkHS (h_heap s ++ [o]) (h_accs s) (h_best s) (h_final s) (h_evals s) (h_steps s) (h_fuzz s)).
Definition store (t : nat) (o : Options) (s : hs) : hs :=
  MkHS (upd_nat (h_heap s) t o) (h_accs s) (h_best s) (h_final s) (h_evals s) (h_steps s) (h_fuzz s).
Definition load (t : nat) (s : hs) : res Options := idx (h_heap s) (Z.of_nat t).

Section Search.
(** [cv k o]: the k-th cross-validation by CompareAccs; [gstep k o]: the k-th call of GradStep, which changes the record it
    gets; [fz k]: the values drawn by the k-th call of fuzzOptions *)
Context (cv : nat -> Options -> res cvRet) (gstep : nat -> Options -> res Options) (fz : nat -> nat -> f64 * bool).

(** fuzzOptions on the record [t] *)
Definition fuzzAt (perc : option f64) (t : nat) (s : hs) : res hs :=
  o <- load t s ;;
  let s := store t (fuzzOptions (fz (h_fuzz s)) perc o) s in
  Ok (MkHS (h_heap s) (h_accs s) (h_best s) (h_final s) (h_evals s) (h_steps s) (S (h_fuzz s))).

(** cv/grad.go:246-269 and cv/hybrid.go:50-70 [CompareAccs]: [None] for an error, otherwise the pointer it returns *)
Definition compareAccs (t tprev : nat) (s : hs) : res (option nat * hs) :=
  o <- load t s ;;
  r <- cv (length (h_evals s)) o ;;
  let o' := match cv_opts r with Some o' => o' | None => o end in
  let s := store t o' s in
  if cv_err r then Ok (None, s)
  else
    let acc := cv_acc r in
    let s := MkHS (h_heap s) (h_accs s) (h_best s) (h_final s) (h_evals s ++ [(o, o', acc)]) (h_steps s) (h_fuzz s) in
    if match rev (h_accs s) with [] => false | la :: _ => fltb acc la end then
      s' <- fuzzAt None tprev s ;; Ok (Some tprev, s')
    else if fltb (h_best s) acc then
      Ok (Some t, MkHS (h_heap s) (h_accs s ++ [acc]) acc (Some t) (h_evals s) (h_steps s) (h_fuzz s))
    else Ok (Some t, s).

(** cv/grad.go:277-294 and cv/hybrid.go:78-95; [inr]: the search ends with an error *)
Fixpoint climbSteps (n : nat) (strikes : Z) (t : nat) (s : hs) : res (hs + hs) :=
  match n with
  | O => Ok (inl s)
  | S n' =>
      o <- load t s ;;
      let '(t1, s) := alloc (Clone o) s in
      o' <- gstep (h_steps s) o ;;
      let s := store t o' s in
      let s := MkHS (h_heap s) (h_accs s) (h_best s) (h_final s) (h_evals s) (S (h_steps s)) (h_fuzz s) in
      o1 <- load t1 s ;;
      if Equal o' o1 then
        s <- fuzzAt (Some (fdec 2 10)) t s ;;
        if strikes + 1 =? 3 then Ok (inl s) else climbSteps n' (strikes + 1) t s
      else
        ' (r, s) <- compareAccs t t1 s ;;
        match r with None => Ok (inr s) | Some t' => climbSteps n' 0 t' s end
  end.

(** cv/grad.go:240-294 and cv/hybrid.go:42-95 for the starting options [o] *)
Definition climb (nsteps : Z) (o : Options) (s : hs) : res (hs + hs) :=
  let '(t, s) := alloc o s in
  let '(tprev, s) := alloc (Clone o) s in
  ' (r, s) <- compareAccs t tprev s ;;
  match r with None => Ok (inr s) | Some t' => climbSteps (Z.to_nat nsteps) 0 t' s end.

(** what the searches return; the ghost list of evaluations is kept *)
Record ggRet : Type := MkGG { gg_acc : f64; gg_accuracies : list f64; gg_opts : option Options; gg_err : bool; gg_evals : list (Options * Options * f64) }.
Definition ggFinish (r : hs + hs) : res ggRet :=
  match r with
  | inr s => Ok (MkGG (fofZ (-1)) [] None true (h_evals s))
  | inl s => match h_final s with
             | None => Ok (MkGG (h_best s) (h_accs s) None false (h_evals s))
             | Some t => o <- load t s ;; Ok (MkGG (h_best s) (h_accs s) (Some o) false (h_evals s))
             end
  end.

Definition defaultFor (id : Z) (o : GridOptions) : Options := if g_xgb o then DefaultXOptions id else DefaultGOptions id.
(** cv/grad.go:240-244 *)
Definition gradStart (id : Z) (o : GridOptions) (cw : f64) (md : Z) : Options :=
  let t := setSomeOptionsToMid (defaultFor id o) o in
  MkOpts (g_xgb o) (o_rounds t) md (o_earlystop t) (o_lr t) (o_lambda t) cw (o_gamma t) (o_ss t) (o_css t) (o_base t) (o_minsample t) (o_method t)
         (o_verbose t) (o_loss t).
(** cv/grad.go:220-298 [GradientGrid] *)
Definition GradientGridWith (fuel : nat) (id : Z) (o : GridOptions) : res ggRet :=
  r <- forF fuel (g_mcw o) (fun cw => forZ fuel (g_maxdepth o) (fun md => climb (g_nsteps o) (gradStart id o cw md))) hs0 ;;
  ggFinish r.

(** cv/hybrid.go:33-47 *)
Definition hybridStart (id : Z) (o : GridOptions) (rounds : Z) (cw : f64) (md : Z) (lam : f64) : Options :=
  let o2 := CloneGrid o in
  let cr := ftoZ (fmul (fofZ (r_step (g_rounds o))) (fdec 1 10)) in
  let o2 := MkGO (g_xgb o2) (g_earlystop o2) (MkRange (rounds - r_step (g_rounds o)) (rounds + r_step (g_rounds o)) cr) (g_maxdepth o2) (g_lr o2) (g_gamma o2)
                 (MkRange (fsub lam (r_step (g_lambda o))) (fadd lam (r_step (g_lambda o))) (fmul lam (fdec 1 10))) (g_ss o2) (g_css o2) (g_mcw o2)
                 (g_step o2) (g_delta o2) (g_verbose o2) (g_nsteps o2) (g_central o2) (g_ncpus o2) (g_writebest o2) in
  let t := setSomeOptionsToMid (defaultFor id o) o2 in
  MkOpts (g_xgb o) (o_rounds t) md (g_earlystop o) (o_lr t) (o_lambda t) cw (o_gamma t) (o_ss t) (o_css t) (o_base t) (o_minsample t) (o_method t)
         (o_verbose t) (o_loss t).
(** cv/hybrid.go:11-102 [HybridGradientGrid] *)
Definition HybridGradientGridWith (fuel : nat) (id : Z) (o : GridOptions) : res ggRet :=
  r <- forZ fuel (g_rounds o) (fun rounds => forF fuel (g_mcw o) (fun cw => forZ fuel (g_maxdepth o) (fun md => forF fuel (g_lambda o) (fun lam =>
         climb (g_nsteps o) (hybridStart id o rounds cw md lam))))) hs0 ;;
  ggFinish r.
End Search.

(** the random values of the cross-validations made by CompareAccs ([q_cv], by call), by GradStep itself ([q_cur], by call) and by
    its parameter steps ([q_par], by call, parameter and direction), and those of fuzzOptions *)
Record oracles : Type := MkOr {
  q_cv : nat -> (nat -> Z) * (nat -> draws);
  q_cur : nat -> (nat -> Z) * (nat -> draws);
  q_par : nat -> param -> bool -> (nat -> Z) * (nat -> draws);
  q_fuzz : nat -> nat -> f64 * bool }.
Section Real.
Context {K : Type} (E : Env) (fuel : nat) (q : oracles) (id : Z) (D : DataBunch K) (nfold : Z).
(** CompareAccs asks for 5 folds whatever [nfold] (cv/grad.go:247, cv/hybrid.go:51) *)
Definition searchCV (k : nat) (o : Options) : res cvRet :=
  MultiClassCrossValidation E fuel (fst (q_cv q k)) (snd (q_cv q k)) id D 5 (Some o) false.
Definition searchStep (co : GridOptions) (k : nat) (o : Options) : res Options :=
  GradStep fuel (fun o => MultiClassCrossValidation E fuel (fst (q_cur q k)) (snd (q_cur q k)) id D nfold (Some o) false)
    (fun p up o => MultiClassCrossValidation E fuel (fst (q_par q k p up)) (snd (q_par q k p up)) id D nfold (Some o) true)
    co (g_step co) (g_delta co) (g_central co) o.
Definition GradientGrid (options : option GridOptions) : res ggRet :=
  let o := match options with Some o => o | None => DefaultXGridOptions end in
  GradientGridWith searchCV (searchStep o) (q_fuzz q) fuel id o.
Definition HybridGradientGrid (options : option GridOptions) : res ggRet :=
  let o := match options with Some o => o | None => DefaultXGridOptions end in
  HybridGradientGridWith searchCV (searchStep o) (q_fuzz q) fuel id o.
End Real.
