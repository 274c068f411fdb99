(** Model of the grid search in cv/cv.go. Printing (Verbose) is not modelled, it does not
    change what Grid returns; saving the best model (WriteBest) is modelled in Save.v. *)
From Coq Require Import String.
From Verif Require Import Base F64 Env Utils Tree Options Train CV.
From Coq Require Import List.
Open Scope Z_scope.

(** a [3]int / [3]float64: initial, final, step *)
Record range (A : Type) : Type := MkRange { r_lo : A; r_hi : A; r_step : A }.
Arguments MkRange {A}. Arguments r_lo {A}. Arguments r_hi {A}. Arguments r_step {A}.

(** cv/cv.go:57-75 [GridOptions] *)
Record GridOptions : Type := MkGO {
  g_xgb : bool;
  g_earlystop : Z;
  g_rounds : range Z;
  g_maxdepth : range Z;
  g_lr : range f64;
  g_gamma : range f64;
  g_lambda : range f64;
  g_ss : range f64;
  g_css : range f64;
  g_mcw : range f64;
  g_step : f64;
  g_delta : f64;          (** DeltaFraction *)
  g_verbose : bool;
  g_nsteps : Z;
  g_central : bool;
  g_ncpus : Z;
  g_writebest : bool
}.

(** cv/cv.go:77-97 [Clone] *)
Definition CloneGrid (o : GridOptions) : GridOptions :=
  MkGO (g_xgb o) (g_earlystop o) (g_rounds o) (g_maxdepth o) (g_lr o) (g_gamma o) (g_lambda o) (g_ss o) (g_css o) (g_mcw o)
       (g_step o) (g_delta o) (g_verbose o) (g_nsteps o) (g_central o) (g_ncpus o) (g_writebest o).

(** cv/cv.go:102-119 [DefaultGGridOptions]: fields not mentioned are zero *)
Definition DefaultGGridOptions : GridOptions :=
  MkGO false (o_earlystop (DefaultGOptions 0)) (MkRange 2 100 1) (MkRange 2 10 1) (MkRange (fdec 1 100) (fdec 8 10) (fdec 1 10))
       (MkRange fzero fone (fofZ 2)) (MkRange fzero fone (fofZ 2)) (MkRange fone fone (fofZ 2)) (MkRange fone fone (fofZ 2))
       (MkRange (fofZ 2) (fofZ 6) fone) fzero fzero false 0 false 0 false.
(** cv/cv.go:124-143 [DefaultXGridOptions] *)
Definition DefaultXGridOptions : GridOptions :=
  MkGO true (o_earlystop (DefaultXOptions 0)) (MkRange 20 1000 100) (MkRange 3 6 1) (MkRange (fdec 1 100) (fdec 5 10) (fdec 15 100))
       (MkRange fzero (fdec 5 10) (fdec 1 10)) (MkRange (fdec 5 10) (fofZ 2) (fdec 2 10)) (MkRange (fdec 6 10) (fdec 9 10) (fdec 1 10))
       (MkRange (fdec 6 10) (fdec 9 10) (fdec 1 10)) (MkRange (fofZ 3) (fofZ 5) fone) (fdec 1 10) (fdec 5 100) false 6 true 1 false.

(** [for x := lo; x <= hi; x += step { body }] where the body can return from the function ([inr]). [Diverge]: more than
    [fuel] iterations. *)
Section Loop.
Context {A St R : Type} (le : A -> A -> bool) (add : A -> A -> A).
Fixpoint forLoop (fuel : nat) (x hi step : A) (body : A -> St -> res (St + R)) (s : St) : res (St + R) :=
  match fuel with
  | O => Diverge
  | S f => if le x hi then
             r <- body x s ;;
             match r with inl s' => forLoop f (add x step) hi step body s' | inr e => Ok (inr e) end
           else Ok (inl s)
  end.
End Loop.
Definition forZ {St R} (fuel : nat) (r : range Z) (body : Z -> St -> res (St + R)) (s : St) : res (St + R) :=
  forLoop Z.leb Z.add fuel (r_lo r) (r_hi r) (r_step r) body s.
Definition forF {St R} (fuel : nat) (r : range f64) (body : f64 -> St -> res (St + R)) (s : St) : res (St + R) :=
  forLoop fleb fadd fuel (r_lo r) (r_hi r) (r_step r) body s.

(** cv/cv.go:195-205 *)
Definition gridPoint (id : Z) (o : GridOptions) (rounds : Z) (cw : f64) (md : Z) (css lr lam gam ss : f64) : Options :=
  let t := if g_xgb o then DefaultXOptions id else DefaultGOptions id in
  MkOpts (g_xgb o) rounds md (g_earlystop o) lr lam cw gam ss css (o_base t) (o_minsample t) (o_method t) (o_verbose t) (o_loss t).

(** cv/cv.go:232-259 [rescueConcValues]: [sent] holds what the worker on each channel sends. The result is [inr] for an
    error. A worker that does not send an error, an accuracy and an option pointer in this order would block the
    collector. *)
Fixpoint rescueConcValues (sent : list (list cvSend)) (bestacc : f64) (bestop : option Options)
  : res ((f64 * option Options) + unit) :=
  match sent with
  | [] => Ok (inl (bestacc, bestop))
  | s :: rest =>
      match s with
      | SErr true :: _ => Ok (inr tt)
      | SErr false :: SAcc a :: more =>
          if fltb a fzero then Ok (inr tt)
          else match more with
               | SOpt op :: _ =>
                   if fltb bestacc a then rescueConcValues rest a op else rescueConcValues rest bestacc bestop
               | _ => Diverge
               end
      | _ => Diverge
      end
  end.

(** the variables of the loops: the combinations handed to workers of the batch that is being filled, the best result, and
    (ghost) all combinations handed to workers *)
Record gstate : Type := MkGS { gs_pending : list (nat * Options); gs_best : f64; gs_final : option Options; gs_spawned : list Options }.
(** what Grid returns; the ghost list of combinations is kept *)
Record gridRet : Type := MkGR { gr_acc : f64; gr_accuracies : list f64; gr_opts : option Options; gr_err : bool; gr_spawned : list Options }.

(** cv/cv.go:206-217: one combination. [eval k t] is the cross-validation of the k-th combination [t]. A worker starts when
    its goroutine is created but only what it sends matters, so the evaluations are placed where they are collected; a
    worker that panics ends the program. *)
Definition gridBody (ncpus : Z) (eval : nat -> Options -> res cvRet) (t : Options) (s : gstate) : res (gstate + gridRet) :=
  let cpus := Z.of_nat (length (gs_pending s)) in
  if ncpus <=? cpus then Panic  (** accs[cpus] is out of range *)
  else
    let pending := gs_pending s ++ [(length (gs_spawned s), t)] in
    let spawned := gs_spawned s ++ [t] in
    if cpus + 1 =? ncpus then
      rets <- mapM (fun p => eval (fst p) (snd p)) pending ;;
      r <- rescueConcValues (map cv_sent rets) (gs_best s) (gs_final s) ;;
      match r with
      | inl (b, f) => Ok (inl (MkGS [] b f spawned))
      | inr _ => Ok (inr (MkGR (fofZ (-1)) [] None true spawned))
      end
    else Ok (inl (MkGS pending (gs_best s) (gs_final s) spawned)).

(** cv/cv.go:158-229 [Grid] with options; [eval] as above *)
Definition GridWith (fuel : nat) (id : Z) (eval : nat -> Options -> res cvRet) (o : GridOptions) : res gridRet :=
  if g_ncpus o <? 0 then Panic  (** make([]chan ..., NCPUs) *)
  else
    r <- forZ fuel (g_rounds o) (fun rounds =>
         forF fuel (g_mcw o) (fun cw =>
         forZ fuel (g_maxdepth o) (fun md =>
         forF fuel (g_css o) (fun css =>
         forF fuel (g_lr o) (fun lr =>
         forF fuel (g_lambda o) (fun lam =>
         forF fuel (g_gamma o) (fun gam =>
         forF fuel (g_ss o) (fun ss =>
           gridBody (g_ncpus o) eval (gridPoint id o rounds cw md css lr lam gam ss)))))))))
         (MkGS [] fzero None []) ;;
    match r with
    | inl s => Ok (MkGR (gs_best s) [] (gs_final s) false (gs_spawned s))
    | inr e => Ok e
    end.
(** the k-th combination is evaluated with the random values [ints k] and [rndf k]; no options: cv/cv.go:159-164 *)
Definition Grid {K} (E : Env) (fuel : nat) (ints : nat -> nat -> Z) (rndf : nat -> nat -> draws) (id : Z)
    (D : DataBunch K) (nfold : Z) (options : option GridOptions) : res gridRet :=
  let o := match options with Some o => o | None => DefaultXGridOptions end in
  GridWith fuel id (fun k t => MultiClassCrossValidation E fuel (ints k) (rndf k) id D nfold (Some t) true) o.
