(** Model of saving the best model during GradientGrid and HybridGradientGrid: cv/grad.go:218-298 and cv/hybrid.go with
    [o.WriteBest]. The functions are those of Grad.v with the directory as a second component of the state. *)
From Verif Require Import Base F64 Env Utils Tree Options Train Text CV Grid Grad Save.
Open Scope Z_scope.

Section Search.
(** [cv], [gstep] and [fz] as in Grad.v; [save k a op d] is writeBest after the k-th cross-validation *)
Context (cv : nat -> Options -> res cvRet) (gstep : nat -> Options -> res Options) (fz : nat -> nat -> f64 * bool).
Context (save : nat -> f64 -> option Options -> dir -> dir * res bool).

(** cv/grad.go:246-269 and cv/hybrid.go:50-70 [CompareAccs]. The error of writeBest is ignored; a panic of writeBest ends the
    program. The training in writeBest raises MinChildWeight in the record it is given (xgb.go:36-38). *)
Definition compareAccsS (t tprev : nat) (sd : hs * dir) : res (option nat * (hs * dir)) :=
  let '(s, d) := sd in
  o <- load t s ;;
  r <- cv (length (h_evals s)) o ;;
  let o' := match cv_opts r with Some o' => o' | None => o end in
  let k := length (h_evals s) in
  let s := store t o' s in
  if cv_err r then Ok (None, (s, d))
  else
    let acc := cv_acc r in
    let s := MkHS (h_heap s) (h_accs s) (h_best s) (h_final s) (h_evals s ++ [(o, o', acc)]) (h_steps s) (h_fuzz s) in
    if match rev (h_accs s) with [] => false | la :: _ => fltb acc la end then
      s' <- fuzzAt fz None tprev s ;; Ok (Some tprev, (s', d))
    else if fltb (h_best s) acc then
      let s := MkHS (h_heap s) (h_accs s ++ [acc]) acc (Some t) (h_evals s) (h_steps s) (h_fuzz s) in
      match save k acc (Some o') d with
      | (d', Ok _) => Ok (Some t, (store t (fixMCW o') s, d'))
      | (_, Panic) => Panic
      | (_, Diverge) => Diverge
      end
    else Ok (Some t, (s, d)).

(** cv/grad.go:277-294 and cv/hybrid.go:78-95 *)
Fixpoint climbStepsS (n : nat) (strikes : Z) (t : nat) (sd : hs * dir) : res ((hs * dir) + (hs * dir)) :=
  match n with
  | O => Ok (inl sd)
  | S n' =>
      let '(s, d) := sd in
      o <- load t s ;;
      let '(t1, s) := alloc (Clone o) s in
      o' <- gstep (h_steps s) o ;;
      let s := store t o' s in
      let s := MkHS (h_heap s) (h_accs s) (h_best s) (h_final s) (h_evals s) (S (h_steps s)) (h_fuzz s) in
      o1 <- load t1 s ;;
      if Equal o' o1 then
        s <- fuzzAt fz (Some (fdec 2 10)) t s ;;
        if strikes + 1 =? 3 then Ok (inl (s, d)) else climbStepsS n' (strikes + 1) t (s, d)
      else
        ' (r, sd) <- compareAccsS t t1 (s, d) ;;
        match r with None => Ok (inr sd) | Some t' => climbStepsS n' 0 t' sd end
  end.

(** cv/grad.go:240-294 and cv/hybrid.go:42-95 *)
Definition climbS (nsteps : Z) (o : Options) (sd : hs * dir) : res ((hs * dir) + (hs * dir)) :=
  let '(s, d) := sd in
  let '(t, s) := alloc o s in
  let '(tprev, s) := alloc (Clone o) s in
  ' (r, sd) <- compareAccsS t tprev (s, d) ;;
  match r with None => Ok (inr sd) | Some t' => climbStepsS (Z.to_nat nsteps) 0 t' sd end.

Definition ggFinishS (r : (hs * dir) + (hs * dir)) : res (ggRet * dir) :=
  match r with
  | inl (s, d) => q <- ggFinish (inl s) ;; Ok (q, d)
  | inr (s, d) => q <- ggFinish (inr s) ;; Ok (q, d)
  end.
(** cv/grad.go:220-298 [GradientGrid], started in the directory [d] *)
Definition GradientGridSaving (fuel : nat) (id : Z) (o : GridOptions) (d : dir) : res (ggRet * dir) :=
  r <- forF fuel (g_mcw o) (fun cw => forZ fuel (g_maxdepth o) (fun md => climbS (g_nsteps o) (gradStart id o cw md))) (hs0, d) ;;
  ggFinishS r.
(** cv/hybrid.go:11-102 [HybridGradientGrid] *)
Definition HybridGradientGridSaving (fuel : nat) (id : Z) (o : GridOptions) (d : dir) : res (ggRet * dir) :=
  r <- forZ fuel (g_rounds o) (fun rounds => forF fuel (g_mcw o) (fun cw => forZ fuel (g_maxdepth o) (fun md => forF fuel (g_lambda o) (fun lam =>
         climbS (g_nsteps o) (hybridStart id o rounds cw md lam))))) (hs0, d) ;;
  ggFinishS r.
End Search.
