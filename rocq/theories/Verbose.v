(** What the library prints and logs: xgb.go:104-135, cv/cv.go:27, 39, 185-187 and 249-251, cv/grad.go:236-238 and 258-260,
    cv/hybrid.go:28-30 and 59-61. The functions are those of Train.v, CV.v, Grid.v and Grad.v with their output. The prefix that the
    log package puts before a line (date and time) is not modelled, and neither are errors of the writes, which are ignored. *)
From Coq Require Import Ascii String.
From Flocq Require Import IEEE754.BinarySingleNaN.
From Verif Require Import Base F64 Env Utils Tree Options Train Text Confu Readers Feats Print CV Grid Grad.
From Coq Require Import List.
Open Scope Z_scope.

(** a line that is written, with the values in it *)
Inductive line : Type :=
| LTrain (round class : nat) (loss : f64)        (** xgb.go:111 *)
| LStop (class round : nat)                      (** xgb.go:132 *)
| LFewer (n rows : nat) (err : text)             (** cv/cv.go:27 *)
| LNoModel (n : nat)                             (** cv/cv.go:39 *)
| LHead (rounds : Z) (cw : f64)                  (** cv/cv.go:186, cv/hybrid.go:29 *)
| LBestG (acc : f64) (o : Options)               (** cv/cv.go:250 *)
| LWeight (cw : f64)                             (** cv/grad.go:237 *)
| LBestC (acc : f64) (o : Options).              (** cv/grad.go:259, cv/hybrid.go:60 *)
Inductive stream : Type := StdOut | Log.
(** [%.0f] *)
Definition units (x : f64) : Z :=
  match x with B754_finite _ m e _ => if 0 <=? e then Z.pos m * 2 ^ e else divRNE (Z.pos m) (2 ^ (- e)) | _ => 0 end.
Definition fmt0 (x : f64) : text :=
  match x with
  | B754_nan => tx "NaN"
  | B754_infinity s => if s then tx "-Inf" else tx "+Inf"
  | _ => (if Bsign x then tx "-" else []) ++ decZ (units x)
  end.
Definition decN (n : nat) : text := decZ (Z.of_nat n).
(** where a line goes, and its text; [fv] is the [%v] format of a float64. fmt.Println puts a space between any two operands. *)
Definition lineText (fv : f64 -> text) (l : line) : stream * text :=
  match l with
  | LTrain r k x => (StdOut, tx "round: " ++ decN r ++ tx ", class: " ++ decN k ++ tx " train loss = " ++ fmt3 x ++ [NL])
  | LStop k r => (Log, tx "Class " ++ decN k ++ tx " stopped early at round " ++ decN r ++ [NL])
  | LFewer n rows e => (Log, tx "Only " ++ decN n ++ tx "-fold can be performed due to sample size (" ++ decN rows ++ tx "). Error: " ++ e ++ [NL])
  | LNoModel n => (Log, tx "The " ++ decN n ++ tx "-th fold didn't produce a boosting ensemble, will continue with the others" ++ [NL])
  | LHead r cw => (StdOut, tx "Rounds:  " ++ decZ r ++ tx " MinChildWeight: " ++ fv cw ++ [NL])
  | LBestG a o => (StdOut, tx "New Best Accuracy " ++ fmt0 a ++ tx "%, " ++ StringOptions o ++ [NL])
  | LWeight cw => (StdOut, tx "ChildrenWeight: " ++ fv cw ++ [NL])
  | LBestC a o => (StdOut, tx "New best accuracy:  " ++ fv a ++ tx " " ++ StringOptions o ++ [NL])
  end.

(** code that writes lines: what it has written, also when it panics *)
Definition wr (A : Type) : Type := (list line * res A)%type.
Definition lift {A} (r : res A) : wr A := ([], r).
Definition say (l : list line) : wr unit := (l, Ok tt).
Definition wbind {A B} (m : wr A) (k : A -> wr B) : wr B :=
  match snd m with
  | Ok a => let r := k a in (fst m ++ fst r, snd r)
  | Panic => (fst m, Panic)
  | Diverge => (fst m, Diverge)
  end.
Notation "x <~ m ;; k" := (wbind m (fun x => k)) (at level 61, m at next level, right associativity).
Notation "' p <~ m ;; k" := (wbind m (fun x => match x with p => k end)) (at level 61, p pattern, m at next level, right associativity).
Fixpoint foldW {A St} (f : St -> A -> wr St) (st : St) (l : list A) : wr St :=
  match l with
  | [] => lift (Ok st)
  | a :: t => st' <~ f st a ;; foldW f st' t
  end.

(** ** Training *)
(** xgb.go:130-133: whether class [k] stops because of the number of rounds without progress *)
Definition stopsNow (O : Options) (round k : nat) (l : f64) (st : tstate) : bool :=
  (0 <? o_earlystop O) && negb (fleb l epsilon) && negb (Nat.eqb round 0) &&
  (o_earlystop O <=? (if fleb (nth k (s_prev st) fzero) l then nth k (s_noprog st) 0 + 1 else 0)).
(** xgb.go:62-138 *)
Definition classStepV (E : Env) (O : Options) (data : list (list f64)) (ohe : dense) (ix : option (list Z))
    (cols : list Z) (round : nat) (sa : tstate * list entryG) (k : nat) : wr (tstate * list entryG) :=
  let '(st, acc) := sa in
  if nth k (s_stopped st) false then lift (Ok (st, acc))
  else
    lab <~ lift (DenseCol ohe (Z.of_nat k)) ;;
    pr <~ lift (DenseCol (s_probs st) (Z.of_nat k)) ;;
    t <~ lift (classTree E O data ix cols lab pr) ;;
    preds <~ lift (Predict t data (Some (s_tmp st))) ;;
    let tmp := map (fun v => fmul v (o_lr O)) preds in
    raw <~ lift (AddToCol (s_raw st) tmp (Z.of_nat k)) ;;
    probs <~ lift (SoftMaxDense E raw (Some (s_probs st))) ;;
    pr' <~ lift (DenseCol probs (Z.of_nat k)) ;;
    let l := l_loss (o_loss O) lab pr' in
    let st1 := MkSt raw probs tmp (s_stopped st) (s_noprog st) (s_prev st) in
    _ <~ say (if o_verbose O then [LTrain round k l] else []) ;;
    _ <~ say (if o_verbose O && stopsNow O round k l st1 then [LStop k round] else []) ;;
    lift (Ok (earlyStop O round k l st1, acc ++ [MkG k round t l])).
(** xgb.go:50-140 *)
Definition roundStepV (E : Env) (O : Options) (data : list (list f64)) (ohe : dense) (nlabels : nat) (rnd : draws)
    (sb : tstate * list (list entryG)) (round : nat) : wr (tstate * list (list entryG)) :=
  let '(st, boosters) := sb in
  ' (ix, cols) <~ lift (roundSamples O data (rnd round)) ;;
  if Z.of_nat (length (orNil ix)) <? o_minsample O then lift (Ok (st, boosters))
  else
    ' (st', classes) <~ foldW (classStepV E O data ohe ix cols round) (st, []) (seq 0 nlabels) ;;
    lift (Ok (st', boosters ++ [classes])).
(** xgb.go:21-143 *)
Definition NewMultiClassV {K} (E : Env) (rnd : draws) (D : DataBunch K) (O0 : Options) : wr trained :=
  ' (ohe, labels) <~ lift (oneHotEncodeDense (Labels D)) ;;
  let O := fixMCW O0 in
  let nlabels := length labels in
  let r := d_r ohe in
  raw0 <~ lift (NewDense r (d_c ohe) (repeat fzero (r * d_c ohe))) ;;
  let raw := scaleDense (o_base O) (ToOnes raw0) in
  probs <~ lift (SoftMaxDense E raw None) ;;
  let st0 := MkSt raw probs (repeat fzero r) (repeat false nlabels) (repeat 0 nlabels) (repeat fzero nlabels) in
  ' (st, hist) <~ foldW (roundStepV E O (Data D) ohe nlabels rnd) (st0, []) (seq 0 (Z.to_nat (o_rounds O))) ;;
  lift (Ok (MkTr (MkMC (map (map g_tree) hist) (o_lr O) labels
                   (Some (fun P Q => SoftMaxDense E P (Some Q))) (o_base O) (o_xgb O))
                 O st hist)).

(** ** Cross-validation *)
(** utils/stat.go:74 *)
Definition fewerText (nf : nat) (tot : Z) (tried : list nat) : text :=
  tx "The " ++ decN nf ++ tx "-fold crossvalidation requested leaves only " ++ decZ (tot / Z.of_nat nf) ++
  tx " sample(s) per fold, when the minimum allowed is 2. Will use " ++ decZ (Z.of_nat nf - 1) ++ tx "-fold.N-folds already tried: " ++
  listText (map decN tried).
(** utils/stat.go:72-76, with the list [tried] and the error *)
Fixpoint adjustFoldsV (tot : Z) (nf : nat) (tried : list nat) (err : option text) : res (nat * list nat * option text) :=
  match nf with
  | O => Panic
  | S k => if tot / Z.of_nat nf <? 2 then adjustFoldsV tot k (tried ++ [nf]) (Some (fewerText nf tot tried)) else Ok (nf, tried, err)
  end.
(** utils/stat.go:59-119: as [CrossValidationSamples], with the text of the error when it is not fatal *)
Definition CrossValidationSamplesV {K} (fuel : nat) (ints : nat -> Z) (D : DataBunch K) (nfold : Z)
  : res (nat * option (sampler K) * bool * option text) :=
  let nf0 := if 0 <? nfold then Z.to_nat nfold else 5%nat in
  let tot := Z.of_nat (length (Data D)) in
  ' (nf, _, err) <- adjustFoldsV tot nf0 [] None ;;
  if Nat.ltb nf 2 then Ok (0%nat, None, true, None)
  else
    let nsamples := Z.to_nat (tot / Z.of_nat nf) in
    folds <- drawFolds fuel ints (foldPlan nf nsamples) 0 (repeat [] nf) ;;
    folds' <- fillRemaining folds tot ;;
    Ok (nf, Some (MkSampler D folds' nf 0), match err with Some _ => true | None => false end, err).
Definition trainWithV {K} (E : Env) (rnd : draws) (id : Z) (D : DataBunch K) (O : option Options) : wr trained :=
  NewMultiClassV E rnd D (match O with Some o => o | None => DefaultXOptions id end).
(** cv/cv.go:30-45; [nf] is the number of folds *)
Fixpoint cvLoopV {K} (E : Env) (rndf : nat -> draws) (id : Z) (nf : nat) (s : sampler K) (O : option Options) (i n : nat) (accus : f64)
  : wr (f64 * option Options) :=
  match n with
  | O => lift (Ok (accus, O))
  | S n' =>
      ' (tt_, s') <~ lift (callSampler s) ;;
      match tt_ with
      | None => lift Panic
      | Some (train, test) =>
          tr <~ trainWithV E (rndf i) id train O ;;
          let O' := match O with Some _ => Some (tr_opts tr) | None => None end in
          r <~ lift (Rounds (tr_model tr) None) ;;
          if r <=? 0 then _ <~ say [LNoModel nf] ;; cvLoopV E rndf id nf s' O' (S i) n' accus
          else a <~ lift (Accuracy (tr_model tr) test) ;; cvLoopV E rndf id nf s' O' (S i) n' (fadd accus a)
      end
  end.
(** cv/cv.go:15-52 *)
Definition MultiClassCrossValidationV {K} (E : Env) (fuel : nat) (ints : nat -> Z) (rndf : nat -> draws) (id : Z)
    (D : DataBunch K) (nfold : Z) (O : option Options) (conc : bool) : wr cvRet :=
  ' (ns, err, msg) <~ lift (CrossValidationSamplesV fuel ints D nfold) ;;
  let '(n, so) := ns in
  if err && Nat.eqb n 0 then
    lift (Ok (MkCV fzero true (if conc then [SErr true; SAcc (fofZ (-1)); SOpt None] else []) O))
  else
    _ <~ say (match msg with Some e => [LFewer n (length (Data D)) e] | None => [] end) ;;
    match so with
    | None => lift Panic
    | Some s =>
        ' (accus, O') <~ cvLoopV E rndf id n s O 0 n fzero ;;
        let mean := fdiv accus (fofZ (Z.of_nat n)) in
        lift (Ok (MkCV mean false (if conc then [SErr false; SAcc mean; SOpt O'] else []) O'))
    end.

(** ** Grid search *)
Section Loop.
Context {A St R : Type} (le : A -> A -> bool) (add : A -> A -> A).
Fixpoint forLoopW (fuel : nat) (x hi step : A) (body : A -> St -> wr (St + R)) (s : St) : wr (St + R) :=
  match fuel with
  | O => lift Diverge
  | S f => if le x hi then
             r <~ body x s ;;
             match r with inl s' => forLoopW f (add x step) hi step body s' | inr e => lift (Ok (inr e)) end
           else lift (Ok (inl s))
  end.
End Loop.
Definition forZW {St R} (fuel : nat) (r : range Z) (body : Z -> St -> wr (St + R)) (s : St) : wr (St + R) :=
  forLoopW Z.leb Z.add fuel (r_lo r) (r_hi r) (r_step r) body s.
Definition forFW {St R} (fuel : nat) (r : range f64) (body : f64 -> St -> wr (St + R)) (s : St) : wr (St + R) :=
  forLoopW fleb fadd fuel (r_lo r) (r_hi r) (r_step r) body s.
(** cv/cv.go:232-259, without writebest; [bestop.String()] of a nil pointer panics *)
Fixpoint rescueV (verbose : bool) (sent : list (list cvSend)) (bestacc : f64) (bestop : option Options)
  : wr ((f64 * option Options) + unit) :=
  match sent with
  | [] => lift (Ok (inl (bestacc, bestop)))
  | s :: rest =>
      match s with
      | SErr true :: _ => lift (Ok (inr tt))
      | SErr false :: SAcc a :: more =>
          if fltb a fzero then lift (Ok (inr tt))
          else match more with
               | SOpt op :: _ =>
                   if fltb bestacc a then
                     _ <~ (if verbose then match op with Some o => say [LBestG a o] | None => lift Panic end else say []) ;;
                     rescueV verbose rest a op
                   else rescueV verbose rest bestacc bestop
               | _ => lift Diverge
               end
      | _ => lift Diverge
      end
  end.
(** cv/cv.go:206-217. The workers write nothing to the standard output, as the Verbose field of their options is false; what they
    log can come at any time and is left out. *)
Definition gridBodyV (verbose : bool) (ncpus : Z) (eval : nat -> Options -> res cvRet) (t : Options) (s : gstate) : wr (gstate + gridRet) :=
  let cpus := Z.of_nat (length (gs_pending s)) in
  if ncpus <=? cpus then lift Panic
  else
    let pending := gs_pending s ++ [(length (gs_spawned s), t)] in
    let spawned := gs_spawned s ++ [t] in
    if cpus + 1 =? ncpus then
      rets <~ lift (mapM (fun p => eval (fst p) (snd p)) pending) ;;
      r <~ rescueV verbose (map cv_sent rets) (gs_best s) (gs_final s) ;;
      match r with
      | inl (b, f) => lift (Ok (inl (MkGS [] b f spawned)))
      | inr _ => lift (Ok (inr (MkGR (fofZ (-1)) [] None true spawned)))
      end
    else lift (Ok (inl (MkGS pending (gs_best s) (gs_final s) spawned))).
(** cv/cv.go:158-229 *)
Definition GridWithV (fuel : nat) (id : Z) (eval : nat -> Options -> res cvRet) (o : GridOptions) : wr gridRet :=
  if g_ncpus o <? 0 then lift Panic
  else
    r <~ forZW fuel (g_rounds o) (fun rounds =>
         forFW fuel (g_mcw o) (fun cw s =>
         _ <~ say (if g_verbose o then [LHead rounds cw] else []) ;;
         forZW fuel (g_maxdepth o) (fun md =>
         forFW fuel (g_css o) (fun css =>
         forFW fuel (g_lr o) (fun lr =>
         forFW fuel (g_lambda o) (fun lam =>
         forFW fuel (g_gamma o) (fun gam =>
         forFW fuel (g_ss o) (fun ss =>
           gridBodyV (g_verbose o) (g_ncpus o) eval (gridPoint id o rounds cw md css lr lam gam ss))))))) s))
         (MkGS [] fzero None []) ;;
    match r with
    | inl s => lift (Ok (MkGR (gs_best s) [] (gs_final s) false (gs_spawned s)))
    | inr e => lift (Ok e)
    end.
Definition GridV {K} (E : Env) (fuel : nat) (ints : nat -> nat -> Z) (rndf : nat -> nat -> draws) (id : Z)
    (D : DataBunch K) (nfold : Z) (options : option GridOptions) : wr gridRet :=
  let o := match options with Some o => o | None => DefaultXGridOptions end in
  GridWithV fuel id (fun k t => MultiClassCrossValidation E fuel (ints k) (rndf k) id D nfold (Some t) true) o.

(** ** Gradient searches *)
Section Search.
Context (verbose : bool) (cv : nat -> Options -> res cvRet) (gstep : nat -> Options -> res Options) (fz : nat -> nat -> f64 * bool).
(** cv/grad.go:246-269 and cv/hybrid.go:50-70; [t.String()] shows the record as it is after the cross-validation *)
Definition compareAccsV (t tprev : nat) (s : hs) : wr (option nat * hs) :=
  o <~ lift (load t s) ;;
  r <~ lift (cv (length (h_evals s)) o) ;;
  let o' := match cv_opts r with Some o' => o' | None => o end in
  let s := store t o' s in
  if cv_err r then lift (Ok (None, s))
  else
    let acc := cv_acc r in
    let s := MkHS (h_heap s) (h_accs s) (h_best s) (h_final s) (h_evals s ++ [(o, o', acc)]) (h_steps s) (h_fuzz s) in
    if match rev (h_accs s) with [] => false | la :: _ => fltb acc la end then
      s' <~ lift (fuzzAt fz None tprev s) ;; lift (Ok (Some tprev, s'))
    else if fltb (h_best s) acc then
      _ <~ say (if verbose then [LBestC acc o'] else []) ;;
      lift (Ok (Some t, MkHS (h_heap s) (h_accs s ++ [acc]) acc (Some t) (h_evals s) (h_steps s) (h_fuzz s)))
    else lift (Ok (Some t, s)).
(** cv/grad.go:277-294 and cv/hybrid.go:78-95 *)
Fixpoint climbStepsV (n : nat) (strikes : Z) (t : nat) (s : hs) : wr (hs + hs) :=
  match n with
  | O => lift (Ok (inl s))
  | S n' =>
      o <~ lift (load t s) ;;
      let '(t1, s) := alloc (Clone o) s in
      o' <~ lift (gstep (h_steps s) o) ;;
      let s := store t o' s in
      let s := MkHS (h_heap s) (h_accs s) (h_best s) (h_final s) (h_evals s) (S (h_steps s)) (h_fuzz s) in
      o1 <~ lift (load t1 s) ;;
      if Equal o' o1 then
        s <~ lift (fuzzAt fz (Some (fdec 2 10)) t s) ;;
        if strikes + 1 =? 3 then lift (Ok (inl s)) else climbStepsV n' (strikes + 1) t s
      else
        ' (r, s) <~ compareAccsV t t1 s ;;
        match r with None => lift (Ok (inr s)) | Some t' => climbStepsV n' 0 t' s end
  end.
(** cv/grad.go:240-294 and cv/hybrid.go:42-95 *)
Definition climbV (nsteps : Z) (o : Options) (s : hs) : wr (hs + hs) :=
  let '(t, s) := alloc o s in
  let '(tprev, s) := alloc (Clone o) s in
  ' (r, s) <~ compareAccsV t tprev s ;;
  match r with None => lift (Ok (inr s)) | Some t' => climbStepsV (Z.to_nat nsteps) 0 t' s end.
End Search.
(** cv/grad.go:220-298 *)
Definition GradientGridWithV cv gstep fz (fuel : nat) (id : Z) (o : GridOptions) : wr ggRet :=
  r <~ forFW fuel (g_mcw o) (fun cw s =>
         _ <~ say (if g_verbose o then [LWeight cw] else []) ;;
         forZW fuel (g_maxdepth o) (fun md => climbV (g_verbose o) cv gstep fz (g_nsteps o) (gradStart id o cw md)) s) hs0 ;;
  lift (ggFinish r).
(** cv/hybrid.go:11-102 *)
Definition HybridGradientGridWithV cv gstep fz (fuel : nat) (id : Z) (o : GridOptions) : wr ggRet :=
  r <~ forZW fuel (g_rounds o) (fun rounds => forFW fuel (g_mcw o) (fun cw s =>
         _ <~ say (if g_verbose o then [LHead rounds cw] else []) ;;
         forZW fuel (g_maxdepth o) (fun md => forFW fuel (g_lambda o) (fun lam =>
           climbV (g_verbose o) cv gstep fz (g_nsteps o) (hybridStart id o rounds cw md lam))) s)) hs0 ;;
  lift (ggFinish r).
Section Real.
Context {K : Type} (E : Env) (fuel : nat) (q : oracles) (id : Z) (D : DataBunch K) (nfold : Z).
Definition GradientGridV (options : option GridOptions) : wr ggRet :=
  let o := match options with Some o => o | None => DefaultXGridOptions end in
  GradientGridWithV (searchCV E fuel q id D) (searchStep E fuel q id D nfold o) (q_fuzz q) fuel id o.
Definition HybridGradientGridV (options : option GridOptions) : wr ggRet :=
  let o := match options with Some o => o | None => DefaultXGridOptions end in
  HybridGradientGridWithV (searchCV E fuel q id D) (searchStep E fuel q id D nfold o) (q_fuzz q) fuel id o.
End Real.
