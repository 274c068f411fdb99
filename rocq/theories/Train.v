(** Model of xgb.go and multiclass.go: training an ensemble and predicting with it. *)
From Verif Require Import Base F64 Env Utils Tree Options.
Open Scope Z_scope.

(** xgb.go:187-195 [SubSample]; [draw i] is the i-th value returned by rand.Float64().
    A negative capacity is a run-time panic; memory exhaustion is not modelled. *)
Definition SubSample (totdata : Z) (subsample : f64) (draw : nat -> f64) : res (list Z) :=
  if ftoZ (fmul (fofZ totdata) subsample) + 1 <? 0 then Panic
  else Ok (map Z.of_nat (filter (fun i => fleb (draw i) subsample) (seq 0 (Z.to_nat totdata)))).

(** multiclass.go:15-24 [MultiClass]. [tmp] is never used and [predtmp] only as a buffer that is ignored
    (multiclass.go:91-93), so both are omitted. [mc_pt] is [None] for a nil function value. *)
Record MultiClass : Type := MkMC {
  mc_b : list (list tree);
  mc_lr : f64;
  mc_labels : list Z;
  mc_pt : option (dense -> dense -> res dense);
  mc_base : f64;
  mc_xgb : bool
}.

(** the variables of NewMultiClass that live across rounds (xgb.go:31-50) *)
Record tstate : Type := MkSt {
  s_raw : dense;
  s_probs : dense;
  s_tmp : list f64;          (** tmpPreds *)
  s_stopped : list bool;
  s_noprog : list Z;         (** roundsNoProgress *)
  s_prev : list f64          (** prevloss *)
}.

(** Ghost record of one trained tree: the class it was trained for, the round, the loss computed after it was
    added. The program keeps only the tree. *)
Record entryG : Type := MkG { g_class : nat; g_round : nat; g_tree : tree; g_loss : f64 }.

(** xgb.go:115 the constant 1e-6, correctly rounded *)
Definition epsilon : f64 := fdec 1 1000000.

(** xgb.go:72-86: options of the k-th tree in an XGB ensemble *)
Definition xTreeOpts (O : Options) (n : nat) (ix : option (list Z)) (cols : list Z) (g h y : list f64) : TreeOptions :=
  MkTO true (o_mcw O) cols (o_lambda O) (o_gamma O) (Some g) (Some h) y
       (Some (repeat 0 n)) (Some (repeat fzero n)) (o_maxdepth O) ix.
(** xgb.go:89-97 *)
Definition gTreeOpts (O : Options) (n : nat) (y : list f64) : TreeOptions :=
  MkTO false (o_mcw O) [] fzero fzero None None y
       (Some (repeat 0 n)) (Some (repeat fzero n)) (o_maxdepth O) None.

(** xgb.go:67-100: the tree of class [k]; [lab] is the class' column of the one-hot labels, [pr] of the probabilities.
    The scratch buffers are given fresh contents at each tree because results do not depend on them (C18). *)
Definition classTree (E : Env) (O : Options) (data : list (list f64)) (ix : option (list Z)) (cols : list Z)
    (lab pr : list f64) : res tree :=
  let h := l_hess (o_loss O) pr in
  if o_xgb O then
    NewTree E data (xTreeOpts O (length data) ix cols (l_grad (o_loss O) lab pr) h lab)
  else
    let g := l_neg (o_loss O) lab pr in
    t <- NewTree E data (gTreeOpts O (length data) g) ;;
    updateLeaves t g h.

(** xgb.go:114-137: the early-stopping bookkeeping of class [k] after loss [l] *)
Definition earlyStop (O : Options) (round k : nat) (l : f64) (st : tstate) : tstate :=
  if 0 <? o_earlystop O then
    if fleb l epsilon then
      MkSt (s_raw st) (s_probs st) (s_tmp st) (upd_nat (s_stopped st) k true) (s_noprog st) (s_prev st)
    else if Nat.eqb round 0 then
      MkSt (s_raw st) (s_probs st) (s_tmp st) (s_stopped st) (s_noprog st) (upd_nat (s_prev st) k l)
    else
      let c := if fleb (nth k (s_prev st) fzero) l then nth k (s_noprog st) 0 + 1 else 0 in
      MkSt (s_raw st) (s_probs st) (s_tmp st)
           (if o_earlystop O <=? c then upd_nat (s_stopped st) k true else s_stopped st)
           (upd_nat (s_noprog st) k c) (upd_nat (s_prev st) k l)
  else st.

(** xgb.go:61-138: the body of the loop over classes; [acc] is [classes]. Printing (Verbose) is not modelled; the
    loss has no effect besides early stopping, so it is recorded also when the program does not compute it. *)
Definition classStep (E : Env) (O : Options) (data : list (list f64)) (ohe : dense) (ix : option (list Z))
    (cols : list Z) (round : nat) (sa : tstate * list entryG) (k : nat) : res (tstate * list entryG) :=
  let '(st, acc) := sa in
  if nth k (s_stopped st) false then Ok (st, acc)
  else
    lab <- DenseCol ohe (Z.of_nat k) ;;
    pr <- DenseCol (s_probs st) (Z.of_nat k) ;;
    t <- classTree E O data ix cols lab pr ;;
    preds <- Predict t data (Some (s_tmp st)) ;;
    let tmp := map (fun v => fmul v (o_lr O)) preds in
    raw <- AddToCol (s_raw st) tmp (Z.of_nat k) ;;
    probs <- SoftMaxDense E raw (Some (s_probs st)) ;;
    pr' <- DenseCol probs (Z.of_nat k) ;;
    let l := l_loss (o_loss O) lab pr' in
    Ok (earlyStop O round k l (MkSt raw probs tmp (s_stopped st) (s_noprog st) (s_prev st)),
        acc ++ [MkG k round t l]).

(** the random draws of one call: for every round, the draws of the row and of the column sub-sampling *)
Definition draws : Type := nat -> (nat -> f64) * (nat -> f64).

(** xgb.go:51-59, the sub-samples of a round: [None] is a nil slice *)
Definition roundSamples (O : Options) (data : list (list f64)) (rd : (nat -> f64) * (nat -> f64))
  : res (option (list Z) * list Z) :=
  ix <- (if fltb (o_ss O) fone && o_xgb O
         then s <- SubSample (Z.of_nat (length data)) (o_ss O) (fst rd) ;; Ok (Some s) else Ok None) ;;
  cols <- (if fltb (o_css O) fone && o_xgb O
           then row0 <- idx data 0 ;; SubSample (Z.of_nat (length row0)) (o_css O) (snd rd) else Ok []) ;;
  Ok (ix, cols).

(** xgb.go:51-140: one round *)
Definition roundStep (E : Env) (O : Options) (data : list (list f64)) (ohe : dense) (nlabels : nat) (rnd : draws)
    (sb : tstate * list (list entryG)) (round : nat) : res (tstate * list (list entryG)) :=
  let '(st, boosters) := sb in
  ' (ix, cols) <- roundSamples O data (rnd round) ;;
  if Z.of_nat (length (orNil ix)) <? o_minsample O then Ok (st, boosters)
  else
    ' (st', classes) <- foldM (classStep E O data ohe ix cols round) (st, []) (seq 0 nlabels) ;;
    Ok (st', boosters ++ [classes]).

(** xgb.go:36-38: MinChildWeight is raised to 1 in the caller's option record *)
Definition fixMCW (O : Options) : Options :=
  MkOpts (o_xgb O) (o_rounds O) (o_maxdepth O) (o_earlystop O) (o_lr O) (o_lambda O)
         (if fltb (o_mcw O) fone then fone else o_mcw O) (o_gamma O) (o_ss O) (o_css O)
         (o_base O) (o_minsample O) (o_method O) (o_verbose O) (o_loss O).

(** what the call leaves behind: the ensemble, the caller's options, and (ghost) the final variables and the trees
    with their classes *)
Record trained : Type := MkTr {
  tr_model : MultiClass;
  tr_opts : Options;
  tr_state : tstate;
  tr_hist : list (list entryG)
}.

(** xgb.go:21-143 [NewMultiClass] with explicit options *)
Definition NewMultiClass {K} (E : Env) (rnd : draws) (D : DataBunch K) (O0 : Options) : res trained :=
  ' (ohe, labels) <- oneHotEncodeDense (Labels D) ;;
  let O := fixMCW O0 in
  let nlabels := length labels in
  let r := d_r ohe in
  raw0 <- NewDense r (d_c ohe) (repeat fzero (r * d_c ohe)) ;;
  let raw := scaleDense (o_base O) (ToOnes raw0) in
  probs <- SoftMaxDense E raw None ;;
  let st0 := MkSt raw probs (repeat fzero r) (repeat false nlabels) (repeat 0 nlabels) (repeat fzero nlabels) in
  ' (st, hist) <- foldM (roundStep E O (Data D) ohe nlabels rnd) (st0, []) (seq 0 (Z.to_nat (o_rounds O))) ;;
  Ok (MkTr (MkMC (map (map g_tree) hist) (o_lr O) labels
              (Some (fun P Q => SoftMaxDense E P (Some Q))) (o_base O) (o_xgb O))
           O st hist).

(** ** multiclass.go *)

(** multiclass.go:99-101, the inner loop: class [c] onwards *)
Fixpoint addTrees (lr : f64) (row : list f64) (c : Z) (ens : list tree) (tmp : list f64) : res (list f64) :=
  match ens with
  | [] => Ok tmp
  | t :: rest =>
      p <- PredictSingle t row ;;
      old <- idx tmp c ;;
      tmp' <- upd tmp c (fadd old (fmul p lr)) ;;
      addTrees lr row (c + 1) rest tmp'
  end.
(** multiclass.go:92-102: the raw scores *)
Definition rawScores (M : MultiClass) (row : list f64) : res (list f64) :=
  b0 <- idx (mc_b M) 0 ;;
  foldM (fun tmp ens => addTrees (mc_lr M) row 0 ens tmp) (repeat (mc_base M) (length b0)) (mc_b M).
(** multiclass.go:91-108 [PredictSingle]; the optional buffers are not used. Returns the slice and the buffers. *)
Definition PredictMC (M : MultiClass) (row : list f64) (bufs : list (list f64)) : res (list f64 * list (list f64)) :=
  tmp <- rawScores M row ;;
  O <- NewDense 1 (length tmp) tmp ;;
  D <- NewDense 1 (length tmp) (repeat fzero (length tmp)) ;;
  match mc_pt M with
  | None => Panic
  | Some f => D' <- f O D ;; Ok (d_data D', bufs)
  end.

(** the loop of multiclass.go:80-85 and xgb.go:174-179: position of the first maximum *)
Fixpoint argmaxLoop (l : list f64) (i best : Z) (maxval : f64) : Z :=
  match l with
  | [] => best
  | v :: t => if fltb maxval v then argmaxLoop t (i + 1) i v else argmaxLoop t (i + 1) best maxval
  end.
Definition argmax (l : list f64) : res Z :=
  m <- idx l 0 ;; Ok (argmaxLoop l 0 0 m).
(** multiclass.go:76-87 [PredictSingleClass] *)
Definition PredictSingleClass (M : MultiClass) (row : list f64) (bufs : list (list f64)) : res (Z * list (list f64)) :=
  ' (preds, bufs') <- PredictMC M row bufs ;;
  p <- argmax preds ;;
  Ok (p, bufs').

(** multiclass.go:26-30 [ClassLabels] *)
Definition ClassLabels (M : MultiClass) : list Z := mc_labels M.
(** multiclass.go:70-72 [Classes] *)
Definition Classes (M : MultiClass) : Z := Z.of_nat (length (mc_b M)).
(** multiclass.go:54-66 [Rounds]; [class] is the optional argument *)
Definition Rounds (M : MultiClass) (class : option Z) : res Z :=
  let c := match class with Some c => if 0 <=? c then c else 0 | None => 0 end in
  if (Classes M <? c) || (Z.of_nat (length (mc_b M)) <=? c) then Ok (-1)
  else b <- idx (mc_b M) c ;; Ok (Z.of_nat (length b)).

(** multiclass.go:41-46: counting the right predictions from row [i] on *)
Fixpoint countRight (M : MultiClass) (rows : list (list f64)) (actual : list Z) (i : Z) (right : Z) : res Z :=
  match rows with
  | [] => Ok right
  | v :: rest =>
      ' (p, _) <- PredictSingleClass M v [[]] ;;
      lab <- idx (mc_labels M) p ;;
      act <- idx actual i ;;
      countRight M rest actual (i + 1) (if lab =? act then right + 1 else right)
  end.
(** multiclass.go:34-49 [Accuracy]; the buffer argument has no effect (C38) *)
Definition Accuracy {K} (M : MultiClass) (D : DataBunch K) : res f64 :=
  right <- countRight M (Data D) (Labels D) 0 0 ;;
  Ok (fmul (fofZ 100) (fdiv (fofZ right) (fofZ (Z.of_nat (length (Data D)))))).

(** ** xgb.go: functions on probability matrices *)

(** xgb.go:167-182 [ClassesFromProbs]: the r x 1 result matrix *)
Definition ClassesFromProbs (P : dense) : res dense :=
  data <- mapM (fun i => a <- argmax (rowView P i) ;; Ok (fofZ a)) (seq 0 (d_r P)) ;;
  NewDense (d_r P) 1 data.

(** xgb.go:153-156, the formula of one entry, generic in the number type *)
Definition logOddsEntry (N : num) (lg : carrier N -> carrier N) (s v : carrier N) : carrier N :=
  lg (nmul N v (nsub N s v)).
(** xgb.go:148-160 [LogOddsFromProbs] *)
Definition LogOddsFromProbs (E : Env) (P : dense) : res dense :=
  NewDense (d_r P) (d_c P)
    (concat (map (fun i => let row := rowView P i in
                           map (logOddsEntry F (e_log E) (e_sum E row)) row) (seq 0 (d_r P)))).
