(** Model of tree.go (construction and prediction of a single tree). *)
From Verif Require Import Base F64 Env Utils.
Open Scope Z_scope.

(** The fields of tree.go:20-37 [Tree] that are read after construction. [id] is never set; [grads], [hess], [x],
    [y], [features] are only read while the node is being built. [t_samples] is [None] for a nil slice. *)
Record tdata : Type := MkT {
  t_samples : option (list Z);
  t_best : f64;          (** bestScoreSoFar *)
  t_value : f64;
  t_nsamples : Z;
  t_split : Z;           (** splitFeatureIndex *)
  t_thr : f64;           (** threshold *)
  t_xgb : bool;
  t_branches : Z
}.
(** [*Tree]: a nil pointer or a node *)
Inductive tree : Type :=
| Nil
| Node (d : tdata) (l r : tree).

(** tree.go:40-55 [TreeOptions] ([Debug] and the unused [ColSampleByNode] omitted). [None] is a nil slice;
    a nil [Y] or [AllowedColumns] behaves as an empty one. [to_in]/[to_val] are the scratch buffers: capacity is
    taken equal to length, and their contents are not threaded from call to call because the result does not
    depend on them (theorem for property C18). *)
Record TreeOptions : Type := MkTO {
  to_xgb : bool;
  to_mcw : f64;
  to_allowed : list Z;
  to_lambda : f64;
  to_gamma : f64;
  to_grads : option (list f64);
  to_hess : option (list f64);
  to_y : list f64;
  to_in : option (list Z);
  to_val : option (list f64);
  to_maxdepth : Z;
  to_indexes : option (list Z)
}.
Definition orNil {A} (o : option (list A)) : list A := match o with Some l => l | None => [] end.
Definition isNone {A} (o : option A) : bool := match o with None => true | Some _ => false end.

(** tree.go:64-66 *)
Definition DefaultGTreeOptions : TreeOptions :=
  MkTO false fone [] fzero fzero None None [] None None 4 None.
(** tree.go:69-71 *)
Definition DefaultXTreeOptions : TreeOptions :=
  MkTO true fone [] fone fone None None [] None None 4 None.

(** tree.go:73-88 [clone]: [AllowedColumns], [in] and [val] are not copied *)
Definition clone (o : TreeOptions) : TreeOptions :=
  MkTO (to_xgb o) (to_mcw o) [] (to_lambda o) (to_gamma o) (to_grads o) (to_hess o) (to_y o)
       None None (to_maxdepth o) (to_indexes o).

(** tree.go:161-172: the options of a child with sample list [ix] *)
Definition childOpts (o : TreeOptions) (ix : list Z) : TreeOptions :=
  let c := clone o in
  MkTO (to_xgb c) (to_mcw c) (to_allowed c) (to_lambda c) (to_gamma c) (to_grads c) (to_hess c) (to_y c)
       (to_in o) (to_val o) (to_maxdepth c - 1) (Some ix).

(** tree.go:99-110: the assignments NewTree makes to the caller's options *)
Definition prepare (X : list (list f64)) (o : TreeOptions) : TreeOptions :=
  let ix := match to_indexes o with Some ix => ix | None => iota (length X) end in
  MkTO (to_xgb o) (to_mcw o) (to_allowed o) (to_lambda o) (to_gamma o) (to_grads o) (to_hess o) (to_y o)
       (Some (match to_in o with Some b => b | None => repeat 0 (length ix) end))
       (Some (match to_val o with Some b => b | None => repeat fzero (length ix) end))
       (to_maxdepth o) (Some ix).

(** tree.go:188-189, 247-251: what the scan updates in the node *)
Record best : Type := MkB { b_score : f64; b_split : Z; b_thr : f64 }.

(** ** Formulas *)
Section Formulas.
Context (N : num).
Notation V := (carrier N).
Definition sq (x : V) : V := nmul N x x.
(** tree.go:116 *)
Definition xgbValue (sumg sumh lambda : V) : V :=
  ndiv N (nmul N (nofZ N (-1)) sumg) (nadd N sumh lambda).
(** tree.go:121 *)
Definition meanValue (sumy : V) (n : Z) : V := ndiv N sumy (nofZ N n).
(** tree.go:228, [half] is the constant 0.5 *)
Definition xgbGain (half gl hl gr hr g h lambda gamma : V) : V :=
  nsub N
    (nmul N half
       (nsub N (nadd N (ndiv N (sq gl) (nadd N hl lambda)) (ndiv N (sq gr) (nadd N hr lambda)))
               (ndiv N (sq g) (nadd N h lambda))))
    (ndiv N gamma (nofZ N 2)).
(** tree.go:243 *)
Definition regGain (yl yr y : V) (nl nr n : Z) : V :=
  nadd N (nsub N (ndiv N (nopp N (sq yl)) (nofZ N nl)) (ndiv N (sq yr) (nofZ N nr)))
         (ndiv N (sq y) (nofZ N n)).
End Formulas.

(** tree.go:250 *)
Definition midpoint (xi xinext : f64) : f64 := fdiv (fadd xi xinext) (fofZ 2).

(** ** tree.go:209-252, the scan over the sorted samples.
    [P] is what is read of each sample besides x (gradient and hessian, or target), [S] the running sums. *)
Section Scan.
Context {P S : Type} (step : S -> P -> S) (score : S -> Z -> Z -> f64) (better : f64 -> f64 -> bool)
        (mcw : Z) (feat : Z).
Fixpoint scan (l : list (f64 * P)) (s : S) (nleft nright : Z) (b : best) : best :=
  match l with
  | (xi, p) :: t =>
      match t with
      | (xinext, _) :: _ =>
          let nright := nright - 1 in
          let nleft := nleft + 1 in
          let s := step s p in
          if (nleft <? mcw) || feqb xi xinext then scan t s nleft nright b
          else if nright <? mcw then b
          else
            let gain := score s nleft nright in
            scan t s nleft nright
              (if better gain (b_score b) then MkB gain feat (midpoint xi xinext) else b)
      | [] => b
      end
  | [] => b
  end.
End Scan.

(** running sums of tree.go:200-201 and 215-218: sumgLeft, sumgRight, sumhLeft, sumhRight *)
Definition xstep (s : (f64 * f64) * (f64 * f64)) (p : f64 * f64) : (f64 * f64) * (f64 * f64) :=
  let '((gl, gr), (hl, hr)) := s in
  let '(gi, hi) := p in
  ((fadd gl gi, fsub gr gi), (fadd hl hi, fsub hr hi)).
(** tree.go:228 *)
Definition xscore (lambda gamma sumg sumh : f64) (s : (f64 * f64) * (f64 * f64)) (nl nr : Z) : f64 :=
  let '((gl, gr), (hl, hr)) := s in
  xgbGain F fhalf gl hl gr hr sumg sumh lambda gamma.
(** tree.go:230: [gain > bestScoreSoFar] *)
Definition xbetter (gain b : f64) : bool := fltb b gain.
(** tree.go:234-235 *)
Definition ystep (s : f64 * f64) (yi : f64) : f64 * f64 := (fadd (fst s) yi, fsub (snd s) yi).
(** tree.go:243 *)
Definition yscore (sumy : f64) (n : Z) (s : f64 * f64) (nl nr : Z) : f64 :=
  regGain F (fst s) (snd s) sumy nl nr n.
(** tree.go:244: [gain < bestScoreSoFar] *)
Definition ybetter (gain b : f64) : bool := fltb gain b.

(** [s[0:n]] (capacity = length) *)
Definition slice0 {A} (s : list A) (n : nat) : res (list A) :=
  if Nat.ltb (length s) n then Panic else Ok (firstn n s).

(** column [f] of the rows [ix] as the code extracts it (tree.go:149,152 and 181-182) *)
Definition column (X : list (list f64)) (ix : list Z) (f : Z) : res (list f64) :=
  x <- SampleMatrix X ix [f] ;;
  xt <- TransposeFloats x ;;
  idx xt 0.

(** tree.go:179-253 [findBetterSplit]; [o] has been prepared, [ix] is o.Indexes *)
Definition findBetterSplit (E : Env) (X : list (list f64)) (o : TreeOptions) (ix : list Z)
    (b : best) (f : Z) : res best :=
  xt0 <- column X ix f ;;
  bin <- slice0 (orNil (to_in o)) (length xt0) ;;
  bval <- slice0 (orNil (to_val o)) (length xt0) ;;
  ' (si, sx) <- MemArgSort E xt0 bin bval ;;
  let n := Z.of_nat (length ix) in
  let mcw := ftoZ (to_mcw o) in
  if to_xgb o then
    g <- SampleSlice (orNil (to_grads o)) ix ;;
    h <- SampleSlice (orNil (to_hess o)) ix ;;
    sg <- SampleSlice g si ;;
    sh <- SampleSlice h si ;;
    let sumg := e_sum E g in
    let sumh := e_sum E h in
    Ok (scan xstep (xscore (to_lambda o) (to_gamma o) sumg sumh) xbetter mcw f
          (combine sx (combine sg sh)) ((fzero, sumg), (fzero, sumh)) 0 n b)
  else
    y <- SampleSlice (to_y o) ix ;;
    sy <- SampleSlice y si ;;
    let sumy := e_sum E sy in
    Ok (scan ystep (yscore sumy n) ybetter mcw f (combine sx sy) (fzero, sumy) 0 n b).

(** tree.go:139-145 *)
Definition scannedColumns (nfeat : nat) (allowed : list Z) : list Z :=
  filter (fun i => Nat.eqb (length allowed) 0 || contains allowed i) (iota nfeat).

(** tree.go:261-270 [Leaf] on the fields it reads *)
Definition leafScore (xgb : bool) (bs : f64) : bool :=
  if xgb then feqb bs fzero else fisposinf bs.
Definition t_leaf (d : tdata) : bool := leafScore (t_xgb d) (t_best d).

(** tree.go:153-160 *)
Definition splitSamples (ix : list Z) (col : list f64) (thr : f64) : list Z * list Z :=
  (map fst (filter (fun p => fleb (snd p) thr) (combine ix col)),
   map fst (filter (fun p => negb (fleb (snd p) thr)) (combine ix col))).

(** tree.go:115-123: value and initial score *)
Definition nodeValue (E : Env) (o : TreeOptions) (ix : list Z) : res (f64 * f64) :=
  if to_xgb o then
    g <- SampleSlice (orNil (to_grads o)) ix ;;
    h <- SampleSlice (orNil (to_hess o)) ix ;;
    Ok (xgbValue F (e_sum E g) (e_sum E h) (to_lambda o), fzero)
  else
    y <- SampleSlice (to_y o) ix ;;
    Ok (meanValue F (e_sum E y) (Z.of_nat (length y)), finf).

Definition branchesOf (t : tree) : Z := match t with Nil => 0 | Node d _ _ => t_branches d end.

(** tree.go:91-177 [NewTree] together with [maybeInsertChildNode]; [n] is max(0, MaxDepth). *)
Fixpoint grow (E : Env) (X : list (list f64)) (n : nat) (o0 : TreeOptions) : res tree :=
  if to_xgb o0 && isNone (to_grads o0) && isNone (to_hess o0) then Panic
  else
    let o := prepare X o0 in
    let ix := orNil (to_indexes o) in
    ' (value, score0) <- nodeValue E o ix ;;
    row0 <- idx X 0 ;;
    let leafnode b := MkT (Some ix) (b_score b) value (Z.of_nat (length ix)) (b_split b) (b_thr b) (to_xgb o) 1 in
    match n with
    | O => Ok (Node (leafnode (MkB score0 0 fzero)) Nil Nil)
    | S n' =>
        b <- foldM (findBetterSplit E X o ix) (MkB score0 0 fzero)
               (scannedColumns (length row0) (to_allowed o)) ;;
        if leafScore (to_xgb o) (b_score b) then Ok (Node (leafnode b) Nil Nil)
        else
          col <- column X ix (b_split b) ;;
          let '(il, ir) := splitSamples ix col (b_thr b) in
          l <- grow E X n' (childOpts o il) ;;
          r <- grow E X n' (childOpts o ir) ;;
          Ok (Node (MkT (Some ix) (b_score b) value (Z.of_nat (length ix)) (b_split b) (b_thr b) (to_xgb o)
                      (1 + branchesOf l + branchesOf r)) l r)
    end.
(** tree.go:91-136 [NewTree] *)
Definition NewTree (E : Env) (X : list (list f64)) (o : TreeOptions) : res tree :=
  grow E X (Z.to_nat (to_maxdepth o)) o.
(** [NewTree] together with the state in which it leaves the caller's option record (tree.go:99-110) *)
Definition NewTreeSt (E : Env) (X : list (list f64)) (o : TreeOptions) : res (tree * TreeOptions) :=
  t <- NewTree E X o ;; Ok (t, prepare X o).

(** tree.go:285-296 [PredictSingle]; calling it on a nil child is a nil dereference *)
Fixpoint PredictSingle (t : tree) (row : list f64) : res f64 :=
  match t with
  | Nil => Panic
  | Node d l r =>
      if t_leaf d then Ok (t_value d)
      else
        v <- idx row (t_split d) ;;
        if fleb v (t_thr d) then PredictSingle l row else PredictSingle r row
  end.

(** tree.go:278-280, the loop of [Predict] from position [i] on *)
Fixpoint predictLoop (t : tree) (data : list (list f64)) (i : Z) (preds : list f64) : res (list f64) :=
  match data with
  | [] => Ok preds
  | v :: rest =>
      p <- PredictSingle t v ;;
      preds' <- upd preds i p ;;
      predictLoop t rest (i + 1) preds'
  end.
(** tree.go:274-282 [Predict] *)
Definition Predict (t : tree) (data : list (list f64)) (preds : option (list f64)) : res (list f64) :=
  predictLoop t data 0 (match preds with Some p => p | None => repeat fzero (length data) end).

(** tree.go:256-258 [Branches] *)
Definition Branches (t : tree) : res Z := match t with Nil => Panic | Node d _ _ => Ok (t_branches d) end.
(** tree.go:261-270 [Leaf] *)
Definition Leaf (t : tree) : res bool := match t with Nil => Panic | Node d _ _ => Ok (t_leaf d) end.

(** xgb.go:203-207: sums over a leaf's samples, [mat.Dense.At] panics out of range *)
Fixpoint sumAt (v : list f64) (ix : list Z) (acc : f64) : res f64 :=
  match ix with
  | [] => Ok acc
  | w :: t => x <- idx v w ;; sumAt v t (fadd acc x)
  end.
(** xgb.go:214-227 [applyToLeafs] with the function of xgb.go:199-210 ([updateLeaves]) *)
Fixpoint updateLeaves (t : tree) (grad hess : list f64) : res tree :=
  match t with
  | Nil => Panic
  | Node d l r =>
      l' <- match l with Nil => Ok Nil | Node _ _ _ => updateLeaves l grad hess end ;;
      r' <- match r with Nil => Ok Nil | Node _ _ _ => updateLeaves r grad hess end ;;
      if t_leaf d then
        match t_samples d with
        | None => Panic
        | Some ix =>
            sh <- sumAt hess ix fzero ;;
            sg <- sumAt grad ix fzero ;;
            Ok (Node (MkT (t_samples d) (t_best d) (fdiv sg sh) (t_nsamples d) (t_split d) (t_thr d)
                        (t_xgb d) (t_branches d)) l' r')
        end
      else Ok (Node d l' r')
  end.
