(** Model of utils/math.go, utils/loss_acti.go and the one-hot encoder of utils/libsvm.go. *)
From Verif Require Import Base F64 Env.
Open Scope Z_scope.

(** ** utils/math.go *)

(** utils/math.go:26-38 [SampleSlice]. The explicit panics and the run-time panic for a
    negative index are all [Panic]. Generic in the element type (Go: float64). *)
Definition SampleSlice {A} (s : list A) (indexes : list Z) : res (list A) :=
  if Nat.ltb (length s) (length indexes) then Panic
  else mapM (fun v => idx s v) indexes.

(** utils/math.go:15-22 [SampleMatrix] *)
Definition SampleMatrix {A} (m : list (list A)) (rowIndexes colIndexes : list Z) : res (list (list A)) :=
  mapM (fun v => row <- idx m v ;; SampleSlice row colIndexes) rowIndexes.

(** utils/math.go:79-89 [TransposeFloats]: [m[0]] panics on an empty matrix, [m[j][i]] when row j is too short *)
Definition TransposeFloats {A} (m : list (list A)) : res (list (list A)) :=
  match m with
  | [] => Panic
  | r0 :: _ => mapM (fun i => mapM (fun r => idx r i) m) (iota (length r0))
  end.

(** utils/math.go:45-46 [idSorter.Less] seen on zipped (index, value) elements *)
Definition idLess (p q : Z * f64) : bool := fltb (snd p) (snd q).

(** utils/math.go:54-62 [MemArgSort]. Cells [0..len(target)) of both buffers are overwritten, then the
    whole of the buffers is sorted in parallel ([Len] is [len(tmpint)]).
    Simplification: a [tmpval] shorter than [tmpint] is a panic (Go: panics as soon as [Less]/[Swap] touches
    the missing cells); both callers pass buffers of equal length. *)
Definition MemArgSort (E : Env) (target : list f64) (tmpint : list Z) (tmpval : list f64)
  : res (list Z * list f64) :=
  if Nat.ltb (length tmpint) (length target) || Nat.ltb (length tmpval) (length tmpint) then Panic
  else
    let i := iota (length target) ++ skipn (length target) tmpint in
    let a := target ++ skipn (length target) tmpval in
    let s := e_sort E _ idLess (combine i a) in
    Ok (map fst s, map snd s ++ skipn (length tmpint) a).

(** utils/math.go:66-76 [ArgSort] *)
Definition ArgSort (E : Env) (a : list f64) : list Z * list f64 :=
  let s := e_sort E _ idLess (combine (iota (length a)) a) in
  (map fst s, map snd s).

(** *** gonum mat.Dense: row-major data, stride = number of columns. *)
Record dense : Type := Dense { d_r : nat; d_c : nat; d_data : list f64 }.

(** gonum [mat.NewDense(r,c,data)]: panics on a zero dimension or on a length mismatch *)
Definition NewDense (r c : nat) (data : list f64) : res dense :=
  if (Nat.eqb r 0 || Nat.eqb c 0)%bool then Panic
  else if Nat.eqb (length data) (r * c) then Ok (Dense r c data) else Panic.

(** gonum [RawRowView(i)] for [0 <= i < r] *)
Definition rowView (D : dense) (i : nat) : list f64 :=
  firstn (d_c D) (skipn (i * d_c D) (d_data D)).

(** the values [i = start; i < len; i += step] of a Go loop with [step >= 1] *)
Fixpoint steps_from (fuel : nat) (start step len : Z) : list Z :=
  match fuel with
  | O => []
  | S k => if start <? len then start :: steps_from k (start + step) step len else []
  end.
(** [len] iterations always suffice since [start >= 0] and [step >= 1] *)
Definition strided (col c len : nat) : list Z :=
  steps_from len (Z.of_nat col) (Z.of_nat c) (Z.of_nat len).

(** utils/math.go:104-116 [DenseCol]; returns the data of the 1 x n matrix.
    The guard is [col > c], so [col = c] passes it. [mat.NewDense(1,0,_)] panics. *)
Definition DenseCol (D : dense) (col : Z) : res (list f64) :=
  if (Z.of_nat (d_c D) <? col) || (col <? 0) then Panic
  else
    newcol <- mapM (fun i => idx (d_data D) i) (strided (Z.to_nat col) (d_c D) (length (d_data D))) ;;
    match newcol with [] => Panic | _ => Ok newcol end.

(** utils/math.go:132-135, the loop of [AddToCol] *)
Fixpoint addLoop (data : list f64) (is : list Z) (s : list f64) (cont : nat) : res (list f64) :=
  match is with
  | [] => Ok data
  | i :: t =>
      old <- idx data i ;;
      x <- idx s (Z.of_nat cont) ;;
      data' <- upd data i (fadd old x) ;;
      addLoop data' t s (S cont)
  end.
(** utils/math.go:120-137 [AddToCol] (a negative [col] panics at the first access) *)
Definition AddToCol (D : dense) (s : list f64) (col : Z) : res dense :=
  if (Z.of_nat (d_c D) <? col) || (col <? 0) then Panic
  else if negb (Nat.eqb (length s) (d_r D)) then Panic
  else
    data' <- addLoop (d_data D) (strided (Z.to_nat col) (d_c D) (length (d_data D))) s 0 ;;
    Ok (Dense (d_r D) (d_c D) data').

(** utils/math.go:140-145 [ToOnes] *)
Definition ToOnes (D : dense) : dense :=
  Dense (d_r D) (d_c D) (map (fun _ => fone) (d_data D)).

(** gonum [D.Scale(f, D)] *)
Definition scaleDense (f : f64) (D : dense) : dense :=
  Dense (d_r D) (d_c D) (map (fun v => fmul f v) (d_data D)).

(** ** utils/libsvm.go: labels *)

(** utils/libsvm.go:18-23 [DataBunch] ([FloatLabels] is never used and is omitted) *)
Record DataBunch (K : Type) : Type := MkData {
  Data : list (list f64);
  Keys : list K;
  Labels : list Z
}.
Arguments MkData {K}. Arguments Data {K}. Arguments Keys {K}. Arguments Labels {K}.

(** [slices.Index], -1 when absent *)
Fixpoint sliceIndexFrom (l : list Z) (v : Z) (k : Z) : Z :=
  match l with
  | [] => -1
  | x :: t => if x =? v then k else sliceIndexFrom t v (k + 1)
  end.
Definition sliceIndex (l : list Z) (v : Z) : Z := sliceIndexFrom l v 0.
Definition contains (l : list Z) (v : Z) : bool := existsb (Z.eqb v) l.

(** utils/libsvm.go:227-235 [distinctElements] (instantiated at int) *)
Definition distinctElements (s : list Z) : list Z :=
  fold_left (fun diff v => if contains diff v then diff else diff ++ [v]) s [].

(** utils/libsvm.go:244-247: [ohlabels.Set(i, index, 1.0)] for each label *)
Fixpoint oheFill (D : dense) (de labels : list Z) (i : nat) : res dense :=
  match labels with
  | [] => Ok D
  | v :: t =>
      let index := sliceIndex de v in
      (* gonum Set panics when the column is out of range *)
      if (index <? 0) || (Z.of_nat (d_c D) <=? index) || Nat.leb (d_r D) i then Panic
      else oheFill (Dense (d_r D) (d_c D) (upd_nat (d_data D) (i * d_c D + Z.to_nat index) fone)) de t (S i)
  end.

(** utils/libsvm.go:238-250 [oneHotEncodeDense] *)
Definition oneHotEncodeDense (labels : list Z) : res (dense * list Z) :=
  let de := distinctElements labels in
  let cols := length de in
  let rows := length labels in
  D <- NewDense rows cols (repeat fzero (rows * cols)) ;;
  D' <- oheFill D de labels 0 ;;
  Ok (D', de).

(** ** utils/loss_acti.go *)
Section Formulas.
Context (N : num).
Notation V := (carrier N).

(** utils/loss_acti.go:36-48 [SoftMax] on a destination of the same length as the input (all callers):
    every cell of [probs] is first overwritten by [exp], then divided by the sum. *)
Definition softmax (ex : V -> V) (sum : list V -> V) (p : list V) : list V :=
  let probs := map ex p in
  let den := sum probs in
  map (fun v => ndiv N v den) probs.

(** utils/loss_acti.go:19-32 [Normalization] on a destination of the same length; [sum] is a
    left-to-right loop starting from 0.0 *)
Definition normalization (p : list V) : list V :=
  let sum := fold_left (nadd N) p (nofZ N 0) in
  map (fun v => ndiv N v sum) p.

(** utils/loss_acti.go:88-104 and 142-158, [Loss] of both losses ([y], [pred] of equal shape) *)
Definition sqLoss (y pred : list V) : V :=
  let loss := map (fun p => nsub N (fst p) (snd p)) (combine y pred) in
  let m := map (fun v => nmul N v v) loss in
  let l := fold_left (nadd N) m (nofZ N 0) in
  ndiv N l (nofZ N (Z.of_nat (length m))).

(** utils/loss_acti.go:108-115 and 166-173 [NegGradients] *)
Definition negGradients (y pred : list V) : list V :=
  map (fun p => nsub N (fst p) (snd p)) (combine y pred).

(** utils/loss_acti.go:119-124 and 177-182 [Gradients]: [g.Scale(-1, g)] *)
Definition gradients (y pred : list V) : list V :=
  map (fun v => nmul N (nofZ N (-1)) v) (negGradients y pred).

(** utils/loss_acti.go:128-136 [SQErrLoss.Hessian] *)
Definition sqHessian (probs : list V) : list V := map (fun _ => nofZ N 1) probs.

(** utils/loss_acti.go:186-198 [MSELoss.Hessian] *)
Definition mseHessian (probs : list V) : list V :=
  map (fun v => nmul N (nsub N (nofZ N 1) v) v) probs.
End Formulas.

(** utils/loss_acti.go:36-48 [SoftMax] with an explicit destination: cells beyond [len(p)] are kept, enter the
    sum but are not divided; a destination shorter than [p] panics. *)
Definition SoftMax (E : Env) (p probs : list f64) : res (list f64) :=
  if Nat.ltb (length probs) (length p) then Panic
  else
    let q := map (e_exp E) p ++ skipn (length p) probs in
    let den := e_sum E q in
    Ok (map (fun v => fdiv v den) (firstn (length p) q) ++ skipn (length p) q).

(** utils/loss_acti.go:19-32 [Normalization] with an explicit destination *)
Definition Normalization (p probs : list f64) : res (list f64) :=
  if Nat.ltb (length probs) (length p) then Panic
  else Ok (normalization F p ++ skipn (length p) probs).

(** utils/loss_acti.go:59-71 [activationDense]: row i of D receives the activation of row i of O; a [None]
    destination is allocated. [D.SetRow] panics when the row length differs from D's column count. *)
Fixpoint activationRows (E : Env) (act : list f64 -> list f64 -> res (list f64))
    (O D : dense) (n i : nat) : res dense :=
  match n with
  | O => Ok D
  | S n' =>
      if Nat.leb (d_r D) i then Panic
      else
        p <- act (rowView O i) (rowView D i) ;;
        if Nat.eqb (length p) (d_c D) then
          activationRows E act O
            (Dense (d_r D) (d_c D) (firstn (i * d_c D) (d_data D) ++ p ++ skipn ((i + 1) * d_c D) (d_data D)))
            n' (S i)
        else Panic
  end.
Definition activationDense (E : Env) (act : list f64 -> list f64 -> res (list f64))
    (O : dense) (D : option dense) : res dense :=
  let D0 := match D with Some d => d | None => Dense (d_r O) (d_c O) (repeat fzero (d_r O * d_c O)) end in
  activationRows E act O D0 (d_r O) 0.
(** utils/loss_acti.go:52-55 [SoftMaxDense] *)
Definition SoftMaxDense (E : Env) (O : dense) (D : option dense) : res dense :=
  activationDense E (SoftMax E) O D.
(** utils/loss_acti.go:12-15 [NormalizationDense] *)
Definition NormalizationDense (E : Env) (O : dense) (D : option dense) : res dense :=
  activationDense E Normalization O D.

(** utils/loss_acti.go:74-80 [LossFunc] as the functions used by training, on 1 x r matrices.
    Destination matrices are fully overwritten by both implementations and are not modelled. *)
Record LossFunc : Type := MkLoss {
  l_loss : list f64 -> list f64 -> f64;
  l_neg : list f64 -> list f64 -> list f64;
  l_grad : list f64 -> list f64 -> list f64;
  l_hess : list f64 -> list f64;
  l_name : Z (** identity of the loss object, for pointer comparison *)
}.
(** utils/loss_acti.go:83-136 *)
Definition SQErrLoss (id : Z) : LossFunc :=
  MkLoss (sqLoss F) (negGradients F) (gradients F) (sqHessian F) id.
(** utils/loss_acti.go:139-198 *)
Definition MSELoss (id : Z) : LossFunc :=
  MkLoss (sqLoss F) (negGradients F) (gradients F) (mseHessian F) id.
