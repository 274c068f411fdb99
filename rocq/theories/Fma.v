(** Processors with a fused multiply-add. The Go specification lets the compiler combine a product and a sum into one
    operation that rounds once (it does on arm64, ppc64, s390x and riscv64; not on amd64 before GOAMD64=v3). Of the expressions
    behind training and prediction two have the form [x*y + z]: the score update of multiclass.go:100 and the last step
    of the gain, tree.go:228. The other files of the model are about the two separate operations. *)
From Flocq Require Import IEEE754.BinarySingleNaN.
From Verif Require Import Base F64 Env Utils Tree Options Train.
Open Scope Z_scope.

(** x * y + z, rounded once *)
Definition ffma (x y z : f64) : f64 := Bfma mode_NE x y z.
(** multiclass.go:100: old + p * lr; [fuse]: whether the compiler uses the fused operation *)
Definition madd (fuse : bool) (old p lr : f64) : f64 := if fuse then ffma p lr old else fadd old (fmul p lr).
(** multiclass.go:99-101 *)
Fixpoint addTreesF (fuse : bool) (lr : f64) (row : list f64) (c : Z) (ens : list tree) (tmp : list f64) : res (list f64) :=
  match ens with
  | [] => Ok tmp
  | t :: rest =>
      p <- PredictSingle t row ;;
      old <- idx tmp c ;;
      tmp' <- upd tmp c (madd fuse old p lr) ;;
      addTreesF fuse lr row (c + 1) rest tmp'
  end.
(** multiclass.go:92-102 *)
Definition rawScoresF (fuse : bool) (M : MultiClass) (row : list f64) : res (list f64) :=
  b0 <- idx (mc_b M) 0 ;;
  foldM (fun tmp ens => addTreesF fuse (mc_lr M) row 0 ens tmp) (repeat (mc_base M) (length b0)) (mc_b M).
(** multiclass.go:91-108 [PredictSingle] *)
Definition PredictMCF (fuse : bool) (M : MultiClass) (row : list f64) : res (list f64) :=
  tmp <- rawScoresF fuse M row ;;
  O <- NewDense 1 (length tmp) tmp ;;
  D <- NewDense 1 (length tmp) (repeat fzero (length tmp)) ;;
  match mc_pt M with
  | None => Panic
  | Some f => D' <- f O D ;; Ok (d_data D')
  end.
(** multiclass.go:76-87 [PredictSingleClass] *)
Definition PredictSingleClassF (fuse : bool) (M : MultiClass) (row : list f64) : res Z :=
  preds <- PredictMCF fuse M row ;; argmax preds.

(** tree.go:228: 0.5 * (...) - Gamma/2 *)
Definition xgbGainF (fuse : bool) (gl hl gr hr g h lambda gamma : f64) : f64 :=
  let x := fsub (fadd (fdiv (sq F gl) (fadd hl lambda)) (fdiv (sq F gr) (fadd hr lambda))) (fdiv (sq F g) (fadd h lambda)) in
  let c := fdiv gamma (fofZ 2) in
  if fuse then ffma fhalf x (fopp c) else fsub (fmul fhalf x) c.
