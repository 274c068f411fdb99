(** Losses and activations with their destinations in memory, utils/loss_acti.go and utils/math.go:140-145: a slice is a part of an
    array, a matrix a whole array, and arguments and destination may be the same. Matrices that are views of parts of others, and
    destinations that are empty matrices, are not modelled. *)
From Verif Require Import Base F64 Env Utils.
Open Scope Z_scope.

Definition mem : Type := list (list f64).
(** an array and a position in it *)
Definition addr : Type := (nat * nat)%type.
Definition arr (h : mem) (r : nat) : list f64 := nth r h [].
Definition getC (h : mem) (a : addr) : res f64 := match nth_error (arr h (fst a)) (snd a) with Some v => Ok v | None => Panic end.
Definition setC (h : mem) (a : addr) (v : f64) : res mem :=
  if Nat.ltb (snd a) (length (arr h (fst a))) then Ok (upd_nat h (fst a) (upd_nat (arr h (fst a)) (snd a) v)) else Panic.
Definition next (a : addr) : addr := (fst a, S (snd a)).
(** [for i := 0; i < n; i++ { d[i] = f(a[i], b[i]) }] *)
Fixpoint loop2 (f : f64 -> f64 -> f64) (h : mem) (d a b : addr) (n : nat) : res mem :=
  match n with
  | O => Ok h
  | S n' => x <- getC h a ;; y <- getC h b ;; h' <- setC h d (f x y) ;; loop2 f h' (next d) (next a) (next b) n'
  end.

(** a slice: where it starts, and its length *)
Record slice : Type := MkS { sl_at : addr; sl_len : nat }.
Definition readS (h : mem) (s : slice) : list f64 := firstn (sl_len s) (skipn (snd (sl_at s)) (arr h (fst (sl_at s)))).
(** utils/loss_acti.go:36-48 [SoftMax] with a destination: lines 40-42, 43, 44-46. A destination that is too short panics; what was
    written before that is not modelled. *)
Definition SoftMaxM (E : Env) (h : mem) (p probs : slice) : res mem :=
  if Nat.ltb (sl_len probs) (sl_len p) then Panic else
  h1 <- loop2 (fun v _ => e_exp E v) h (sl_at probs) (sl_at p) (sl_at p) (sl_len p) ;;
  let den := e_sum E (readS h1 probs) in
  loop2 (fun v _ => fdiv v den) h1 (sl_at probs) (sl_at probs) (sl_at probs) (sl_len p).
(** utils/loss_acti.go:19-32 [Normalization] with a destination; the sum is taken in the loop that copies *)
Fixpoint copySum (h : mem) (d a : addr) (n : nat) (sum : f64) : res (mem * f64) :=
  match n with
  | O => Ok (h, sum)
  | S n' => v <- getC h a ;; h' <- setC h d v ;; copySum h' (next d) (next a) n' (fadd sum v)
  end.
Definition NormalizationM (h : mem) (p probs : slice) : res mem :=
  if Nat.ltb (sl_len probs) (sl_len p) then Panic else
  ' (h1, sum) <- copySum h (sl_at probs) (sl_at p) (sl_len p) fzero ;;
  loop2 (fun v _ => fdiv v sum) h1 (sl_at probs) (sl_at probs) (sl_at probs) (sl_len p).

(** a matrix: its shape and the array of its entries, row by row *)
Record matM : Type := MkM { m_r : nat; m_c : nat; m_at : nat }.
Definition sameShape (a b : matM) : bool := Nat.eqb (m_r a) (m_r b) && Nat.eqb (m_c a) (m_c b).
Definition entries (a : matM) : nat := (m_r a * m_c a)%nat.
Definition start (a : matM) : addr := (m_at a, O).
(** [mat.NewDense(r, c, nil)] *)
Definition newM (h : mem) (r c : nat) : mem * matM := (h ++ [repeat fzero (r * c)], MkM r c (length h)).
(** the destination, a new matrix when it is nil *)
Definition orNew (h : mem) (like : matM) (d : option matM) : mem * matM :=
  match d with Some d => (h, d) | None => newM h (m_r like) (m_c like) end.
(** gonum's [d.Sub(a, b)], [d.MulElem(a, b)]: shapes that differ panic; entry by entry *)
Definition elemM (f : f64 -> f64 -> f64) (h : mem) (d a b : matM) : res mem :=
  if sameShape a b && sameShape d a then loop2 f h (start d) (start a) (start b) (entries a) else Panic.
(** utils/loss_acti.go:88-104 and 142-158 [Loss] *)
Definition LossM (h : mem) (y pred : matM) (loss : option matM) : res (mem * f64) :=
  let '(h0, d) := orNew h y loss in
  h1 <- elemM fsub h0 d y pred ;;
  h2 <- elemM fmul h1 d d d ;;
  Ok (h2, fdiv (fold_left fadd (arr h2 (m_at d)) fzero) (fofZ (Z.of_nat (length (arr h2 (m_at d)))))).
(** utils/loss_acti.go:108-115 and 166-173 [NegGradients] *)
Definition NegGradientsM (h : mem) (y pred : matM) (results : option matM) : res (mem * matM) :=
  let '(h0, d) := orNew h y results in
  h1 <- elemM fsub h0 d y pred ;; Ok (h1, d).
(** utils/loss_acti.go:119-124 and 177-182 [Gradients]: [g.Scale(-1, g)] *)
Definition GradientsM (h : mem) (y pred : matM) (results : option matM) : res (mem * matM) :=
  ' (h1, g) <- NegGradientsM h y pred results ;;
  h2 <- elemM (fun v _ => fmul (fofZ (-1)) v) h1 g g g ;; Ok (h2, g).
(** utils/loss_acti.go:128-136 [SQErrLoss.Hessian]; utils/math.go:140-145 [ToOnes] *)
Definition SQHessianM (h : mem) (probs : matM) (hess : option matM) : res (mem * matM) :=
  let '(h0, d) := orNew h probs hess in
  h1 <- loop2 (fun _ _ => fofZ 1) h0 (start d) (start d) (start d) (length (arr h0 (m_at d))) ;; Ok (h1, d).
(** utils/loss_acti.go:186-198 [MSELoss.Hessian]: no shape is compared *)
Definition MSEHessianM (h : mem) (probs : matM) (hess : option matM) : res (mem * matM) :=
  let '(h0, d) := orNew h probs hess in
  h1 <- loop2 (fun v _ => fmul (fsub (fofZ 1) v) v) h0 (start d) (start probs) (start probs) (length (arr h0 (m_at probs))) ;; Ok (h1, d).
(** utils/loss_acti.go:59-71 [activationDense]. [RawRowView] panics when there is no such row. The call of [SetRow] writes the row over
    itself; it panics when the lengths differ, which they cannot. *)
Definition rowOf (a : matM) (i : nat) : slice := MkS (m_at a, (i * m_c a)%nat) (m_c a).
Fixpoint activationRowsM (act : mem -> slice -> slice -> res mem) (h : mem) (O D : matM) (n i : nat) : res mem :=
  match n with
  | O => Ok h
  | S n' => if Nat.leb (m_r D) i then Panic else h' <- act h (rowOf O i) (rowOf D i) ;; activationRowsM act h' O D n' (S i)
  end.
Definition activationDenseM (act : mem -> slice -> slice -> res mem) (h : mem) (O : matM) (D : option matM) : res (mem * matM) :=
  let '(h0, d) := orNew h O D in
  h1 <- activationRowsM act h0 O d (m_r O) 0 ;; Ok (h1, d).
