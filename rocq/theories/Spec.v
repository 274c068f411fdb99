(** Specification vocabulary, independent of the model's helper functions. *)
From Coq Require Import Reals.
From Verif Require Import Base F64 Env Utils Tree.
Open Scope Z_scope.

(** [l] holds [v] at position [j] *)
Definition look {A} (l : list A) (j : Z) (v : A) : Prop :=
  0 <= j /\ nth_error l (Z.to_nat j) = Some v.
(** entry (row i, column f) of a matrix *)
Definition cell {A} (X : list (list A)) (i f : Z) (v : A) : Prop :=
  exists row, look X i row /\ look row f v.

(** ** Trees *)
(** [sub s t]: [s] is [t] or a descendant of [t] (possibly a missing child) *)
Inductive sub (s : tree) : tree -> Prop :=
| sub_refl : sub s s
| sub_l d l r : sub s l -> sub s (Node d l r)
| sub_r d l r : sub s r -> sub s (Node d l r).

(** the same, [k] levels below the root of [t] *)
Inductive subAt (s : tree) : nat -> tree -> Prop :=
| subAt_0 : subAt s 0 s
| subAt_l k d l r : subAt s k l -> subAt s (S k) (Node d l r)
| subAt_r k d l r : subAt s k r -> subAt s (S k) (Node d l r).

Fixpoint depth (t : tree) : nat :=
  match t with
  | Node _ (Node _ _ _ as l) (Node _ _ _ as r) => S (Nat.max (depth l) (depth r))
  | Node _ (Node _ _ _ as l) Nil => S (depth l)
  | Node _ Nil (Node _ _ _ as r) => S (depth r)
  | _ => O
  end.
Fixpoint nodes (t : tree) : Z :=
  match t with Nil => 0 | Node _ l r => 1 + nodes l + nodes r end.
(** the nodes without children, left to right *)
Fixpoint leaves (t : tree) : list tdata :=
  match t with
  | Nil => []
  | Node d Nil Nil => [d]
  | Node _ l r => leaves l ++ leaves r
  end.
Definition samplesOf (d : tdata) : list Z := match t_samples d with Some l => l | None => [] end.
(** the samples a call of NewTree starts from *)
Definition initialSamples (X : list (list f64)) (o : TreeOptions) : list Z :=
  match to_indexes o with Some ix => ix | None => iota (length X) end.

(** sample [i] satisfies [X[i][f] <= thr] (false when the cell does not exist) *)
Definition below (X : list (list f64)) (f : Z) (thr : f64) (i : Z) : bool :=
  match nth_error X (Z.to_nat i) with
  | Some row => match nth_error row (Z.to_nat f) with Some v => fleb v thr | None => false end
  | None => false
  end.

(** Boundary [i] (0 < i < n) of feature [f] is an admissible candidate split of the samples [ix], with score [sc]
    and threshold [thr]. [perm] is the order in which ArgSort puts the samples' feature values. *)
Definition candidate (E : Env) (X : list (list f64)) (o : TreeOptions) (ix : list Z)
    (f : Z) (i : nat) (sc thr : f64) : Prop :=
  exists col a b,
    let perm := fst (ArgSort E col) in
    let xs := snd (ArgSort E col) in
    let n := length ix in
    Forall2 (fun j v => cell X j f v) ix col /\
    (0 < i < n)%nat /\
    nth_error xs (i - 1) = Some a /\ nth_error xs i = Some b /\ feqb a b = false /\
    ftoZ (to_mcw o) <= Z.of_nat i /\ ftoZ (to_mcw o) <= Z.of_nat (n - i) /\
    thr = fdiv (fadd a b) (fofZ 2) /\
    if to_xgb o then
      exists g h sg sh,
        Forall2 (look (orNil (to_grads o))) ix g /\ Forall2 (look (orNil (to_hess o))) ix h /\
        Forall2 (look g) perm sg /\ Forall2 (look h) perm sh /\
        let gl := fold_left fadd (firstn i sg) fzero in
        let hl := fold_left fadd (firstn i sh) fzero in
        let gr := fold_left fsub (firstn i sg) (e_sum E g) in
        let hr := fold_left fsub (firstn i sh) (e_sum E h) in
        let term G H := fdiv (fmul G G) (fadd H (to_lambda o)) in
        sc = fsub (fmul fhalf (fsub (fadd (term gl hl) (term gr hr)) (term (e_sum E g) (e_sum E h))))
                  (fdiv (to_gamma o) (fofZ 2))
    else
      exists y sy,
        Forall2 (look (to_y o)) ix y /\ Forall2 (look y) perm sy /\
        let yl := fold_left fadd (firstn i sy) fzero in
        let yr := fold_left fsub (firstn i sy) (e_sum E sy) in
        let term Y k := fdiv (fmul Y Y) (fofZ (Z.of_nat k)) in
        sc = fadd (fsub (fdiv (fopp (fmul yl yl)) (fofZ (Z.of_nat i))) (term yr (n - i)%nat))
                  (term (e_sum E sy) n).
(** score [a] is strictly better than score [b]: larger gain for XGB, smaller score otherwise *)
Definition betterScore (xgb : bool) (a b : f64) : bool := if xgb then fltb b a else fltb a b.
(** the score a node starts from *)
Definition startScore (xgb : bool) : f64 := if xgb then fzero else finf.
(** columns that a node [k] levels below the root may split on: the sub-sampled ones for the root, all others below it *)
Definition scannedAt (o : TreeOptions) (nfeat : nat) (k : nat) (f : Z) : Prop :=
  0 <= f < Z.of_nat nfeat /\ (k <> O \/ to_allowed o = [] \/ In f (to_allowed o)).
(** columns a tree's root may split on *)
Definition allowedColumn (o : TreeOptions) (nfeat : nat) (f : Z) : Prop :=
  0 <= f < Z.of_nat nfeat /\ (to_allowed o = [] \/ In f (to_allowed o)).

(** ** Matrices and labels *)
(** every row of [m] has [c] entries *)
Definition rect {A} (m : list (list A)) (c : nat) : Prop := forall row, In row m -> length row = c.
(** entry (i,j) of a dense matrix *)
Definition entry (D : dense) (i j : nat) (v : f64) : Prop :=
  (j < d_c D)%nat /\ nth_error (d_data D) (i * d_c D + j) = Some v.
Definition wfDense (D : dense) : Prop :=
  (0 < d_r D)%nat /\ (0 < d_c D)%nat /\ length (d_data D) = (d_r D * d_c D)%nat.
(** [x] occurs in [l] before any [y] *)
Definition before (l : list Z) (x y : Z) : Prop :=
  exists i, nth_error l i = Some x /\ forall j, (j <= i)%nat -> nth_error l j <> Some y.
(** [de] lists the distinct elements of [l] in order of first occurrence *)
Definition firstOccurrences (l de : list Z) : Prop :=
  NoDup de /\ (forall x, In x de <-> In x l) /\
  forall a b x y, (a < b)%nat -> nth_error de a = Some x -> nth_error de b = Some y -> before l x y.

(** ** Exact arithmetic *)
Open Scope R_scope.
Fixpoint rsum (l : list R) : R := match l with [] => 0 | x :: t => x + rsum t end.
(** the second-order objective of giving all samples of a leaf the weight [w]: sum of g*w + h*w^2/2, plus the
    L2 penalty lambda*w^2/2 *)
Definition leafObjective (gh : list (R * R)) (lambda w : R) : R :=
  rsum (map (fun p => fst p * w + snd p * (w * w) / 2) gh) + lambda * (w * w) / 2.
Definition sumG (gh : list (R * R)) : R := rsum (map fst gh).
Definition sumH (gh : list (R * R)) : R := rsum (map snd gh).
Definition mean (l : list R) : R := rsum l / INR (length l).
(** sum of squared deviations from [m] *)
Definition deviations (l : list R) (m : R) : R := rsum (map (fun y => (y - m) * (y - m)) l).
Close Scope R_scope.
