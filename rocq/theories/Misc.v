(** Model of the small helpers of the package: utils/sorter.go, [OHEKeys] (utils/libsvm.go:25-28, 227-250), [String] of a
    JSON node (utils/json.go:28-33) and the error of the libSVM reader (utils/libsvm.go:136-138, 158-198). *)
From Coq Require Import Ascii String.
From Verif Require Import Base F64 Env Utils Tree Text Confu Readers Json Print.
From Coq Require Import List.
Open Scope Z_scope.

(** ** utils/sorter.go *)
(** utils/sorter.go:7-10 [Slice]: [sl_vals] is the caller's slice (no copy is made) *)
Record slice : Type := MkSlice { sl_vals : list f64; sl_idx : list Z }.
(** utils/sorter.go:17-24 [NewSlice] *)
Definition NewSlice (n : list f64) : slice := MkSlice n (iota (length n)).
(** [x[i], x[j] = x[j], x[i]] *)
Definition swapAt {A} (x : list A) (i j : Z) : res (list A) :=
  vi <- idx x i ;; vj <- idx x j ;; x1 <- upd x i vj ;; upd x1 j vi.
(** utils/sorter.go:12-15 [Swap] *)
Definition SwapSlice (s : slice) (i j : Z) : res slice :=
  v <- swapAt (sl_vals s) i j ;; k <- swapAt (sl_idx s) i j ;; Ok (MkSlice v k).
(** [Less] of [sort.Float64Slice]: NaN comes first *)
Definition lessF (a b : f64) : bool := fltb a b || (fnanb a && negb (fnanb b)).
Definition lessAt (x : list f64) (i j : Z) : res bool := a <- idx x i ;; b <- idx x j ;; Ok (lessF a b).
(** a program that uses a [sort.Interface] through [Less] and [Swap] only, such as [sort.Sort] or [sort.Stable] applied to
    a slice of a certain length *)
Inductive sorter : Type :=
| Done
| AskLess (i j : Z) (k : bool -> sorter)
| DoSwap (i j : Z) (k : sorter).
(** the run of such a program on a [Slice] *)
Fixpoint runSlice (p : sorter) (s : slice) : res slice :=
  match p with
  | Done => Ok s
  | AskLess i j k => b <- lessAt (sl_vals s) i j ;; runSlice (k b) s
  | DoSwap i j k => s' <- SwapSlice s i j ;; runSlice k s'
  end.
(** the run on a plain [sort.Float64Slice] *)
Fixpoint runFloats (p : sorter) (x : list f64) : res (list f64) :=
  match p with
  | Done => Ok x
  | AskLess i j k => b <- lessAt x i j ;; runFloats (k b) x
  | DoSwap i j k => x' <- swapAt x i j ;; runFloats k x'
  end.

(** [sort.Sort] on slices of at most 12 elements (insertion sort of the Go library, not in /repo): from position [j] an
    element moves towards the front *)
Fixpoint moveFront (j : nat) (k : sorter) : sorter :=
  match j with
  | O => k
  | S j' => AskLess (Z.of_nat j) (Z.of_nat j') (fun b => if b then DoSwap (Z.of_nat j) (Z.of_nat j') (moveFront j' k) else k)
  end.
Fixpoint insertionFrom (todo i : nat) : sorter :=
  match todo with O => Done | S t => moveFront i (insertionFrom t (S i)) end.
Definition insertionSort (n : nat) : sorter := insertionFrom (n - 1) 1.

(** ** utils/libsvm.go:227-250 for any comparable element type *)
Section OneHot.
Context {A : Type} (eqb : A -> A -> bool).
Fixpoint indexFrom (l : list A) (v : A) (k : Z) : Z :=
  match l with [] => -1 | x :: t => if eqb x v then k else indexFrom t v (k + 1) end.
Definition distinctOf (s : list A) : list A :=
  fold_left (fun diff v => if existsb (eqb v) diff then diff else diff ++ [v]) s [].
Fixpoint fillOf (D : dense) (de labels : list A) (i : nat) : res dense :=
  match labels with
  | [] => Ok D
  | v :: t =>
      let index := indexFrom de v 0 in
      if (index <? 0) || (Z.of_nat (d_c D) <=? index) || Nat.leb (d_r D) i then Panic
      else fillOf (Dense (d_r D) (d_c D) (upd_nat (d_data D) (i * d_c D + Z.to_nat index) fone)) de t (S i)
  end.
Definition oneHotOf (labels : list A) : res (dense * list A) :=
  let de := distinctOf labels in
  D <- NewDense (length labels) (length de) (repeat fzero (length labels * length de)) ;;
  D' <- fillOf D de labels 0 ;;
  Ok (D', de).
End OneHot.
(** utils/libsvm.go:25-28 [OHEKeys] *)
Definition OHEKeys (D : DataBunch text) : res (dense * list text) := oneHotOf text_eqb (Keys D).

(** ** utils/json.go:28-33 [String] *)
Definition boolText (b : bool) : text := if b then tx "true" else tx "false".
Definition StringNode (j : JSONNode) : text :=
  tx "ID:" ++ decZ (j_id j) ++ tx ", Samples:" ++ listText (map decZ (orNil (j_samples j))) ++ tx ", ns: " ++ decZ (j_nsamples j) ++
  tx ", score: " ++ fmt3 (j_best j) ++ tx ",Value:" ++ fmt3 (j_value j) ++
  tx "Threshold: " ++ fmt3 (j_thr j) ++ tx ", Leaf: " ++ boolText (j_leaf j) ++ tx ", Branches: " ++ decZ (j_branches j) ++
  tx ", LeftID: " ++ decZ (j_left j) ++ tx ", " ++ tx "RightID: " ++ decZ (j_right j) ++ tx ", XGB:" ++ boolText (j_xgb j).

(** ** the error of the libSVM reader *)
(** utils/libsvm.go:136-138 [svmliberror]; [err] is the text of the error of [parseLibSVMLine] *)
Definition svmliberror (err : text) (linenu : Z) (line : text) : text :=
  tx "Can't read line " ++ decZ linenu ++ tx " in libSVM-formatted file, Error: " ++ err ++ tx ", line: " ++ line.
(** how [ParseLibSVMFromReader] ends: data, an error about a line, or the error of the reader *)
Inductive svmResult : Type :=
| SData (D : DataBunch text)
| SLine (message : text)
| SReader.
(** utils/libsvm.go:166-197 with the error; [why header line] is the text of the error of [parseLibSVMLine] *)
Fixpoint svmLoopErr (pf : parser) (why : bool -> text -> text) (fuel : nat) (r : text) (eof hasHeader : bool) (cont : Z) (headers : list text)
    (data : list (list f64)) (labels : list Z) : res svmResult :=
  match fuel with
  | O => Diverge
  | S fuel' =>
      match readLine r with
      | None => if eof then Ok (SData (MkData data headers labels)) else Ok SReader
      | Some (line, r') =>
          if hasHeader && (cont =? 0) then
            o <- parseLibSVMLine pf line true ;;
            match o with
            | None => Ok (SLine (svmliberror (why true line) (cont + 1) line))
            | Some (_, hs, _) => svmLoopErr pf why fuel' r' eof hasHeader (cont + 1) hs data labels
            end
          else
            o <- parseLibSVMLine pf line false ;;
            match o with
            | None => Ok (SLine (svmliberror (why false line) (cont + 1) line))
            | Some (l, _, t) => svmLoopErr pf why fuel' r' eof hasHeader (cont + 1) headers (data ++ [t]) (labels ++ [l])
            end
      end
  end.
(** utils/libsvm.go:158-198 [ParseLibSVMFromReader] *)
Definition ParseLibSVMErr (pf : parser) (why : bool -> text -> text) (r : text) (eof hasHeader : bool) : res svmResult :=
  svmLoopErr pf why (S (length r)) r eof hasHeader 0 [] [] [].
