(** Model of confu/confu.go: confusion matrices. Slices that the caller can share with the structure live in a heap. *)
From Coq Require Import Ascii String.
From Verif Require Import Base F64 Env Utils Tree Options Train Text.
From Coq Require Import List.
Open Scope Z_scope.

(** A heap of int arrays; a slice is a length and an array, read from its start (no slice of this file starts elsewhere). *)
Definition heap : Type := list (list Z).
Record slice : Type := MkSl { sl_blk : nat; sl_len : nat }.
Definition block (h : heap) (b : nat) : list Z := nth b h [].
Definition sread (h : heap) (s : slice) : list Z := firstn (sl_len s) (block h (sl_blk s)).
(** [make] / [append] to nothing: a new array *)
Definition alloc (h : heap) (l : list Z) : heap * slice := (h ++ [l], MkSl (length h) (length l)).
Definition write (h : heap) (b : nat) (l : list Z) : heap := upd_nat h b l.

(** confu/confu.go:66-75 [Confusions]. The map [m] is the list of its assignments, last one first. A nil [tmpvals] or
    [tmpindx] is [None]. *)
Record Confusions : Type := MkCf {
  cf_actual : list Z;
  cf_predicted : list Z;
  cf_labels : list Z;
  cf_matrix : option (list (list Z));
  cf_tmpvals : option slice;
  cf_tmpindx : option slice;
  cf_m : list (Z * Z)
}.
(** reading the map: 0 when the key is absent *)
Fixpoint mapGet (m : list (Z * Z)) (k : Z) : Z :=
  match m with [] => 0 | (x, v) :: t => if x =? k then v else mapGet t k end.
(** confu.go:81-84 *)
Fixpoint fillMap (labels : list Z) (i : Z) (m : list (Z * Z)) : list (Z * Z) :=
  match labels with [] => m | v :: t => fillMap t (i + 1) ((v, i) :: m) end.
(** confu.go:77-93 [MCConfusions] *)
Definition MCConfusions {K} (M : MultiClass) (D : DataBunch K) : res Confusions :=
  let labels := ClassLabels M in
  preds <- mapM (fun v => ' (p, _) <- PredictSingleClass M v [] ;; idx labels p) (Data D) ;;
  Ok (MkCf (Labels D) preds labels None None None (fillMap labels 0 [])).

(** confu.go:102-109: the positions of [v] in the actual labels, from position [j] on *)
Fixpoint positions (actual : list Z) (v : Z) (j : Z) : list Z :=
  match actual with
  | [] => []
  | w :: t => if w =? v then j :: positions t v (j + 1) else positions t v (j + 1)
  end.
(** confu.go:110-114 *)
Definition confRow (C : Confusions) (v : Z) : res (list Z) :=
  foldM (fun row w => p <- idx (cf_predicted C) w ;; let k := mapGet (cf_m C) p in x <- idx row k ;; upd row k (x + 1))
        (repeat 0 (length (cf_labels C))) (positions (cf_actual C) v 0).
(** confu.go:95-118 [Matrix] *)
Definition setMatrix (C : Confusions) (m : list (list Z)) : Confusions :=
  MkCf (cf_actual C) (cf_predicted C) (cf_labels C) (Some m) (cf_tmpvals C) (cf_tmpindx C) (cf_m C).
Definition Matrix (C : Confusions) : res (list (list Z) * Confusions) :=
  match cf_matrix C with
  | Some m => Ok (m, C)
  | None => m <- mapM (confRow C) (cf_labels C) ;; Ok (m, setMatrix C m)
  end.

(** confu.go:211-233 [idSorter], [memIntSort] on buffers as long as [a] *)
Definition idxLess (p q : Z * Z) : bool := snd p <? snd q.
Definition memIntSort (E : Env) (a : list Z) : list Z * list Z :=
  let s := e_sort E _ idxLess (combine (iota (length a)) a) in (map fst s, map snd s).

(** confu.go:179-184: a buffer of [n] ints *)
Definition buffer (h : heap) (b : option slice) (n : nat) : heap * slice :=
  match b with
  | Some s => if Nat.eqb (sl_len s) n then (h, s) else alloc h (repeat 0 n)
  | None => if Nat.eqb 0 n then (h, MkSl (length h) 0) else alloc h (repeat 0 n)
  end.
(** confu.go:205-208; [sorti[:N]] panics for negative N *)
Definition cut (N : Z) (s : slice) : res slice :=
  if Z.of_nat (sl_len s) <=? N then Ok s else if N <? 0 then Panic else Ok (MkSl (sl_blk s) (Z.to_nat N)).
Definition setTmp (C : Confusions) (v i : slice) : Confusions :=
  MkCf (cf_actual C) (cf_predicted C) (cf_labels C) (cf_matrix C) (Some v) (Some i) (cf_m C).
(** confu.go:170-209 [TopNForLabelM]; [None] is (nil, nil); otherwise positions and counts. The sorted and reversed
    buffers are written in one go. *)
Definition TopNForLabelM (E : Env) (C0 : Confusions) (h0 : heap) (N M : Z) (docopy : bool) : res (option (slice * slice) * Confusions * heap) :=
  ' (matrix, C1) <- Matrix C0 ;;
  let index := sliceIndex (cf_labels C1) M in
  if index <? 0 then Ok (None, C1, h0)
  else
    om <- idx matrix index ;;
    let '(h1, tv) := buffer h0 (cf_tmpvals C1) (length om) in
    let '(h2, ti) := buffer h1 (cf_tmpindx C1) (length om) in
    let C2 := setTmp C1 tv ti in
    let '(si, sv) := memIntSort E om in
    let h3 := write (write h2 (sl_blk ti) (rev si)) (sl_blk tv) (rev sv) in
    let '(h5, ci, cv) :=
      if docopy then let '(h4, cv) := alloc h3 (sread h3 tv) in let '(h5, ci) := alloc h4 (sread h4 ti) in (h5, ci, cv)
      else (h3, ti, tv) in
    ri <- cut N ci ;; rv <- cut N cv ;;
    Ok (Some (ri, rv), C2, h5).

(** confu.go:152-164 [TopNPerLabel] *)
Fixpoint topLoop (E : Env) (labels : list Z) (C : Confusions) (h : heap) (N : Z) : res (list (option slice) * list (option slice) * Confusions * heap) :=
  match labels with
  | [] => Ok ([], [], C, h)
  | v :: t =>
      ' (r, C1, h1) <- TopNForLabelM E C h N v true ;;
      ' (ri, rf, C2, h2) <- topLoop E t C1 h1 N ;;
      Ok (option_map fst r :: ri, option_map snd r :: rf, C2, h2)
  end.
Definition TopNPerLabel (E : Env) (C : Confusions) (h : heap) (N : Z) := topLoop E (cf_labels C) C h N.
Definition oread (h : heap) (s : option slice) : list Z := match s with Some s => sread h s | None => [] end.

(** [strings.Join] *)
Fixpoint joinT (l : list text) (sep : text) : text :=
  match l with [] => [] | [a] => a | a :: t => a ++ sep ++ joinT t sep end.
(** confu.go:138-144: the entries of a label *)
Fixpoint entries (C : Confusions) (names : Z -> text) (v rf : list Z) (j n : nat) : res (list text) :=
  match n with
  | O => Ok []
  | S n' =>
      num <- idx rf (Z.of_nat j) ;;
      if num =? 0 then entries C names v rf (S j) n'
      else
        p <- idx v (Z.of_nat j) ;; lab <- idx (cf_labels C) p ;;
        rest <- entries C names v rf (S j) n' ;;
        Ok ((names lab ++ tx ":" ++ decZ num) :: rest)
  end.
(** confu.go:124-146: the lines of the labels from position [i] on. [make([]string, 1, N)] panics if N < 1. *)
Fixpoint topLines (C : Confusions) (names : Z -> text) (N : Z) (i : Z) (r rf : list (list Z)) : res (list text) :=
  match r with
  | [] => Ok []
  | v :: r' =>
      if N <? 1 then Panic
      else
        f <- idx rf 0 ;;
        let rest := topLines C names N (i + 1) r' (tl rf) in
        if fold_left Z.add f 0 =? 0 then rest
        else
          lab <- idx (cf_labels C) i ;;
          let n := Z.to_nat (if Z.of_nat (length v) <? N then Z.of_nat (length v) else N) in
          es <- entries C names v f 0 n ;;
          rs <- rest ;;
          Ok (joinT ((tx "Label " ++ names lab ++ tx " ") :: es) (tx " ") :: rs)
  end.
(** confu.go:120-149 [PrintTopN]; [names] is the map, giving "" for absent keys *)
Definition PrintTopN (E : Env) (C : Confusions) (h : heap) (N : Z) (names : Z -> text) : res (text * Confusions * heap) :=
  ' (ri, rf, C', h') <- TopNPerLabel E C h N ;;
  ls <- topLines C' names N 0 (map (oread h') ri) (map (oread h') rf) ;;
  Ok (joinT (tx "Confusions:" :: ls) [NL], C', h').

(** confu.go:21-27 [MakeSimpleNameMap]: the assignments, last one first *)
Definition MakeSimpleNameMap (labels : list Z) : list (Z * text) := rev (map (fun v => (v, decZ v)) labels).
Fixpoint nameGet (m : list (Z * text)) (k : Z) : text :=
  match m with [] => [] | (x, v) :: t => if x =? k then v else nameGet t k end.
