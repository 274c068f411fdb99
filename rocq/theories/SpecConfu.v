(** Specification vocabulary for confusion matrices (C72-C75, C95). *)
From Coq Require Import Ascii String.
From Verif Require Import Base F64 Env Utils Tree Options Train Text Confu.
From Coq Require Import List.
Open Scope Z_scope.

(** number of rows with actual label [a] predicted as [p] *)
Definition countPairs (actual predicted : list Z) (a p : Z) : Z :=
  Z.of_nat (length (filter (fun x => (fst x =? a) && (snd x =? p)) (combine actual predicted))).
Definition count (l : list Z) (a : Z) : Z := Z.of_nat (count_occ Z.eq_dec l a).
Definition sumZ (l : list Z) : Z := fold_right Z.add 0 l.
(** the counts for actual label [a] *)
Definition countsFor (labels actual predicted : list Z) (a : Z) : list Z := map (countPairs actual predicted a) labels.
Definition diagonal (m : list (list Z)) : list Z := map (fun i => nth i (nth i m []) 0) (seq 0 (length m)).

(** [ps] are positions of [row] with the largest values, [cs] those values, in descending order; [n] of them, or all *)
Definition topOf (row : list Z) (n : nat) (ps cs : list Z) : Prop :=
  length ps = Nat.min n (length row) /\ NoDup ps /\
  Forall2 (fun p c => idx row p = Ok c) ps cs /\
  (forall i j a b, (i < j)%nat -> nth_error cs i = Some a -> nth_error cs j = Some b -> b <= a) /\
  (forall q x, idx row q = Ok x -> ~ In q ps -> forall c, In c cs -> x <= c).

(** what a program does with a Confusions: calls, and allocations of its own *)
Inductive cstep (E : Env) : Confusions * heap -> Confusions * heap -> Prop :=
| cs_matrix C h m C' : Matrix C = Ok (m, C') -> cstep E (C, h) (C', h)
| cs_top C h N M dc r C' h' : TopNForLabelM E C h N M dc = Ok (r, C', h') -> cstep E (C, h) (C', h')
| cs_per C h N ri rf C' h' : TopNPerLabel E C h N = Ok (ri, rf, C', h') -> cstep E (C, h) (C', h')
| cs_print C h N names out C' h' : PrintTopN E C h N names = Ok (out, C', h') -> cstep E (C, h) (C', h')
| cs_alloc C h l : cstep E (C, h) (C, h ++ [l]).
(** any number of those *)
Inductive ccalls (E : Env) : Confusions * heap -> Confusions * heap -> Prop :=
| cc_refl s : ccalls E s s
| cc_step s1 s2 s3 : ccalls E s1 s2 -> cstep E s2 s3 -> ccalls E s1 s3.
(** the same, and writes to any array it can reach, even the internal buffers *)
Inductive creach (E : Env) (s0 : Confusions * heap) : Confusions * heap -> Prop :=
| cr_refl : creach E s0 s0
| cr_step s2 s3 : creach E s0 s2 -> cstep E s2 s3 -> creach E s0 s3
| cr_write C h b l : creach E s0 (C, h) -> length l = length (block h b) -> creach E s0 (C, write h b l).

(** the line of PrintTopN for label [lab] with top positions [ps] and counts [cs] *)
Definition topLine (names : Z -> text) (labels : list Z) (lab : Z) (ps cs : list Z) : text :=
  joinT ((tx "Label " ++ names lab ++ tx " ") ::
         map (fun x => names (nth (Z.to_nat (fst x)) labels 0) ++ tx ":" ++ decZ (snd x))
             (filter (fun x => negb (snd x =? 0)) (combine ps cs))) (tx " ").

(** a class of the model labels a row that the data does not have (more labels than rows) *)
Definition knownBeyond {K} (M : MultiClass) (D : DataBunch K) : Prop :=
  exists i l, nth_error (Labels D) i = Some l /\ (length (Data D) <= i)%nat /\ In l (ClassLabels M).
