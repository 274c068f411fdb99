(** Specification vocabulary for chances: how many of the equally likely sequences of random numbers have an effect. *)
From Verif Require Import Base F64 Env Utils Tree Options Train CV.
Open Scope Z_scope.

(** all sequences of [n] values from [U] *)
Fixpoint words {A} (U : list A) (n : nat) : list (list A) :=
  match n with O => [[]] | S k => flat_map (fun u => map (cons u) (words U k)) U end.
(** how many of them satisfy [P]; there are |U|^n, so the chance is [ways U n P / |U|^n] when the values are equally likely and
    independent *)
Definition ways {A} (U : list A) (n : nat) (P : list A -> bool) : Z := Z.of_nat (length (filter P (words U n))).
Fixpoint binom (n k : nat) : Z :=
  match n, k with
  | _, O => 1
  | O, S _ => 0
  | S n', S k' => binom n' k' + binom n' k
  end.

(** rand.Float64 of math/rand/v2 returns k/2^53 for an integer 0 <= k < 2^53; here with [m] for 53 *)
Definition unitValues (m : Z) : list f64 := map (fun k => fdiv (fofZ k) (fofZ (2 ^ m))) (iota (Z.to_nat (2 ^ m))).
(** how many of the values keep a row *)
Definition keptOf (U : list f64) (s : f64) : Z := Z.of_nat (length (filter (fun u => fleb u s) U)).
(** the result of SubSample with the draws [w] *)
Definition subsampleOf (n : nat) (s : f64) (w : list f64) : res (list Z) := SubSample (Z.of_nat n) s (fun i => nth i w fzero).
Definition selects (n : nat) (s : f64) (rows : list Z) (w : list f64) : bool :=
  match subsampleOf n s w with Ok l => if list_eq_dec Z.eq_dec l rows then true else false | _ => false end.
Definition selectsMany (n : nat) (s : f64) (k : nat) (w : list f64) : bool :=
  match subsampleOf n s w with Ok l => Nat.eqb (length l) k | _ => false end.

(** Draws of rand.IntN of which only [w] are used: after [w] comes its first value again and again. That one is never accepted a
    second time, so a call that needs more draws than [w] has does not end. *)
Definition intsOf (w : list Z) (i : nat) : Z := nth i w (hd 0 w).
(** the first fold with row [r] *)
Fixpoint foldIndex (r : Z) (folds : list (list Z)) : nat :=
  match folds with [] => 0%nat | f :: t => if existsb (Z.eqb r) f then 0%nat else S (foldIndex r t) end.
(** the fold of every row *)
Definition assignment (tot : nat) (folds : list (list Z)) : list nat := map (fun r => foldIndex r folds) (iota tot).
(** the assignment of rows to folds made with the draws [w]; [None] if they are not enough, or there is no sampler *)
Definition assignOf {K} (D : DataBunch K) (nfold : Z) (w : list Z) : option (list nat) :=
  match CrossValidationSamples (length w) (intsOf w) D nfold with
  | Ok (_, Some s, _) => Some (assignment (length (Data D)) (sp_folds s))
  | _ => None
  end.
Definition assigns {K} (D : DataBunch K) (nfold : Z) (a : list nat) (w : list Z) : bool :=
  match assignOf D nfold w with Some a' => if list_eq_dec Nat.eq_dec a' a then true else false | None => false end.
(** the draws are enough *)
Definition enough {K} (D : DataBunch K) (nfold : Z) (w : list Z) : bool := match assignOf D nfold w with Some _ => true | None => false end.
(** the draws are enough and put row [r] into fold [i] *)
Definition putsIn {K} (D : DataBunch K) (nfold : Z) (r i : nat) (w : list Z) : bool :=
  match assignOf D nfold w with Some a => match nth_error a r with Some j => Nat.eqb j i | None => false end | None => false end.
(** the number of rows of fold [i] *)
Definition foldSize (tot nf i : nat) : nat :=
  if (i <? nf - 1)%nat then (tot / nf)%nat else if (i =? nf - 1)%nat then (tot / nf + tot mod nf)%nat else 0%nat.
(** the calls of fuzzOptions in the library (cv/grad.go:253, 282, cv/hybrid.go:56, 83): by 10% or by 20%. Up to [most] rounds the
    change is less than one round. *)
Definition libraryPerc (perc : option f64) (most : Z) : Prop :=
 perc = None /\ most = 9 \/ perc = Some (fdec 2 10) /\ most = 4.
