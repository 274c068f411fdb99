(** Specification vocabulary for cross-validation. *)
From Verif Require Import Base F64 Env Utils Tree Options Train Spec CV.
Open Scope Z_scope.

(** the values of rand.IntN(n) *)
Definition validInts (n : Z) (ints : nat -> Z) : Prop := forall p, 0 <= ints p < n.
(** every value keeps appearing *)
Definition fairInts (n : Z) (ints : nat -> Z) : Prop := forall x, 0 <= x < n -> forall p, exists q, (p <= q)%nat /\ ints q = x.
(** the indices of [n] samples *)
Definition indices (n : nat) : list Z := map Z.of_nat (seq 0 n).
(** the rows with the given indices *)
Definition rowsAt (data : list (list f64)) (ix : list Z) : list (list f64) := map (fun i => nth (Z.to_nat i) data []) ix.
Definition labelsAt (labels : list Z) (ix : list Z) : list Z := map (fun i => nth (Z.to_nat i) labels 0) ix.
(** the folds: every index in exactly one fold; all folds but the last have the same size *)
Definition goodFolds (tot nf : nat) (folds : list (list Z)) : Prop :=
  length folds = nf /\ Permutation (concat folds) (indices tot) /\
  (forall k f, nth_error folds k = Some f -> (k < nf - 1)%nat -> length f = (tot / nf)%nat) /\
  (forall f, nth_error folds (nf - 1) = Some f -> length f = (tot / nf + tot mod nf)%nat).
(** the number of folds asked for: 5 when none is *)
Definition requested (nfold : Z) : nat := if 0 <? nfold then Z.to_nat nfold else 5%nat.
(** [p] is the (train, test) pair of fold [i]: the test set holds the samples of the fold, the training set all others,
    every row with its label, without keys *)
Definition foldPair {K} (D : DataBunch K) (folds : list (list Z)) (i : nat) (p : DataBunch K * DataBunch K) : Prop :=
  exists testix trainix, nth_error folds i = Some testix /\ Permutation (trainix ++ testix) (indices (length (Data D))) /\
    fst p = MkData (rowsAt (Data D) trainix) [] (labelsAt (Labels D) trainix) /\
    snd p = MkData (rowsAt (Data D) testix) [] (labelsAt (Labels D) testix).
(** the results of [k] successive calls of the sampler *)
Fixpoint callsOf {K} (s : sampler K) (k : nat) : res (list (option (DataBunch K * DataBunch K))) :=
  match k with
  | O => Ok []
  | S k' => ' (o, s') <- callSampler s ;; r <- callsOf s' k' ;; Ok (o :: r)
  end.
(** training and testing on one fold: [None] when no ensemble results *)
Definition foldOutcome {K} (E : Env) (rnd : draws) (id : Z) (O : option Options) (p : DataBunch K * DataBunch K) (out : option f64) : Prop :=
  exists tr r, trainWith E rnd id (fst p) O = Ok tr /\ Rounds (tr_model tr) None = Ok r /\
    match out with
    | None => r <= 0
    | Some a => 0 < r /\ Accuracy (tr_model tr) (snd p) = Ok a
    end.
(** the present values *)
Definition somes {A} (l : list (option A)) : list A := flat_map (fun o => match o with Some a => [a] | None => [] end) l.
(** [o'] is [o] with MinChildWeight raised to at least 1 *)
Definition raisedMCW (o o' : Options) : Prop :=
  o_mcw o' = (if fltb (o_mcw o) fone then fone else o_mcw o) /\
  (o_xgb o', o_rounds o', o_maxdepth o', o_earlystop o', o_lr o', o_lambda o', o_gamma o', o_ss o', o_css o', o_base o',
   o_minsample o', o_method o', o_verbose o', o_loss o') =
  (o_xgb o, o_rounds o, o_maxdepth o, o_earlystop o, o_lr o, o_lambda o, o_gamma o, o_ss o, o_css o, o_base o,
   o_minsample o, o_method o, o_verbose o, o_loss o).
