(** Model of utils/stat.go and of MultiClassCrossValidation in cv/cv.go. *)
From Verif Require Import Base F64 Env Utils Tree Options Train.
Open Scope Z_scope.

(** utils/stat.go:9-19 [isInPrevious] *)
Definition isInPrevious (i : Z) (sam : list (list Z)) : bool := existsb (fun v => contains v i) sam.

(** utils/stat.go:26-53 [fillDataBunch] on a new [dest], whose Keys are empty, so line 43 never holds and they stay
    empty. Copying rows or sharing them gives the same values; sharing is not modelled. *)
Fixpoint fillRows {K} (ori : DataBunch K) (toadd : list Z) : res (list (list f64) * list Z) :=
  match toadd with
  | [] => Ok ([], [])
  | v :: rest =>
      row <- idx (Data ori) v ;;
      lab <- (if v <? Z.of_nat (length (Labels ori)) then l <- idx (Labels ori) v ;; Ok [l] else Ok []) ;;
      ' (rows, labs) <- fillRows ori rest ;;
      Ok (row :: rows, lab ++ labs)
  end.
Definition fillDataBunch {K} (ori : DataBunch K) (toadd : list Z) : res (DataBunch K) :=
  ' (rows, labs) <- fillRows ori toadd ;; Ok (MkData rows [] labs).

(** utils/stat.go:73-76: the number of folds is lowered until a fold has two samples; the counter is positive at the
    start, at 0 the division panics *)
Fixpoint adjustFolds (tot : Z) (nf : nat) : res nat :=
  match nf with
  | O => Panic
  | S k => if tot / Z.of_nat nf <? 2 then adjustFolds tot k else Ok nf
  end.

(** utils/stat.go:87-88: [ints p] is the p-th value returned by rand.IntN(tot). [Diverge]: more than [fuel] draws. *)
Fixpoint drawUnused (fuel : nat) (ints : nat -> Z) (p : nat) (folds : list (list Z)) : res (Z * nat) :=
  match fuel with
  | O => Diverge
  | S f => if isInPrevious (ints p) folds then drawUnused f ints (S p) folds else Ok (ints p, S p)
  end.
(** utils/stat.go:84-92, the two loops: [plan] lists the fold each successive sample goes to *)
Fixpoint drawFolds (fuel : nat) (ints : nat -> Z) (plan : list nat) (p : nat) (folds : list (list Z)) : res (list (list Z)) :=
  match plan with
  | [] => Ok folds
  | i :: rest =>
      ' (n, p') <- drawUnused fuel ints p folds ;;
      drawFolds fuel ints rest p' (upd_nat folds i (nth i folds [] ++ [n]))
  end.
Definition foldPlan (nf nsamples : nat) : list nat := flat_map (fun i => repeat i nsamples) (seq 0 nf).

(** utils/stat.go:123-132 [fillRemaining] *)
Definition fillRemaining (folds : list (list Z)) (tot : Z) : res (list (list Z)) :=
  let last := Z.of_nat (length folds) - 1 in
  foldM (fun fs i => if isInPrevious i fs then Ok fs else l <- idx fs last ;; upd fs last (l ++ [i]))
        folds (map Z.of_nat (seq 0 (Z.to_nat tot))).

(** the variables captured by the closure of utils/stat.go:97-117 *)
Record sampler (K : Type) : Type := MkSampler { sp_data : DataBunch K; sp_folds : list (list Z); sp_nf : nat; sp_calls : nat }.
Arguments MkSampler {K}. Arguments sp_data {K}. Arguments sp_folds {K}. Arguments sp_nf {K}. Arguments sp_calls {K}.
(** the folds other than the c-th, joined (utils/stat.go:107-112) *)
Fixpoint othersFrom (i c : nat) (folds : list (list Z)) : list Z :=
  match folds with [] => [] | v :: t => (if Nat.eqb i c then [] else v) ++ othersFrom (S i) c t end.
(** one call of the sampler: (train, test), or [None] for nil, nil *)
Definition callSampler {K} (s : sampler K) : res (option (DataBunch K * DataBunch K) * sampler K) :=
  if Nat.leb (sp_nf s) (sp_calls s) then Ok (None, s)
  else
    testix <- idx (sp_folds s) (Z.of_nat (sp_calls s)) ;;
    test <- fillDataBunch (sp_data s) testix ;;
    train <- fillDataBunch (sp_data s) (othersFrom 0 (sp_calls s) (sp_folds s)) ;;
    Ok (Some (train, test), MkSampler (sp_data s) (sp_folds s) (sp_nf s) (S (sp_calls s))).

(** utils/stat.go:59-119 [CrossValidationSamples]: the number of folds, the sampler ([None]: nil) and whether an error
    is returned *)
Definition CrossValidationSamples {K} (fuel : nat) (ints : nat -> Z) (D : DataBunch K) (nfold : Z)
  : res (nat * option (sampler K) * bool) :=
  let nf0 := if 0 <? nfold then Z.to_nat nfold else 5%nat in
  let tot := Z.of_nat (length (Data D)) in
  nf <- adjustFolds tot nf0 ;;
  if Nat.ltb nf 2 then Ok (0%nat, None, true)
  else
    let nsamples := Z.to_nat (tot / Z.of_nat nf) in
    folds <- drawFolds fuel ints (foldPlan nf nsamples) 0 (repeat [] nf) ;;
    folds' <- fillRemaining folds tot ;;
    Ok (nf, Some (MkSampler D folds' nf 0), Nat.ltb nf nf0).

(** ** cv/cv.go *)

(** what MultiClassCrossValidation sends in concurrent mode, in order; [SOpt None] is a nil pointer *)
Inductive cvSend : Type := SErr (err : bool) | SAcc (a : f64) | SOpt (o : option Options).

(** boo.NewMultiClass(train) or boo.NewMultiClass(train, opts.O) (cv/cv.go:33-37, xgb.go:22-27); [id] is the loss object of
    the default options *)
Definition trainWith {K} (E : Env) (rnd : draws) (id : Z) (D : DataBunch K) (O : option Options) : res trained :=
  NewMultiClass E rnd D (match O with Some o => o | None => DefaultXOptions id end).

(** cv/cv.go:30-45, the loop over folds. [rndf i] are the draws of the training of fold [i]. The caller's option record is
    the one NewMultiClass leaves behind. Logging is not modelled. *)
Fixpoint cvLoop {K} (E : Env) (rndf : nat -> draws) (id : Z) (s : sampler K) (O : option Options) (i n : nat) (accus : f64)
  : res (f64 * option Options) :=
  match n with
  | O => Ok (accus, O)
  | S n' =>
      ' (tt_, s') <- callSampler s ;;
      match tt_ with
      | None => Panic (** NewMultiClass of a nil pointer *)
      | Some (train, test) =>
          tr <- trainWith E (rndf i) id train O ;;
          let O' := match O with Some _ => Some (tr_opts tr) | None => None end in
          r <- Rounds (tr_model tr) None ;;
          if r <=? 0 then cvLoop E rndf id s' O' (S i) n' accus
          else a <- Accuracy (tr_model tr) test ;; cvLoop E rndf id s' O' (S i) n' (fadd accus a)
      end
  end.

(** result of cv/cv.go:15-52 [MultiClassCrossValidation]: the returned accuracy and error, what was sent, and the option
    record afterwards *)
Record cvRet : Type := MkCV { cv_acc : f64; cv_err : bool; cv_sent : list cvSend; cv_opts : option Options }.
Definition MultiClassCrossValidation {K} (E : Env) (fuel : nat) (ints : nat -> Z) (rndf : nat -> draws) (id : Z)
    (D : DataBunch K) (nfold : Z) (O : option Options) (conc : bool) : res cvRet :=
  ' (ns, err) <- CrossValidationSamples fuel ints D nfold ;;
  let '(n, so) := ns in
  if err && Nat.eqb n 0 then
    Ok (MkCV fzero true (if conc then [SErr true; SAcc (fofZ (-1)); SOpt None] else []) O)
  else
    match so with
    | None => Panic
    | Some s =>
        ' (accus, O') <- cvLoop E rndf id s O 0 n fzero ;;
        let mean := fdiv accus (fofZ (Z.of_nat n)) in
        Ok (MkCV mean false (if conc then [SErr false; SAcc mean; SOpt O'] else []) O')
    end.
