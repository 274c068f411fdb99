(** Cross-validation: C48-C54, C84. *)
From Verif Require Import Base F64 Env Utils Tree Options Train Spec SpecTrain TrainEx CV SpecCV CVProofs CVEx.
Open Scope Z_scope.

(** C48 *)
Theorem c48_folds_partition {K} fuel ints (D : DataBunch K) nfold n s e : validInts (Z.of_nat (length (Data D))) ints ->
  CrossValidationSamples fuel ints D nfold = Ok (n, Some s, e) -> goodFolds (length (Data D)) n (sp_folds s).
Proof. exact (c48_lemma fuel ints D nfold n s e). Qed.
Example c48_nonvacuous : validInts (Z.of_nat (length (Data exCV))) ints0 /\ exists s, CrossValidationSamples 10 ints0 exCV 3 = Ok (3%nat, Some s, false) /\
  sp_folds s = [[0; 1]; [2; 3]; [4; 5; 6]].
Proof. exact (conj ints0_valid ex_cvs). Qed.
Print Assumptions c48_folds_partition.

(** C49, C50 *)
Theorem c49_train_test_complementary {K} fuel ints (D : DataBunch K) nfold n s e k :
  validInts (Z.of_nat (length (Data D))) ints -> length (Labels D) = length (Data D) ->
  CrossValidationSamples fuel ints D nfold = Ok (n, Some s, e) ->
  exists outs, callsOf s k = Ok outs /\ length outs = k /\
    forall i p, nth_error outs i = Some (Some p) -> foldPair D (sp_folds s) i p.
Proof. exact (c49_pairs fuel ints D nfold n s e k). Qed.
Theorem c50_sampler_ends {K} fuel ints (D : DataBunch K) nfold n s e k :
  validInts (Z.of_nat (length (Data D))) ints -> length (Labels D) = length (Data D) ->
  CrossValidationSamples fuel ints D nfold = Ok (n, Some s, e) ->
  exists outs, callsOf s k = Ok outs /\ length outs = k /\
    forall i o, nth_error outs i = Some o -> ((i < n)%nat -> exists p, o = Some p /\ foldPair D (sp_folds s) i p) /\ ((n <= i)%nat -> o = None).
Proof. exact (c49_lemma fuel ints D nfold n s e k). Qed.
Example c49_nonvacuous : length (Labels exCV) = length (Data exCV) /\ exists s, CrossValidationSamples 10 ints0 exCV 3 = Ok (3%nat, Some s, false) /\
  sp_folds s = [[0; 1]; [2; 3]; [4; 5; 6]].
Proof. exact (conj eq_refl ex_cvs). Qed.
(** five calls on three folds *)
Example c50_nonvacuous : exists s outs, CrossValidationSamples 10 ints0 exCV 3 = Ok (3%nat, Some s, false) /\ callsOf s 5 = Ok outs /\
  map (fun o => match o with Some _ => true | None => false end) outs = [true; true; true; false; false].
Proof. exact ex_calls. Qed.
Print Assumptions c49_train_test_complementary.
Print Assumptions c50_sampler_ends.

(** C51 *)
Theorem c51_fold_count {K} fuel ints (D : DataBunch K) nfold n so e : validInts (Z.of_nat (length (Data D))) ints ->
  CrossValidationSamples fuel ints D nfold = Ok (n, so, e) ->
  let used := Nat.min (requested nfold) (length (Data D) / 2) in
  ((used < 2)%nat -> n = 0%nat /\ so = None /\ e = true) /\
  ((2 <= used)%nat -> n = used /\ (e = true <-> (n < requested nfold)%nat) /\ exists s, so = Some s /\ forall f, In f (sp_folds s) -> (2 <= length f)%nat).
Proof. exact (c51_lemma fuel ints D nfold n so e). Qed.
Example c51_nonvacuous : (exists s, CrossValidationSamples 10 ints0 exCV 4 = Ok (3%nat, Some s, true)) /\
  CrossValidationSamples 10 ints0 (MkData (Examples.mat [[0]; [1]]) [tt] [7; 5]) 4 = Ok (0%nat, None, true).
Proof. exact (conj ex_cvs_lowered ex_cvs_few). Qed.
Print Assumptions c51_fold_count.

(** C52 *)
Theorem c52_too_few_rows_panic {K} fuel ints (D : DataBunch K) nfold : (length (Data D) < 2)%nat -> CrossValidationSamples fuel ints D nfold = Panic.
Proof. exact (c52_lemma fuel ints D nfold). Qed.
Example c52_nonvacuous : (length (Data (MkData (Examples.mat [[0%Z]]) [tt] [7%Z])) < 2)%nat.
Proof. exact (le_n 2). Qed.
Print Assumptions c52_too_few_rows_panic.

(** C53 *)
Theorem c53_drawing_terminates {K} ints (D : DataBunch K) nfold : (2 <= length (Data D))%nat ->
  validInts (Z.of_nat (length (Data D))) ints -> fairInts (Z.of_nat (length (Data D))) ints ->
  exists fuel r, CrossValidationSamples fuel ints D nfold = Ok r.
Proof. exact (CVS_terminates D ints nfold). Qed.
Example c53_nonvacuous : validInts (Z.of_nat (length (Data exCV))) ints0 /\ fairInts (Z.of_nat (length (Data exCV))) ints0.
Proof. exact (conj ints0_valid ints0_fair). Qed.
Print Assumptions c53_drawing_terminates.

(** C54 *)
Theorem c54_mean_over_folds {K} E fuel ints rndf id (D : DataBunch K) nfold O conc r :
  validInts (Z.of_nat (length (Data D))) ints -> length (Labels D) = length (Data D) ->
  MultiClassCrossValidation E fuel ints rndf id D nfold O conc = Ok r ->
  let n := Nat.min (requested nfold) (length (Data D) / 2) in
  if cv_err r then (n < 2)%nat /\ cv_acc r = fzero /\ cv_opts r = O /\ cv_sent r = (if conc then [SErr true; SAcc (fofZ (-1)); SOpt None] else [])
  else (2 <= n)%nat /\ exists folds pairs outs, goodFolds (length (Data D)) n folds /\ length pairs = n /\ length outs = n /\
    (forall i p o, nth_error pairs i = Some p -> nth_error outs i = Some o -> foldPair D folds i p /\ foldOutcome E (rndf i) id O p o) /\
    cv_acc r = fdiv (fold_left fadd (somes outs) fzero) (fofZ (Z.of_nat n)) /\
    match O, cv_opts r with Some o, Some o' => raisedMCW o o' | None, None => True | _, _ => False end /\
    cv_sent r = (if conc then [SErr false; SAcc (cv_acc r); SOpt (cv_opts r)] else []).
Proof. exact (c54_lemma E fuel ints rndf id D nfold O conc r). Qed.
Example c54_nonvacuous : exists r, MultiClassCrossValidation env0 10 ints0 (fun _ => draws0) 0 exCV 3 (Some (mkO true 0 2 2 (fdec 3 10))) true = Ok r /\
  cv_err r = false /\ fltb fzero (cv_acc r) = true /\ fltb (cv_acc r) (fofZ 100) = true.
Proof. exact ex_c54. Qed.
Example c54_nonvacuous_error : exists r, MultiClassCrossValidation env0 10 ints0 (fun _ => draws0) 0 (MkData (Examples.mat [[0]; [1]]) [tt] [7; 5]) 4 None true = Ok r /\ cv_err r = true.
Proof. exact ex_c54_fail. Qed.
Print Assumptions c54_mean_over_folds.

(** C84 *)
Theorem c84_cv_accuracy_range {K} E fuel ints rndf id (D : DataBunch K) nfold O conc r :
  validInts (Z.of_nat (length (Data D))) ints -> length (Labels D) = length (Data D) -> Z.of_nat (length (Data D)) < 2 ^ 46 ->
  MultiClassCrossValidation E fuel ints rndf id D nfold O conc = Ok r ->
  fleb fzero (cv_acc r) = true /\ fleb (cv_acc r) (fofZ 100) = true.
Proof. exact (c84_lemma E fuel ints rndf id D nfold O conc r). Qed.
Example c84_nonvacuous : Z.of_nat (length (Data exCV)) < 2 ^ 46 /\ exists r,
  MultiClassCrossValidation env0 10 ints0 (fun _ => draws0) 0 exCV 3 (Some (mkO true 0 2 2 (fdec 3 10))) true = Ok r /\
  cv_err r = false /\ fltb fzero (cv_acc r) = true /\ fltb (cv_acc r) (fofZ 100) = true.
Proof. exact (conj eq_refl ex_c54). Qed.
Print Assumptions c84_cv_accuracy_range.
