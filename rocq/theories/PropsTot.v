(** C98-C100: training and cross-validation return on well-formed data. *)
From Coq Require Import Reals String.
From Verif Require Import Base F64 F64Lemmas Env EnvLemmas Utils Tree Spec Options Train CV SpecTrain SpecCV SpecTot Examples TreeShort TrainTot TrainEx TrainTotEx CVEx CVTot CVTotEx.
From Coq Require Import List.
Open Scope Z_scope.

(** C98: on a table that can be split, with one label per row, no negative fraction and a non-empty sample in every round,
    training returns a model. *)
Theorem c98_training_total : forall K E rnd (D : DataBunch K) O, EnvOk E -> goodTable (Data D) -> length (Labels D) = length (Data D) ->
  lossSized (o_loss O) -> fractionOk (o_ss O) -> fractionOk (o_css O) -> Z.of_nat (length (Data D)) < 2 ^ 62 ->
  (forall row, In row (Data D) -> Z.of_nat (length row) < 2 ^ 62) ->
  (forall rd, (rd < Z.to_nat (o_rounds O))%nat -> roundFed O (length (Data D)) (fst (rnd rd))) ->
  exists tr, NewMultiClass E rnd D O = Ok tr.
Proof. exact @c98_lemma. Qed.
(** the two losses of the package have the required shape *)
Theorem c98_losses : forall id, lossSized (SQErrLoss id) /\ lossSized (MSELoss id).
Proof. exact lossSized_std. Qed.
(** a round that selects no row makes training fail *)
Theorem c98_empty_round : forall K E rnd (D : DataBunch K) O rd row0 tr, o_xgb O = true -> fltb (o_ss O) fone = true -> o_minsample O <= 0 ->
  1 <= o_maxdepth O -> (rd < Z.to_nat (o_rounds O))%nat -> (rd = 0%nat \/ o_earlystop O <= 0) -> nth_error (Data D) 0 = Some row0 -> row0 <> [] ->
  (forall i, (i < length (Data D))%nat -> fleb (fst (rnd rd) i) (o_ss O) = false) -> NewMultiClass E rnd D O <> Ok tr.
Proof. exact @c98_empty_lemma. Qed.
(** finite data and options accepted by Check are not enough *)
Theorem c98_close_values_refuted : exists (D : DataBunch unit) O, Check O = true /\ length (Data D) = 2%nat /\ length (Labels D) = 2%nat /\
  (forall row, In row (Data D) -> length row = 1%nat) /\ (forall row v, In row (Data D) -> In v row -> ffinite v = true) /\
  NewMultiClass env0 draws0 D O = Panic.
Proof. exact ex_close. Qed.
Example c98_nonvacuous : EnvOk env0 /\ goodTable (Data exD) /\ length (Labels exD) = length (Data exD) /\ Check exChk = true /\
  lossSized (o_loss exChk) /\ fractionOk (o_ss exChk) /\ fractionOk (o_css exChk) /\
  forall rd, (rd < Z.to_nat (o_rounds exChk))%nat -> roundFed exChk (length (Data exD)) (fst (draws0 rd)).
Proof. exact ex_c98. Qed.
Example c98_nonvacuous_empty : o_xgb exNone = true /\ fltb (o_ss exNone) fone = true /\ fleb fzero (o_ss exNone) = true /\
  fleb (fst (drawsNone 0%nat) 0%nat) (o_ss exNone) = false /\ NewMultiClass env0 drawsNone exD exNone = Panic.
Proof. exact ex_c98_empty. Qed.

(** C99: for numbers with at most 52 significant bits the midpoint separates, so tables of such numbers can be split. *)
Theorem c99_midpoint : forall a b, shortNum a -> shortNum b -> fltb a b = true ->
  fleb a (fdiv (fadd a b) (fofZ 2)) = true /\ fltb (fdiv (fadd a b) (fofZ 2)) b = true.
Proof. exact midpoint_short. Qed.
Theorem c99_table : forall X, X <> [] -> (forall r1 r2, In r1 X -> In r2 X -> length r1 = length r2) ->
  (forall row v, In row X -> In v row -> shortNum v) -> goodTable X.
Proof. exact goodTable_short. Qed.
Theorem c99_integers : forall z, Z.abs z < 2 ^ 52 -> shortNum (fofZ z).
Proof. exact short_int. Qed.
Theorem c99_float32 : forall v m e, ffinite v = true -> Z.abs m < 2 ^ 24 -> -149 <= e <= 104 -> B2R v = (IZR m * bpow radix2 e)%R -> shortNum v.
Proof. exact short_float32. Qed.
Example c99_nonvacuous : shortNum (fZ 3) /\ shortNum (fZ (-7)) /\ fltb (fZ (-7)) (fZ 3) = true.
Proof. exact ex_short. Qed.

(** C100: cross-validation returns on such data, whatever the fold number, if the draws reach every index again and again. *)
Theorem c100_cv_returns : forall K E ints rndf id (D : DataBunch K) nfold O conc, EnvOk E -> goodTable (Data D) -> (2 <= length (Data D))%nat ->
  length (Labels D) = length (Data D) -> sizesOk (Data D) -> optsOk (match O with Some o => o | None => DefaultXOptions id end) ->
  validInts (Z.of_nat (length (Data D))) ints -> fairInts (Z.of_nat (length (Data D))) ints ->
  exists fuel r, MultiClassCrossValidation E fuel ints rndf id D nfold O conc = Ok r.
Proof. exact @c100_lemma. Qed.
Theorem c100_checked_options : forall O, lossSized (o_loss O) -> Check O = true -> optsOk O.
Proof. exact check_optsOk. Qed.
Theorem c100_default_options : forall id, optsOk (DefaultXOptions id).
Proof. exact default_optsOk. Qed.
Example c100_nonvacuous : goodTable (Data exCV) /\ (2 <= length (Data exCV))%nat /\ length (Labels exCV) = length (Data exCV) /\ sizesOk (Data exCV) /\
  optsOk exChk /\ validInts (Z.of_nat (length (Data exCV))) ints0 /\ fairInts (Z.of_nat (length (Data exCV))) ints0.
Proof. exact ex_c100. Qed.

Print Assumptions c98_training_total.
Print Assumptions c98_losses.
Print Assumptions c98_empty_round.
Print Assumptions c98_close_values_refuted.
Print Assumptions c99_midpoint.
Print Assumptions c99_table.
Print Assumptions c99_integers.
Print Assumptions c99_float32.
Print Assumptions c100_cv_returns.
Print Assumptions c100_checked_options.
Print Assumptions c100_default_options.
