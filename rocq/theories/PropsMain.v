(** The example program and the default options: C147. *)
From Coq Require Import Reals.
From Verif Require Import Base F64 F64Lemmas Env EnvLemmas Utils Tree Options Train Spec SpecTrain SpecTot TrainEx CV SpecCV CVEx Grid SpecGrid GridProofs SpecGridTot Grad SpecGrad SpecGradTot GradEx
  Text Readers SpecReaders ReadersNum Main MainProofs MainEx.
Open Scope Z_scope.

(** C147: the default options of the two packages are the XGB ones; a training with them returns (C98), and the searches over the default grid return (C138, C140) *)
Theorem c147_defaults : forall id id', (o_xgb (DefaultOptions id) = true /\ Check (DefaultOptions id) = true /\ optsOk (DefaultOptions id)) /\
  (g_xgb DefaultGridOptions = true /\ goodGrid DefaultGridOptions /\ goodClimb DefaultGridOptions) /\
  (Check (mainOptions id id') = true /\ optsOk (mainOptions id id')) /\ (goodGrid mainGrid /\ goodClimb mainGrid).
Proof. exact main_defaults. Qed.
(** the default grid has 368640 combinations; the grid of the program has 27648, and a learning rate of 0.3, the upper end of its range, is not tried *)
Theorem c147_default_grid_size : forall K E fuel ints rndf id (D : DataBunch K) nfold r, Grid E fuel ints rndf id D nfold (Some DefaultGridOptions) = Ok r -> gr_err r = false ->
  Z.of_nat (length (gr_spawned r)) = 368640.
Proof. exact @default_grid_size. Qed.
Theorem c147_grid_size : forall K E fuel ints rndf id (D : DataBunch K) nfold r, Grid E fuel ints rndf id D nfold (Some mainGrid) = Ok r -> gr_err r = false ->
  Z.of_nat (length (gr_spawned r)) = 27648 /\ forall t, In t (gr_spawned r) -> fleb (o_lr t) (fdec 2 10) = true.
Proof. exact @main_grid_size. Qed.
(** with fewer rows than MinSample a training yields a model without rounds, whose predictions panic *)
Theorem c147_few_rows : forall K E rnd (D : DataBunch K) O tr, NewMultiClass E rnd D O = Ok tr -> Z.of_nat (length (Data D)) < o_minsample O ->
  mc_b (tr_model tr) = [] /\ Rounds (tr_model tr) None = Ok (-1) /\ forall row bufs, PredictMC (tr_model tr) row bufs = Panic.
Proof. exact @few_rows. Qed.
(** with fewer than MinSample + 2 rows the accuracy of every cross-validation is zero, *)
Theorem c147_few_cv : forall K E fuel ints rndf id (D : DataBunch K) nfold O conc r, validInts (Z.of_nat (length (Data D))) ints -> length (Labels D) = length (Data D) ->
  Z.of_nat (length (Data D)) < 2 ^ 53 ->
  MultiClassCrossValidation E fuel ints rndf id D nfold (Some O) conc = Ok r -> Z.of_nat (length (Data D)) < o_minsample O + 2 -> cv_acc r = fzero.
Proof. exact @few_cv. Qed.
(** so that an XGB grid search over fewer than 7 rows finds no options, with or without an error, *)
Theorem c147_few_grid : forall K E fuel ints rndf id (D : DataBunch K) nfold o r, (forall k, validInts (Z.of_nat (length (Data D))) (ints k)) -> length (Labels D) = length (Data D) ->
  goodGrid o -> g_xgb o = true -> (length (Data D) < 7)%nat -> Grid E fuel ints rndf id D nfold (Some o) = Ok r -> gr_opts r = None.
Proof. exact @few_grid. Qed.
(** and the program does not reach its end *)
Theorem c147_small : forall E pf fuelG fuelC id id' rnd1 rnd2 ints rndf q file data out, DataBunchFromLibSVMFile pf file (Some true) = Ok (Some data) ->
  (length (Data data) < 7)%nat -> (forall k, validInts (Z.of_nat (length (Data data))) (ints k)) -> main E pf fuelG fuelC id id' rnd1 rnd2 ints rndf q file <> Ok out.
Proof. exact main_small. Qed.
(** the class that it prints at its end is between 1 and the number of labels of the file *)
Theorem c147_class : forall E pf fuelG fuelC id id' rnd1 rnd2 ints rndf q file out, main E pf fuelG fuelC id id' rnd1 rnd2 ints rndf q file = Ok out ->
  exists data labels, DataBunchFromLibSVMFile pf file (Some true) = Ok (Some data) /\ firstOccurrences (Labels data) labels /\ 1 <= mo_class out <= Z.of_nat (length labels).
Proof. exact main_class. Qed.
(** over ordinary data all its trainings and searches return without an error, and it reaches its end unless a training grew no round or a search found no options *)
(** a file that cannot be read, an error of a search, or a search without a result end the program with a panic *)
Theorem c147_failures : forall E pf fuelG fuelC id id' rnd1 rnd2 ints rndf q file,
  let prog := main E pf fuelG fuelC id id' rnd1 rnd2 ints rndf q file in
  (DataBunchFromLibSVMFile pf file (Some true) = Ok None -> prog = Panic) /\
  (forall data tr acc g, DataBunchFromLibSVMFile pf file (Some true) = Ok (Some data) -> NewMultiClass E rnd1 data (mainOptions id id') = Ok tr ->
     Accuracy (tr_model tr) data = Ok acc -> Grid E fuelG ints rndf id data 8 (Some mainGrid) = Ok g -> gr_err g = true \/ gr_opts g = None -> prog = Panic) /\
  (forall data tr acc g c, DataBunchFromLibSVMFile pf file (Some true) = Ok (Some data) -> NewMultiClass E rnd1 data (mainOptions id id') = Ok tr ->
     Accuracy (tr_model tr) data = Ok acc -> Grid E fuelG ints rndf id data 8 (Some mainGrid) = Ok g -> GradientGrid E fuelC q id data 5 (Some mainGrid) = Ok c ->
     gg_err c = true \/ gg_opts c = None -> prog = Panic).
Proof. exact main_failures. Qed.
Theorem c147_ends : forall E pf id id' rnd1 rnd2 ints rndf q file data, EnvOk E -> DataBunchFromLibSVMFile pf file (Some true) = Ok (Some data) -> goodTable (Data data) ->
  (4 <= length (Data data))%nat -> Z.of_nat (length (Data data)) < 2 ^ 46 -> (forall row, In row (Data data) -> (length row <= 21)%nat) ->
  (forall k, goodInts (length (Data data)) (ints k)) -> goodOracles (length (Data data)) q ->
  exists fuelG fuelC tr1 g c, NewMultiClass E rnd1 data (mainOptions id id') = Ok tr1 /\ Grid E fuelG ints rndf id data 8 (Some mainGrid) = Ok g /\
    GradientGrid E fuelC q id data 5 (Some mainGrid) = Ok c /\ gr_err g = false /\ gg_err c = false /\
    let prog := main E pf fuelG fuelC id id' rnd1 rnd2 ints rndf q file in
    if match mc_b (tr_model tr1), gr_opts g, gg_opts c with _ :: _, Some _, Some _ => true | _, _, _ => false end
    then exists best tr2, gg_opts c = Some best /\ NewMultiClass E rnd2 data best = Ok tr2 /\
      (mc_b (tr_model tr2) = [] /\ prog = Panic \/ mc_b (tr_model tr2) <> [] /\ exists out, prog = Ok out)
    else prog = Panic.
Proof. exact main_ends. Qed.
Example c147_nonvacuous : ParserOk pf0 /\ EnvOk env0 /\ exists data, DataBunchFromLibSVMFile pf0 (Some (mainFile, true)) (Some true) = Ok (Some data) /\ goodTable (Data data) /\
  length (Data data) = 7%nat /\ (forall row, In row (Data data) -> (length row <= 21)%nat) /\ goodInts (length (Data data)) ints0 /\ goodOracles (length (Data data)) gOr.
Proof. exact ex_c147. Qed.

Print Assumptions c147_defaults.
Print Assumptions c147_default_grid_size.
Print Assumptions c147_grid_size.
Print Assumptions c147_few_rows.
Print Assumptions c147_few_cv.
Print Assumptions c147_few_grid.
Print Assumptions c147_small.
Print Assumptions c147_class.
Print Assumptions c147_failures.
Print Assumptions c147_ends.
