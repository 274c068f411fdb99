(** A grid search over ordinary data returns: C138. *)
From Coq Require Import Reals.
From Verif Require Import Base F64 F64Lemmas Env EnvLemmas Utils Tree Options Train Spec SpecTot TrainEx CV SpecCV CVEx Grid SpecGrid GridProofs GridEx SpecGridTot GridTot GridTotEx.
Open Scope Z_scope.

(** C138: how many values the search tries for a hyperparameter *)
Theorem c138_int_values : forall r, 1 <= r_step r ->
  exists l, rangeZ r l /\ Z.of_nat (length l) = if r_lo r <=? r_hi r then (r_hi r - r_lo r) / r_step r + 1 else 0.
Proof. exact axisZ. Qed.
Theorem c138_float_values : forall r, fairStep r -> exists l, rangeF r l /\
  (INR (length l) <= if fleb (r_lo r) (r_hi r) then 1 + 2 * ((B2R (r_hi r) - B2R (r_lo r)) / B2R (r_step r)) else 0)%R.
Proof. exact axisF. Qed.
(** the search returns *)
Theorem c138_grid_returns : forall K E ints rndf id (D : DataBunch K) nfold options, EnvOk E -> goodTable (Data D) -> (2 <= length (Data D))%nat ->
  length (Labels D) = length (Data D) -> sizesOk (Data D) ->
  (forall k, validInts (Z.of_nat (length (Data D))) (ints k)) -> (forall k, fairInts (Z.of_nat (length (Data D))) (ints k)) ->
  (forall o, options = Some o -> goodGrid o) ->
  exists fuel r, Grid E fuel ints rndf id D nfold options = Ok r.
Proof. exact @grid_returns. Qed.
(** it returns no error if there are at least four rows and more than one fold is asked for *)
Theorem c138_no_error : forall K E ints rndf id (D : DataBunch K) nfold o fuel r, length (Labels D) = length (Data D) ->
  (forall k, validInts (Z.of_nat (length (Data D))) (ints k)) -> goodGrid o -> (4 <= length (Data D))%nat -> nfold <> 1 ->
  Z.of_nat (length (Data D)) < 2 ^ 46 -> Grid E fuel ints rndf id D nfold (Some o) = Ok r -> gr_err r = false.
Proof. exact @grid_noerr. Qed.
(** otherwise it returns one, as soon as NCPUs combinations have been tried *)
Theorem c138_error : forall K E ints rndf id (D : DataBunch K) nfold o fuel r, length (Labels D) = length (Data D) ->
  (forall k, validInts (Z.of_nat (length (Data D))) (ints k)) -> goodGrid o -> (length (Data D) < 4)%nat \/ nfold = 1 ->
  Grid E fuel ints rndf id D nfold (Some o) = Ok r -> g_ncpus o <= Z.of_nat (length (gr_spawned r)) ->
  gr_err r = true /\ gr_acc r = fofZ (-1) /\ gr_opts r = None.
Proof. exact @grid_err. Qed.
Example c138_nonvacuous : goodTable (Data exCV) /\ (4 <= length (Data exCV))%nat /\ length (Labels exCV) = length (Data exCV) /\ sizesOk (Data exCV) /\
  validInts (Z.of_nat (length (Data exCV))) ints0 /\ fairInts (Z.of_nat (length (Data exCV))) ints0 /\ goodGrid DefaultXGridOptions.
Proof. exact ex_c138. Qed.

Print Assumptions c138_int_values.
Print Assumptions c138_float_values.
Print Assumptions c138_grid_returns.
Print Assumptions c138_no_error.
Print Assumptions c138_error.
