(** C128: the order of the rows. *)
From Coq Require Import Permutation.
From Verif Require Import Base F64 Env EnvLemmas Utils Tree Spec SpecRow Examples RowProofs RowEx.
From Coq Require Import List.
Open Scope Z_scope.

(** Two runs on the same samples in any order, with any sorting algorithm and any order of additions, give the same tree
    when the sums of the gradients (Hessians, targets) need no rounding. *)
Theorem c128_row_order : forall E E' X X' o o' t t' w, EnvOk E -> EnvOk E' ->
  (forall i f v, cell X i f v -> fnanb v = false) -> (forall i f v, cell X' i f v -> fnanb v = false) ->
  (forall row, In row X \/ In row X' -> length row = w) -> sameSamples X o X' o' -> (forall l, summed X o l -> sumsExactly l) ->
  NewTree E X o = Ok t -> NewTree E' X' o' = Ok t' -> noSamples t = noSamples t' /\ forall row, PredictSingle t row = PredictSingle t' row.
Proof. exact c128_lemma. Qed.
(** numbers with exact sums: integers, and the gradients of two equally likely classes *)
Theorem c128_integers : forall zs, fold_right (fun m s => Z.abs m + s) 0 zs < 2 ^ 53 -> sumsExactly (map fofZ zs).
Proof. exact sums_integers. Qed.
Theorem c128_halves : forall l, (forall x, In x l -> x = fhalf \/ x = fopp fhalf) -> Z.of_nat (length l) < 2 ^ 53 -> sumsExactly l.
Proof. exact sums_halves. Qed.
(** otherwise the order of the rows can change the predictions *)
Theorem c128_rounding_refuted : exists X o o' t t' row v v', sameSamples X o X o' /\ NewTree env0 X o = Ok t /\ NewTree env0 X o' = Ok t' /\
  PredictSingle t row = Ok v /\ PredictSingle t' row = Ok v' /\ feqb v v' = false.
Proof. exact ref_c128. Qed.
Example c128_nonvacuous_tables : (forall row, In row rowX \/ In row rowX' -> length row = 2%nat) /\
  (forall i f v, cell rowX i f v -> fnanb v = false) /\ (forall i f v, cell rowX' i f v -> fnanb v = false).
Proof. exact row_tables. Qed.
Example c128_nonvacuous : EnvOk env0 /\ sameSamples rowX (regO [0; 1; 7; 9]) rowX' (regO [9; 1; 0; 7]) /\ (forall l, summed rowX (regO [0; 1; 7; 9]) l -> sumsExactly l) /\
  exists t t', NewTree env0 rowX (regO [0; 1; 7; 9]) = Ok t /\ NewTree env0 rowX' (regO [9; 1; 0; 7]) = Ok t' /\ (2 <= length (leaves t))%nat.
Proof. exact ex_c128. Qed.

Print Assumptions c128_row_order.
Print Assumptions c128_integers.
Print Assumptions c128_halves.
Print Assumptions c128_rounding_refuted.
