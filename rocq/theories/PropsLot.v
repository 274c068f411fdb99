(** Property theorems C168 (rounds left to chance) and C169 (columns offered to a root). *)
From Coq Require Import Sorted.
From Verif Require Import Base F64 Env EnvLemmas Utils Tree Options Train Spec SpecTrain Examples TrainEx SpecTot SpecChance SpecLot LotProofs LotEx.
Open Scope Z_scope.

(** C168. [U] are the equally likely values of a draw, so that there are |U|^n sequences for the rows of a round; [enoughWays] of them
    select at least MinSample rows. The number of trained rounds is binomial. *)
Theorem c168_round : forall U n s m, ways U n (fun w => m <=? Z.of_nat (length (filter (fun u => fleb u s) w))) = enoughWays U n s m.
Proof. exact enough_lemma. Qed.
Theorem c168_rounds : forall K E cols (D : DataBunch K) O U j, o_xgb O = true -> fltb (o_ss O) fone = true ->
  let n := length (Data D) in let R := Z.to_nat (o_rounds O) in
  (forall ws, In ws (words (words U n) R) -> exists tr, NewMultiClass E (lotDraws cols ws) D O = Ok tr) ->
  ways (words U n) R (trainsRounds E cols D O j) =
  binom R j * enoughWays U n (o_ss O) (o_minsample O) ^ Z.of_nat j * (Z.of_nat (length U) ^ Z.of_nat n - enoughWays U n (o_ss O) (o_minsample O)) ^ Z.of_nat (R - j).
Proof. exact @rounds_lemma. Qed.
(** nothing is trained with chance (1 - a)^Rounds, and then every prediction panics *)
Theorem c168_nothing : forall K E cols (D : DataBunch K) O U, o_xgb O = true -> fltb (o_ss O) fone = true ->
  let n := length (Data D) in let R := Z.to_nat (o_rounds O) in
  (forall ws, In ws (words (words U n) R) -> exists tr, NewMultiClass E (lotDraws cols ws) D O = Ok tr) ->
  ways (words U n) R (trainsRounds E cols D O 0) = (Z.of_nat (length U) ^ Z.of_nat n - enoughWays U n (o_ss O) (o_minsample O)) ^ Z.of_nat R /\
  forall ws tr, NewMultiClass E (lotDraws cols ws) D O = Ok tr -> trainsRounds E cols D O 0 ws = true ->
    Rounds (tr_model tr) None = Ok (-1) /\ forall row bufs, PredictMC (tr_model tr) row bufs = Panic.
Proof. exact @nothing_lemma. Qed.
(** the condition that training returns holds on well-formed data when MinSample is at least 1, as Options.Check demands *)
Theorem c168_returns : forall K E cols (D : DataBunch K) O ws, EnvOk E -> goodTable (Data D) -> length (Labels D) = length (Data D) ->
  lossSized (o_loss O) -> fractionOk (o_ss O) -> fractionOk (o_css O) -> Z.of_nat (length (Data D)) < 2 ^ 62 ->
  (forall row, In row (Data D) -> Z.of_nat (length row) < 2 ^ 62) -> 1 <= o_minsample O ->
  exists tr, NewMultiClass E (lotDraws cols ws) D O = Ok tr.
Proof. exact lot_returns. Qed.
Example c168_nonvacuous : (forall ws, In ws (words (words [fzero; fhalf] 2) 2) -> exists tr, NewMultiClass env0 (lotDraws (fun _ _ => fzero) ws) pairD lotO = Ok tr) /\
  length (Data pairD) = 2%nat /\ o_xgb lotO = true /\ fltb (o_ss lotO) fone = true /\ Check lotO = true /\
  enoughWays [fzero; fhalf] 2 (fdec 1 4) 1 = 3 /\
  map (fun j => ways (words [fzero; fhalf] 2) 2 (trainsRounds env0 (fun _ _ => fzero) pairD lotO j)) [0; 1; 2; 3]%nat = [1; 6; 9; 0].
Proof. exact ex_lot. Qed.
Print Assumptions c168_round.
Print Assumptions c168_rounds.
Print Assumptions c168_nothing.
Print Assumptions c168_returns.

(** C169. The root may split on a set of columns with the chance of drawing this set, but never on none, and on all of them also when
    none was drawn. *)
Theorem c169_columns : forall U n s cols, (0 < n)%nat -> (exists w l, subsampleOf n s w = Ok l) -> StronglySorted Z.lt cols -> (forall i, In i cols -> 0 <= i < Z.of_nat n) ->
  let k := keptOf U s in let q := Z.of_nat (length U) - k in
  ways U n (offers n s cols) =
  if Nat.eqb (length cols) 0 then 0 else if Nat.eqb (length cols) n then k ^ Z.of_nat n + q ^ Z.of_nat n else k ^ Z.of_nat (length cols) * q ^ Z.of_nat (n - length cols).
Proof. exact columns_lemma. Qed.
(** the root of every tree of a model splits on the best of the columns offered *)
Theorem c169_root : forall K E rnd (D : DataBunch K) O tr, EnvOk E -> NewMultiClass E rnd D O = Ok tr -> (length (Data D) <= length (Labels D))%nat -> o_xgb O = true -> fltb (o_css O) fone = true ->
  forall e, In e (concat (tr_hist tr)) -> exists row0 a topts, nth_error (Data D) 0 = Some row0 /\
    SubSample (Z.of_nat (length row0)) (o_css O) (snd (rnd (g_round e))) = Ok a /\ to_allowed topts = a /\ NewTree E (Data D) topts = Ok (g_tree e) /\
    forall d l r, g_tree e = Node d l r -> t_leaf d = false ->
      In (t_split d) (scannedColumns (length row0) a) /\
      forall f j sc thr, In f (scannedColumns (length row0) a) -> candidate E (Data D) topts (samplesOf d) f j sc thr -> fltb (t_best d) sc = false.
Proof. exact @root_lemma. Qed.
Example c169_nonvacuous : map (fun cols => ways (unitValues 2) 2 (offers 2 fhalf cols)) [[]; [0]; [1]; [0; 1]] = [0; 3; 3; 10] /\
  (exists w l, subsampleOf 2 fhalf w = Ok l) /\ o_xgb colO = true /\ fltb (o_css colO) fone = true /\
  subsampleOf 2 (fdec 1 4) [fone; fone] = Ok [] /\ rootSplit [fone; fone] = Some 1 /\
  subsampleOf 2 (fdec 1 4) [fone; fzero] = Ok [1] /\ rootSplit [fone; fzero] = Some 1 /\
  subsampleOf 2 (fdec 1 4) [fzero; fone] = Ok [0] /\ rootSplit [fzero; fone] = None.
Proof. exact ex_cols. Qed.
Print Assumptions c169_columns.
Print Assumptions c169_root.
