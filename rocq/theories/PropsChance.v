(** Property theorems about chances: C161 (SubSample), C162 (folds), C163 (fuzz). *)
From Coq Require Import Reals Sorted.
From Flocq Require Import Core.
From Verif Require Import Base F64 Env Utils Tree Spec Options Train CV SpecCV Grid Grad SpecChance ChanceProofs ChanceCV ChanceFuzz ChanceEx.
Open Scope Z_scope.

(** [ways U n P] of the |U|^n sequences of draws have the effect [P] *)
Theorem c161_total : forall A (U : list A) n w, (In w (words U n) <-> length w = n /\ incl w U) /\ length (words U n) = (length U ^ n)%nat.
Proof. exact (fun A U n w => conj (words_all U n w) (words_length U n)). Qed.

(** C161. Rows are kept independently of one another, all with the chance [keptOf U s / |U|], and the number of rows is binomial. *)
Theorem c161_rows : forall U n s rows, (exists w l, subsampleOf n s w = Ok l) -> StronglySorted Z.lt rows -> (forall i, In i rows -> 0 <= i < Z.of_nat n) ->
  ways U n (selects n s rows) = keptOf U s ^ Z.of_nat (length rows) * (Z.of_nat (length U) - keptOf U s) ^ Z.of_nat (n - length rows).
Proof. exact law_lemma. Qed.
Theorem c161_number : forall U n s j, (exists w l, subsampleOf n s w = Ok l) ->
  ways U n (selectsMany n s j) = binom n j * keptOf U s ^ Z.of_nat j * (Z.of_nat (length U) - keptOf U s) ^ Z.of_nat (n - j).
Proof. exact number_lemma. Qed.
(** for rand.Float64, [m = 53]: the chance is a little above [s] and never 0 *)
Theorem c161_chance : forall m s, 0 <= m <= 53 -> ffinite s = true -> (0 <= B2R s)%R ->
  Z.of_nat (length (unitValues m)) = 2 ^ m /\ keptOf (unitValues m) s = Z.min (2 ^ m) (Zfloor (B2R s * IZR (2 ^ m)) + 1) /\
  ((B2R s < 1)%R -> (B2R s * IZR (2 ^ m) < IZR (keptOf (unitValues m) s) <= B2R s * IZR (2 ^ m) + 1)%R).
Proof. exact (fun m s Hm Fs Hs => conj (units_length m (proj1 Hm)) (conj (kept_lemma m s Hm Fs Hs) (fun H => kept_close m s Hm Fs (conj Hs H)))). Qed.
Example c161_nonvacuous : subsampleOf 3 fhalf [fzero; fdec 3 4; fhalf] = Ok [0; 2] /\ keptOf (unitValues 2) fhalf = 3 /\
  ways (unitValues 2) 3 (selects 3 fhalf [0; 2]) = 9 /\ ways (unitValues 2) 3 (selectsMany 3 fhalf 2) = 27 /\
  keptOf (unitValues 2) fzero = 1 /\ ways (unitValues 2) 3 (selects 3 fzero [1]) = 9.
Proof. exact ex_sub. Qed.
Print Assumptions c161_total.
Print Assumptions c161_rows.
Print Assumptions c161_number.
Print Assumptions c161_chance.

(** C162. All assignments of rows to folds with the same sizes are equally likely. *)
Theorem c162_uniform : forall K (D : DataBunch K) nfold N a a', Permutation a a' ->
  ways (iota (length (Data D))) N (assigns D nfold a) = ways (iota (length (Data D))) N (assigns D nfold a').
Proof. exact @uniform_lemma. Qed.
Theorem c162_sizes : forall K (D : DataBunch K) nfold w a, incl w (iota (length (Data D))) -> assignOf D nfold w = Some a ->
  length a = length (Data D) /\ forall i, count_occ Nat.eq_dec a i = foldSize (length (Data D)) (Nat.min (requested nfold) (length (Data D) / 2)) i.
Proof. exact @sizes_lemma. Qed.
(** a row is in fold [i] in the share of the cases that is the share of the rows in fold [i] *)
Theorem c162_share : forall K (D : DataBunch K) nfold N r i, (r < length (Data D))%nat ->
  Z.of_nat (length (Data D)) * ways (iota (length (Data D))) N (putsIn D nfold r i) =
  Z.of_nat (foldSize (length (Data D)) (Nat.min (requested nfold) (length (Data D) / 2)) i) * ways (iota (length (Data D))) N (enough D nfold).
Proof. exact @share_lemma. Qed.
(** the chance that [N] draws are not enough falls exponentially *)
Theorem c162_ends : forall K (D : DataBunch K) nfold N, (2 <= Nat.min (requested nfold) (length (Data D) / 2))%nat ->
  ways (iota (length (Data D))) N (fun w => negb (enough D nfold w)) <= Z.of_nat (length (Data D)) * (Z.of_nat (length (Data D)) - 1) ^ Z.of_nat N.
Proof. exact @finish_lemma. Qed.
(** what [assignOf] tells holds for every sequence of draws that begins with [w] *)
Theorem c162_begins : forall K (D : DataBunch K) nfold w a ints fuel, incl w (iota (length (Data D))) -> assignOf D nfold w = Some a ->
  validInts (Z.of_nat (length (Data D))) ints -> (forall q, (q < length w)%nat -> ints q = nth q w 0) -> (length w <= fuel)%nat ->
  exists n s e, CrossValidationSamples fuel ints D nfold = Ok (n, Some s, e) /\ assignment (length (Data D)) (sp_folds s) = a.
Proof. exact @prefix_lemma. Qed.
Example c162_nonvacuous : assignOf fourRows 2 [2; 2; 0; 3; 1] = Some [0; 1; 0; 1]%nat /\ assignOf fourRows 2 [2; 2; 0; 3; 3] = None /\
  ways (iota 4) 5 (assigns fourRows 2 [0; 1; 0; 1]%nat) = 40 /\ ways (iota 4) 5 (assigns fourRows 2 [1; 1; 0; 0]%nat) = 40 /\
  ways (iota 4) 5 (enough fourRows 2) = 240 /\ ways (iota 4) 5 (putsIn fourRows 2 3 1) = 120 /\ ways (iota 4) 5 (fun w => negb (enough fourRows 2 w)) = 784.
Proof. exact ex_folds. Qed.
Print Assumptions c162_uniform.
Print Assumptions c162_sizes.
Print Assumptions c162_share.
Print Assumptions c162_ends.
Print Assumptions c162_begins.

(** C163. In exact arithmetic a fuzzed value is as often above as below, by the same amount *)
Theorem c163_symmetric : forall u f q : R, (fuzz RN u false f q + fuzz RN u true f q = 2 * f)%R.
Proof. exact symmetric_lemma. Qed.
(** but the number of rounds is cut to an integer: half a round is lost on average *)
Theorem c163_rounds_biased : forall (u q : R) R, 0 <= R -> (0 <= u < 1)%R -> (0 <= q <= 1)%R ->
  Ztrunc (fuzz RN u false (IZR R) q) + Ztrunc (fuzz RN u true (IZR R) q) = 2 * R - (if Req_EM_T (IZR (Zfloor (u * q * IZR R))) (u * q * IZR R) then 0 else 1).
Proof. exact bias_lemma. Qed.
(** and a small number of rounds never rises *)
Theorem c163_small_rounds : forall d perc most o, libraryPerc perc most -> ffinite (fst (d 0%nat)) = true -> (0 <= B2R (fst (d 0%nat)) < 1)%R -> 1 <= o_rounds o <= most ->
  let R := o_rounds o in let R' := o_rounds (fuzzOptions d perc o) in
  (R' = R \/ R' = R - 1) /\ (snd (d 0%nat) = false -> R' = R) /\ (snd (d 0%nat) = true -> (1 / 1048576 <= B2R (fst (d 0%nat)))%R -> R' = R - 1).
Proof. exact small_lemma. Qed.
Theorem c163_never_back : forall perc most ds, libraryPerc perc most -> (forall d, In d ds -> ffinite (fst (d 0%nat)) = true /\ (0 <= B2R (fst (d 0%nat)) < 1)%R) ->
  forall o, 0 <= o_rounds o <= most -> 0 <= o_rounds (fold_left (fun o d => fuzzOptions d perc o) ds o) <= o_rounds o.
Proof. exact never_back_lemma. Qed.
Example c163_nonvacuous : libraryPerc None 9 /\ o_rounds (fuzzOptions fzDown None nine) = 8 /\ o_rounds (fuzzOptions fzUp None nine) = 9 /\
  o_rounds (fold_left (fun o d => fuzzOptions d None o) [fzUp; fzDown; fzUp; fzDown; fzDown] nine) = 6.
Proof. exact (conj (or_introl (conj eq_refl eq_refl)) ex_fuzz). Qed.
Print Assumptions c163_symmetric.
Print Assumptions c163_rounds_biased.
Print Assumptions c163_small_rounds.
Print Assumptions c163_never_back.
