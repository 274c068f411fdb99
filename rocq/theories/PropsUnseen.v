(** Property theorems about labels that occur only among the test rows: C164. *)
From Verif Require Import Base F64 Env Utils Tree Options Train Examples TrainEx Spec SpecTrain CV SpecCV CVEx SpecChance ChanceEx SpecUnseen UnseenProofs UnseenChance UnseenEx.
Open Scope Z_scope.

(** C164. A trained model predicts labels of its training data only, *)
Theorem c164_seen : forall K E rnd (D : DataBunch K) O tr row l, NewMultiClass E rnd D O = Ok tr -> predictsLabel (tr_model tr) row l -> In l (Labels D).
Proof. exact predicted_known. Qed.
(** so its accuracy is at most the percentage of the rows whose label it has seen; *)
Theorem c164_accuracy : forall K K' E rnd (D : DataBunch K) O tr (T : DataBunch K') a, NewMultiClass E rnd D O = Ok tr -> Accuracy (tr_model tr) T = Ok a ->
  exists right, (right <= known (Labels D) (firstn (length (Data T)) (Labels T)))%nat /\ a = percent right (length (Data T)) /\
  (Data T <> [] -> Z.of_nat (length (Data T)) < 2 ^ 63 -> fleb a (percent (known (Labels D) (firstn (length (Data T)) (Labels T))) (length (Data T))) = true).
Proof. exact accuracy_lemma. Qed.
(** when every label occurs once, the accuracy of a cross-validation is 0 *)
Theorem c164_distinct : forall K E fuel ints rndf id (D : DataBunch K) nfold O conc r, validInts (Z.of_nat (length (Data D))) ints -> length (Labels D) = length (Data D) ->
  Z.of_nat (length (Data D)) < 2 ^ 63 -> NoDup (Labels D) -> MultiClassCrossValidation E fuel ints rndf id D nfold O conc = Ok r -> cv_acc r = fzero.
Proof. exact distinct_lemma. Qed.
(** when the rows [S] are in fold [i], another row is there too with the chance (size of the fold - |S|) / (rows - |S|); *)
Theorem c164_next : forall K (D : DataBunch K) nfold N S r i, NoDup (r :: S) -> (forall x, In x (r :: S) -> (x < length (Data D))%nat) ->
  Z.of_nat (length (Data D) - length S) * ways (iota (length (Data D))) N (putsAll D nfold (r :: S) i) =
  Z.of_nat (foldSize (length (Data D)) (Nat.min (requested nfold) (length (Data D) / 2)) i - length S) * ways (iota (length (Data D))) N (putsAll D nfold S i).
Proof. exact @next_lemma. Qed.
(** so all rows of a label are in fold [i], and none in its training data, with a chance that is a quotient of falling factorials *)
Theorem c164_together : forall K (D : DataBunch K) nfold N S i, NoDup S -> (forall x, In x S -> (x < length (Data D))%nat) ->
  falling (length (Data D)) (length S) * ways (iota (length (Data D))) N (putsAll D nfold S i) =
  falling (foldSize (length (Data D)) (Nat.min (requested nfold) (length (Data D) / 2)) i) (length S) * ways (iota (length (Data D))) N (enough D nfold).
Proof. exact @together_lemma. Qed.
Example c164_nonvacuous : (exists tr a, NewMultiClass env0 draws0 exD (mkO true 0 3 2 (fdec 3 10)) = Ok tr /\ Accuracy (tr_model tr) testRows = Ok a /\
    feqb a (fofZ 75) = true /\ known (Labels exD) (Labels testRows) = 3%nat) /\
  validInts (Z.of_nat (length (Data sevenLabels))) ints0 /\ NoDup (Labels sevenLabels) /\
  (exists r, MultiClassCrossValidation env0 10 ints0 (fun _ => draws0) 0 sevenLabels 3 (Some (mkO true 0 2 2 (fdec 3 10))) true = Ok r /\ cv_err r = false) /\
  ways (iota 4) 5 (putsAll fourRows 2 [0; 2]%nat 1) = 40 /\ falling 4 2 = 12 /\ falling 2 2 = 2 /\ falling 2 3 = 0 /\ ways (iota 4) 5 (putsAll fourRows 2 [0; 2; 3]%nat 1) = 0.
Proof. exact (conj ex_seen (conj ints0_valid (conj sevenLabels_nodup (conj ex_distinct ex_together)))). Qed.
Print Assumptions c164_seen.
Print Assumptions c164_accuracy.
Print Assumptions c164_distinct.
Print Assumptions c164_next.
Print Assumptions c164_together.
