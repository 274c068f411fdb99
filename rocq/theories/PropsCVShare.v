(** The rows of the cross-validation samples: C150. *)
From Verif Require Import Base F64 Env Utils Tree Options Train Spec SpecTrain TrainEx CV SpecCV CVEx CVShare SpecCVShare CVShareProofs CVShareEx.
Open Scope Z_scope.

(** C150. Without copies a call allocates no row, and whatever is written to any row later, the samples are the (train, test) pair
    of the fold in what the caller's data has become *)
Theorem c150_shared {K} (D : hdata K) nf folds n h s : reachH D false nf folds n h s -> (n < nf)%nat ->
  exists train test s', callSamplerH h s = Ok (h, Some (train, test), s') /\
    forall h', foldPair (valuesOf h' D) folds n (valuesOf h' train, valuesOf h' test).
Proof. exact (share_lemma D nf folds n h s). Qed.
(** with copies a call returns the pair of the fold in the caller's data as it is at the time of the call, in rows that are all
    new and all different, and changes no existing row *)
Theorem c150_copied {K} (D : hdata K) nf folds n h s : reachH D true nf folds n h s -> (n < nf)%nat ->
  exists h' train test s', callSamplerH h s = Ok (h', Some (train, test), s') /\ writtenAt [] h h' /\
    foldPair (valuesOf h D) folds n (valuesOf h' train, valuesOf h' test) /\
    NoDup (pairRows (train, test)) /\ (forall p, In p (pairRows (train, test)) -> (length h <= p < length h')%nat).
Proof. exact (copy_rows_lemma D nf folds n h s). Qed.
(** so writing to the caller's data, or to anything else that existed before ([A]: the samples of earlier calls, say), does not
    change the samples, writing to the samples does not change [A], and train and test do not affect each other *)
Theorem c150_independent {K} (D A : hdata K) nf folds n h s h' train test s' :
  reachH D true nf folds n h s -> callSamplerH h s = Ok (h', Some (train, test), s') -> rowsIn h A ->
  (forall h2, writtenAt (hd_rows A) h' h2 -> valuesOf h2 train = valuesOf h' train /\ valuesOf h2 test = valuesOf h' test) /\
  (forall h2, writtenAt (pairRows (train, test)) h' h2 -> valuesOf h2 A = valuesOf h A) /\
  (forall h2, writtenAt (hd_rows test) h' h2 -> valuesOf h2 train = valuesOf h' train) /\
  (forall h2, writtenAt (hd_rows train) h' h2 -> valuesOf h2 test = valuesOf h' test).
Proof. exact (indep_lemma D A nf folds n h s h' train test s'). Qed.
(** after the last fold: nil, nil *)
Theorem c150_ended {K} (D : hdata K) docopy nf folds n h s : reachH D docopy nf folds n h s -> (nf <= n)%nat -> callSamplerH h s = Ok (h, None, s).
Proof. exact (ended_lemma D docopy nf folds n h s). Qed.
(** by default the samples of a fold are not separate from the caller's data or from the samples of the other folds *)
Theorem c150_separate_refuted : exists s1 s2 train1 test1 train2 test2, reachH exShare false 3 exFolds 0 exRows (MkSH exShare exFolds 3 0 false) /\
  callSamplerH exRows (MkSH exShare exFolds 3 0 false) = Ok (exRows, Some (train1, test1), s1) /\
  writtenAt (hd_rows test1) exRows (upd_nat exRows 0 row99) /\
  callSamplerH (upd_nat exRows 0 row99) s1 = Ok (upd_nat exRows 0 row99, Some (train2, test2), s2) /\
  ~ In row99 (Data exCV) /\ In row99 (Data (valuesOf (upd_nat exRows 0 row99) train2)) /\ In row99 (Data (valuesOf (upd_nat exRows 0 row99) exShare)).
Proof. exact ex_written. Qed.
Example c150_nonvacuous : reachH exShare true 3 exFolds 0 exRows (MkSH exShare exFolds 3 0 true) /\ rowsIn exRows exShare /\
  exists h' train test s', callSamplerH exRows (MkSH exShare exFolds 3 0 true) = Ok (h', Some (train, test), s') /\
  hd_rows test = [7; 8]%nat /\ hd_rows train = [9; 10; 11; 12; 13]%nat /\ Data (valuesOf h' test) = [[fofZ 0]; [fofZ 1]].
Proof. exact (conj (ex_reach (Some true)) (conj ex_rowsIn ex_copies)). Qed.
Print Assumptions c150_shared.
Print Assumptions c150_copied.
Print Assumptions c150_independent.
Print Assumptions c150_ended.
Print Assumptions c150_separate_refuted.
