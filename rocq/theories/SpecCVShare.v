(** Specification vocabulary for the sharing of rows. *)
From Verif Require Import Base F64 Env Utils Tree Options Train Spec CV SpecCV CVShare.
Open Scope Z_scope.

(** the values behind a data bunch *)
Definition valuesOf {K} (h : rowHeap) (D : hdata K) : DataBunch K := MkData (map (fun p => nth p h []) (hd_rows D)) (hd_keys D) (hd_labels D).
(** every row exists *)
Definition rowsIn {K} (h : rowHeap) (D : hdata K) : Prop := forall p, In p (hd_rows D) -> (p < length h)%nat.
(** memory [h'] is memory [h] after writes to the rows in [ps] only, and allocations *)
Definition writtenAt (ps : list nat) (h h' : rowHeap) : Prop := forall p, (p < length h)%nat -> ~ In p ps -> nth_error h' p = nth_error h p.
(** the rows of a (train, test) pair *)
Definition pairRows {K} (p : hdata K * hdata K) : list nat := hd_rows (fst p) ++ hd_rows (snd p).
(** a sampler for data [D] obtained from CrossValidationSamples, after some calls with anything done to the memory in between *)
Inductive reachH {K} (D : hdata K) (docopy : bool) (nf : nat) (folds : list (list Z)) : nat -> rowHeap -> samplerH K -> Prop :=
| rh_start fuel ints h nfold usecopies s e : rowsIn h D -> validInts (Z.of_nat (length (hd_rows D))) ints -> length (hd_labels D) = length (hd_rows D) ->
    CrossValidationSamplesH fuel ints h D nfold usecopies = Ok (nf, Some s, e) -> docopy = match usecopies with Some b => b | None => false end -> folds = sh_folds s ->
    reachH D docopy nf folds 0 h s
| rh_call n h s h' o s' : reachH D docopy nf folds n h s -> callSamplerH h s = Ok (h', o, s') -> reachH D docopy nf folds (S n) h' s'
| rh_writes n h s h' : reachH D docopy nf folds n h s -> (length h <= length h')%nat -> reachH D docopy nf folds n h' s.
