(** Concrete cases and witnesses for saved models. *)
From Coq Require Import Ascii String.
From Verif Require Import Base F64 Env EnvLemmas Utils Tree Spec Options Train SpecTrain Examples TrainEx Text Json SpecJson JsonCodec JsonMore CV CVEx Grid SpecGrid GridEx PrintProofs PrintEx Save SpecSave SaveProofs.
From Coq Require Import List.
Open Scope Z_scope.

Definition bufSize : nat := 4096.
Definition noFiles : dir := fun _ => None.
Definition allOk : nat -> option nat := fun _ => None.
Definition okO : Options := mkO true 0 3 2 (fdec 3 10).
Definition badO : Options := mkO true 0 3 2 finf.
Definition nonEmptyFile (d : dir) (n : text) : bool := match d n with Some (_ :: _) => true | _ => false end.

Lemma ex_c111 : exists d', writeBest bufSize allOk true codec0 env0 draws0 exD (fofZ 93) okO noFiles = (d', Ok true) /\
  nonEmptyFile d' (tx "xgbmodel93.json") = true.
Proof.
  set (w := writeBest _ _ _ _ _ _ _ _ _ _). assert (H : (match w with (d', Ok true) => nonEmptyFile d' (tx "xgbmodel93.json") | _ => false end) = true) by (vm_compute; reflexivity).
  destruct w as [d' [[|]| |]]; try discriminate H. exists d'. auto.
Qed.
Definition old : dir := setFile noFiles (tx "xgbmodel93.json") (tx "a good model").
Lemma ref_c111_lost : exists d', writeBest bufSize allOk true codec0 env0 draws0 exD (fofZ 93) badO old = (d', Ok false) /\ d' (tx "xgbmodel93.json") = Some [].
Proof.
  set (w := writeBest _ _ _ _ _ _ _ _ _ _). assert (H : (match w with (d', Ok false) => match d' (tx "xgbmodel93.json") with Some [] => true | _ => false end | _ => false end) = true) by (vm_compute; reflexivity).
  destruct w as [d' [[|]| |]]; try discriminate H. exists d'. split; [auto|]. destruct (d' (tx "xgbmodel93.json")) as [[|]|]; try discriminate H. reflexivity.
Qed.
Definition noSpace : nat -> option nat := fun _ => Some 0%nat.
Lemma ref_c111_silent : exists d', writeBest bufSize noSpace true codec0 env0 draws0 exD (fofZ 93) okO old = (d', Ok true) /\ d' (tx "xgbmodel93.json") = Some [].
Proof.
  set (w := writeBest _ _ _ _ _ _ _ _ _ _). assert (H : (match w with (d', Ok true) => match d' (tx "xgbmodel93.json") with Some [] => true | _ => false end | _ => false end) = true) by (vm_compute; reflexivity).
  destruct w as [d' [[|]| |]]; try discriminate H. exists d'. split; [auto|]. destruct (d' (tx "xgbmodel93.json")) as [[|]|]; try discriminate H. reflexivity.
Qed.
Definition exSaving : res (gridRet * dir) :=
  GridSaving (saveOf bufSize (fun _ => allOk) codec0 env0 (fun _ => draws0) exCV 0) 10 0 exEval (exGrid 1) noFiles.
Lemma ex_c112 : exists r d', exSaving = Ok (r, d') /\ gr_err r = false /\ fltb fzero (gr_acc r) = true /\ (exists O, gr_opts r = Some O) /\ nonEmptyFile d' (modelName (gr_acc r)) = true.
Proof.
  assert (H : (match exSaving with Ok (r, d') => negb (gr_err r) && fltb fzero (gr_acc r) && match gr_opts r with Some _ => true | None => false end && nonEmptyFile d' (modelName (gr_acc r)) | _ => false end) = true) by (vm_compute; reflexivity).
  destruct exSaving as [[r d']| |]; try discriminate H. rewrite !andb_true_iff, negb_true_iff in H. destruct H as (((H1 & H2) & H3) & H4). exists r, d'. split; [auto|]. split; [auto|]. split; [auto|].
  split; [destruct (gr_opts r); [eauto|discriminate H3]|auto].
Qed.
