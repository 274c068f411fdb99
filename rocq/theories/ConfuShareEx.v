(** Concrete cases for C154 (confu/confu.go:66-209): the model and the rows of ConfuEx.v. *)
From Coq Require Import Ascii String.
From Verif Require Import Base F64 Env EnvLemmas Utils Tree Options Train Spec SpecTrain Examples TrainEx Text Confu SpecConfu ConfuProofs ConfuMore ConfuEx
  ConfuShare SpecConfuShare ConfuShareProofs.
From Coq Require Import List.
Open Scope Z_scope.

Definition exH : heap := [[7; 7; 6]].
Definition exH0 : heap := [[7; 7; 6]; [7; 5; 6]; [7; 5; 6]].
Definition exCH : ConfH := MkCH 0 2 1 None None None [(6, 2); (5, 1); (7, 0)].
Lemma ex_start : exists tr, NewMultiClass env0 draws0 exD (mkO true 0 3 2 (fdec 3 10)) = Ok tr /\ ClassLabels (tr_model tr) = [7; 5; 6] /\
  NoDup (ClassLabels (tr_model tr)) /\ MCConfusionsH exH (tr_model tr) exT 0 = Ok (exH0, exCH).
Proof.
  destruct ex_confu as (tr & H1 & H2 & H3). exists tr. split; auto. split; auto. split; [rewrite H2; exact ex_labels_nodup|].
  unfold MCConfusionsH. change (MkData (Data exT) (Keys exT) (block exH 0)) with exT. rewrite H3. reflexivity.
Qed.
(** the labels of the data are changed after the Confusions were made *)
Lemma ex_late : exists h2 rows C2 h3 rows' C3,
  MatrixH exH0 exCH = Ok (h2, rows, C2) /\ map (block h2) rows = [[1; 1; 0]; [0; 0; 0]; [0; 0; 1]] /\
  hreach env0 anywhere (exH0, exCH) (write exH0 0 [6; 7; 6], exCH) /\
  MatrixH (write exH0 0 [6; 7; 6]) exCH = Ok (h3, rows', C3) /\ map (block h3) rows' = [[0; 1; 0]; [0; 0; 0]; [1; 0; 1]].
Proof.
  do 6 eexists. split; [vm_compute; reflexivity|]. split; [vm_compute; reflexivity|]. split; [|split; [vm_compute; reflexivity|vm_compute; reflexivity]].
  apply hr_write; [apply hr_refl|exact I|reflexivity].
Qed.
(** a program writes to the matrix it got *)
Lemma ex_scribble : exists h2 rows C2 r ri rv C3 h3,
  MatrixH exH0 exCH = Ok (h2, rows, C2) /\ nth_error rows 0 = Some r /\ block h2 r = [1; 1; 0] /\
  TopNH env0 (write h2 r [0; 9; 0]) C2 1 7 true = Ok (Some (ri, rv), C3, h3) /\ sread h3 ri = [1] /\ sread h3 rv = [9].
Proof.
  do 8 eexists. split; [vm_compute; reflexivity|]. split; [vm_compute; reflexivity|]. split; [vm_compute; reflexivity|]. split; [vm_compute; reflexivity|].
  split; vm_compute; reflexivity.
Qed.
