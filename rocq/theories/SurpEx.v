(** Runs for C148. *)
From Coq Require Import String.
From Verif Require Import Base F64 Env Utils Tree Options Train TrainEx SpecSurp SurpProofs.
From Coq Require Import List.
Open Scope Z_scope.

(** three rows, four labels *)
Definition surD : DataBunch unit := moreLabels exD [5].
(** three rows, two labels *)
Definition fewD : DataBunch unit := MkData (Data exD) [] [7; 5].
Definition surO : Options := mkO true 0 3 2 (fdec 3 10).

Definition treesOf (r : res trained) : list nat := match r with Ok tr => map (@length tree) (mc_b (tr_model tr)) | _ => [] end.
Lemma trees_ok r l : treesOf r = l -> l <> [] -> exists tr, r = Ok tr /\ map (@length tree) (mc_b (tr_model tr)) = l.
Proof. destruct r; cbn; intros H Hl; [eauto|congruence|congruence]. Qed.

Lemma ex_c148 : rowwise (o_loss surO) /\ o_earlystop surO <= 0 /\ length (Labels exD) = length (Data exD) /\ (forall v, In v [5] -> In v (Labels exD)) /\
  length (Labels surD) = 4%nat /\ exists tr, NewMultiClass env0 draws0 exD surO = Ok tr /\ map (@length tree) (mc_b (tr_model tr)) = [3; 3; 3]%nat.
Proof.
  split; [apply rowwise_std|]. split; [apply Z.le_refl|]. split; [reflexivity|]. split; [intros v [<-|[]]; cbn; auto|]. split; [reflexivity|].
  apply trees_ok; [vm_compute; reflexivity|discriminate].
Qed.
(** with early stopping the surplus label keeps the loss up *)
Lemma ref_c148 : exists (D : DataBunch unit) S O tr tr', rowwise (o_loss O) /\ length (Labels D) = length (Data D) /\ (forall v, In v S -> In v (Labels D)) /\
  NewMultiClass env0 draws0 D O = Ok tr /\ NewMultiClass env0 draws0 (moreLabels D S) O = Ok tr' /\
  map (@length tree) (mc_b (tr_model tr)) = [3; 0; 0; 0]%nat /\ map (@length tree) (mc_b (tr_model tr')) = [3; 3; 3; 3]%nat.
Proof.
  destruct (trees_ok (NewMultiClass env0 draws0 exD (mkO false 3 4 3 (fofZ 64))) [3; 0; 0; 0]%nat) as (tr & H1 & H2); [vm_compute; reflexivity|discriminate|].
  destruct (trees_ok (NewMultiClass env0 draws0 surD (mkO false 3 4 3 (fofZ 64))) [3; 3; 3; 3]%nat) as (tr' & H1' & H2'); [vm_compute; reflexivity|discriminate|].
  exists exD, [5], (mkO false 3 4 3 (fofZ 64)), tr, tr'. split; [apply rowwise_std|]. split; [reflexivity|]. split; [intros v [<-|[]]; cbn; auto|]. auto.
Qed.
(** a surplus label that no row has becomes a class *)
Lemma ex_new_class : exists tr, NewMultiClass env0 draws0 (moreLabels exD [9]) surO = Ok tr /\ mc_labels (tr_model tr) = [7; 5; 6; 9] /\
  map (@length tree) (mc_b (tr_model tr)) = [4; 4; 4]%nat.
Proof.
  set (r := NewMultiClass env0 draws0 (moreLabels exD [9]) surO).
  assert (H : match r with Ok tr => (mc_labels (tr_model tr), map (@length tree) (mc_b (tr_model tr))) | _ => ([], []) end = ([7; 5; 6; 9], [4; 4; 4]%nat)) by (vm_compute; reflexivity).
  destruct r as [tr| |]; try discriminate H. exists tr. split; [reflexivity|]. split; [exact (f_equal fst H)|exact (f_equal snd H)].
Qed.
Lemma ex_few : (length (Labels fewD) < length (Data fewD))%nat /\ (match NewMultiClass env0 draws0 fewD surO with Panic => true | _ => false end = true) /\
  exists tr, NewMultiClass env0 draws0 fewD (MkOpts true 3 2 0 (fdec 3 10) fone fone fzero fone fone fhalf 5 "exact"%string false (SQErrLoss 0)) = Ok tr.
Proof.
  split; [cbn; lia|]. split; [vm_compute; reflexivity|].
  set (r := NewMultiClass _ _ _ _). assert (H : match r with Ok _ => true | _ => false end = true) by (vm_compute; reflexivity).
  destruct r as [tr| |]; try discriminate H. eauto.
Qed.
