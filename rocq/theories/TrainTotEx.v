(** Concrete cases for C98 and C99. *)
From Coq Require Import Reals Lra String.
From Verif Require Import Base F64 F64Lemmas Env EnvLemmas Utils Tree Spec Options Train SpecTrain SpecTot Examples TreeThms TreeShort TrainTot TrainEx.
From Coq Require Import List.
Open Scope Z_scope.

Lemma mat_short l : (forall row z, In row l -> In z row -> Z.abs z < 2 ^ 52) -> forall row v, In row (mat l) -> In v row -> shortNum v.
Proof.
  intros H row v Hr Hv. unfold mat in Hr. apply in_map_iff in Hr as (r & <- & Hr). unfold vec in Hv. apply in_map_iff in Hv as (z & <- & Hz).
  apply short_int. eapply H; eauto.
Qed.

(** options that pass Check: sub-sampling of half of the rows and MinSample 1 *)
Definition exChk : Options := MkOpts true 3 2 0 (fdec 3 10) fone fone fzero fhalf fhalf fhalf 1 "exact" false (SQErrLoss 0).
Lemma ex_c98 : EnvOk env0 /\ goodTable (Data exD) /\ length (Labels exD) = length (Data exD) /\ Check exChk = true /\
  lossSized (o_loss exChk) /\ fractionOk (o_ss exChk) /\ fractionOk (o_css exChk) /\
  forall rd, (rd < Z.to_nat (o_rounds exChk))%nat -> roundFed exChk (length (Data exD)) (fst (draws0 rd)).
Proof.
  split; [exact env0_ok|]. split.
  { apply goodTable_short; [discriminate| |].
    - intros r1 r2 [<-|[<-|[<-|[]]]] [<-|[<-|[<-|[]]]]; reflexivity.
    - apply (mat_short [[0]; [1]; [2]]). intros row z [<-|[<-|[<-|[]]]] [<-|[]]; vm_compute; reflexivity. }
  split; [reflexivity|]. split; [vm_compute; reflexivity|]. split; [apply lossSized_std|].
  split; [intros _; vm_compute; reflexivity|]. split; [intros _; vm_compute; reflexivity|].
  intros rd _. right. right. left. simpl. lia.
Qed.

(** draws that select no row, MinSample 0 *)
Definition drawsNone : draws := fun _ => (fun _ => fdec 9 10, fun _ => fzero).
Definition exNone : Options := MkOpts true 3 2 0 (fdec 3 10) fone fone fzero fhalf fone fhalf 0 "exact" false (SQErrLoss 0).
Lemma ex_c98_empty : o_xgb exNone = true /\ fltb (o_ss exNone) fone = true /\ fleb fzero (o_ss exNone) = true /\
  fleb (fst (drawsNone 0%nat) 0%nat) (o_ss exNone) = false /\ NewMultiClass env0 drawsNone exD exNone = Panic.
Proof. vm_compute. auto. Qed.

(** two finite rows that differ in the last bit: options accepted by Check, and training panics *)
Definition exClose : DataBunch unit := MkData adjX [tt] [7; 5].
Lemma ex_close : exists (D : DataBunch unit) O, Check O = true /\ length (Data D) = 2%nat /\ length (Labels D) = 2%nat /\
  (forall row, In row (Data D) -> length row = 1%nat) /\ (forall row v, In row (Data D) -> In v row -> ffinite v = true) /\
  NewMultiClass env0 draws0 D O = Panic.
Proof.
  exists exClose, (MkOpts true 3 2 0 (fdec 3 10) fone fone fzero fhalf fhalf fhalf 1 "exact" false (SQErrLoss 0)).
  split; [vm_compute; reflexivity|]. split; [reflexivity|]. split; [reflexivity|].
  split; [intros row [<-|[<-|[]]]; reflexivity|]. split; [apply fin_cells; vm_compute; reflexivity|]. vm_compute. reflexivity.
Qed.
Lemma ex_short : shortNum (fZ 3) /\ shortNum (fZ (-7)) /\ fltb (fZ (-7)) (fZ 3) = true.
Proof. split; [apply short_int; vm_compute; reflexivity|]. split; [apply short_int; vm_compute; reflexivity|]. vm_compute. reflexivity. Qed.
