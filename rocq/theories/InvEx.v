(** Concrete cases for C101-C106. *)
From Coq Require Import Reals Lra String.
From Verif Require Import Base F64 F64Lemmas Env EnvLemmas Utils Tree Spec Options Train SpecTrain SpecTot SpecInv Examples UtilsProofs TreeThms TreeShort TrainTot TrainEx TrainTotEx TreeInv InvMore.
From Coq Require Import List.
Open Scope Z_scope.

(** the table of [exD] after an increasing but not linear change of its column *)
Definition exD2 : DataBunch unit := MkData (mat [[-5]; [10]; [300]]) [] [7; 5; 6].
Lemma exD_good : goodTable (Data exD).
Proof.
  apply goodTable_short; [discriminate| |].
  - intros r1 r2 [<-|[<-|[<-|[]]]] [<-|[<-|[<-|[]]]]; reflexivity.
  - apply (mat_short [[0]; [1]; [2]]). intros row z [<-|[<-|[<-|[]]]] [<-|[]]; vm_compute; reflexivity.
Qed.
Lemma exD2_good : goodTable (Data exD2).
Proof.
  apply goodTable_short; [discriminate| |].
  - intros r1 r2 [<-|[<-|[<-|[]]]] [<-|[<-|[<-|[]]]]; reflexivity.
  - apply (mat_short [[-5]; [10]; [300]]). intros row z [<-|[<-|[<-|[]]]] [<-|[]]; vm_compute; reflexivity.
Qed.
Lemma cell1 a b c i f v : cell (mat [[a]; [b]; [c]]) i f v -> f = 0 /\ (i = 0 /\ v = fZ a \/ i = 1 /\ v = fZ b \/ i = 2 /\ v = fZ c).
Proof.
  intros (row & [Hi Hr] & [Hf Hv]). assert (HF : forall z : Z, nth_error (vec [z]) (Z.to_nat f) = Some v -> f = 0 /\ v = fZ z).
  { intros z Hz. destruct (Z.to_nat f) as [|[|k]] eqn:Ef; try discriminate Hz. split; [lia|]. unfold vec in Hz. cbn [map nth_error] in Hz. congruence. }
  destruct (Z.to_nat i) as [|[|[|k]]] eqn:Ei; unfold mat in Hr; cbn [map nth_error] in Hr.
  - injection Hr as <-. apply (HF a) in Hv as [-> ->]. split; [auto|]. left. split; [lia|auto].
  - injection Hr as <-. apply (HF b) in Hv as [-> ->]. split; [auto|]. right; left. split; [lia|auto].
  - injection Hr as <-. apply (HF c) in Hv as [-> ->]. split; [auto|]. right; right. split; [lia|auto].
  - destruct k; discriminate Hr.
Qed.
Lemma exD_order : sameOrder (Data exD) (Data exD2).
Proof.
  split; [repeat constructor|]. intros f i j a b a' b' H1 H2 H3 H4. cbn [Data exD exD2] in *. apply cell1 in H1 as [-> H1]. apply cell1 in H2 as [_ H2]. apply cell1 in H3 as [_ H3]. apply cell1 in H4 as [_ H4].
  destruct H1 as [[-> ->]|[[-> ->]|[-> ->]]], H2 as [[-> ->]|[[-> ->]|[-> ->]]], H3 as [[E1 ->]|[[E1 ->]|[E1 ->]]]; try discriminate E1;
    destruct H4 as [[E2 ->]|[[E2 ->]|[E2 ->]]]; try discriminate E2; vm_compute; reflexivity.
Qed.
Notation exFullO := (mkO true 0 3 2 (fdec 3 10)).
Lemma runFull_ok : exists tr, NewMultiClass env0 draws0 exD exFullO = Ok tr.
Proof. destruct (shape_ok _ _ runFull_shape) as (tr & H & _). eauto. Qed.
Lemma ex_c101 : EnvOk env0 /\ sortsByComparison env0 /\ goodTable (Data exD) /\ goodTable (Data exD2) /\ sameOrder (Data exD) (Data exD2) /\
  Labels exD = Labels exD2 /\ fltb (o_ss exFullO) fone = false /\ exists tr, NewMultiClass env0 draws0 exD exFullO = Ok tr.
Proof.
  split; [exact env0_ok|]. split; [exact isort_natural|]. split; [exact exD_good|]. split; [exact exD2_good|]. split; [exact exD_order|].
  split; [reflexivity|]. split; [vm_compute; reflexivity|exact runFull_ok].
Qed.
Lemma ex_c102 : exists u, NewTree env0 (mat [[0]; [1]; [2]]) (withDepth exOg 3) = Ok u /\ (1 < depth u)%nat.
Proof.
  destruct (ok_ex (NewTree env0 (mat [[0]; [1]; [2]]) (withDepth exOg 3)) (fun u => Nat.ltb 1 (depth u))) as (u & Hu & HP); [vm_compute; reflexivity|].
  exists u. split; [exact Hu|]. apply Nat.ltb_lt. exact HP.
Qed.
Lemma ex_c103 : exists tr, NewMultiClass env0 draws0 exD (withRounds exFullO 3) = Ok tr.
Proof. exact runFull_ok. Qed.
Lemma ex_c104 : fltb (o_css exFullO) fone = false /\ fnanb (fZ 9) = false /\ (forall row, In row (Data exD) -> length row = 1%nat) /\
  exists tr, NewMultiClass env0 draws0 exD exFullO = Ok tr.
Proof. split; [vm_compute; reflexivity|]. split; [vm_compute; reflexivity|]. split; [intros row [<-|[<-|[<-|[]]]]; reflexivity|exact runFull_ok]. Qed.
Lemma ex_c105 : (forall a b : Z, a + 100 = b + 100 -> a = b) /\ exists tr, NewMultiClass env0 draws0 exD exFullO = Ok tr.
Proof. split; [intros; lia|exact runFull_ok]. Qed.
Definition exOne : DataBunch unit := MkData (mat [[0]; [1]; [2]]) [] [7; 7; 7].
Lemma ex_c106 : (forall v, In v (Labels exOne) -> v = 7) /\ exists tr k, NewMultiClass env0 draws0 exOne exFullO = Ok tr /\
  PredictSingleClass (tr_model tr) (vec [5]) [] = Ok (k, []).
Proof.
  split; [intros v [<-|[<-|[<-|[]]]]; reflexivity|].
  destruct (ok_ex (NewMultiClass env0 draws0 exOne exFullO) (fun tr => match PredictSingleClass (tr_model tr) (vec [5]) [] with Ok (_, []) => true | _ => false end)) as (tr & Htr & HP); [vm_compute; reflexivity|].
  destruct (PredictSingleClass (tr_model tr) (vec [5]) []) as [[k [|b bs]]| |] eqn:EP; try discriminate HP. exists tr, k. auto.
Qed.
