(** Concrete case for C100. *)
From Coq Require Import Reals String.
From Verif Require Import Base F64 F64Lemmas Env Utils Tree Spec Options Train CV SpecTrain SpecCV SpecTot Examples TreeShort TrainTot TrainEx TrainTotEx CVEx CVTot.
From Coq Require Import List.
Open Scope Z_scope.
Lemma ex_c100 : goodTable (Data exCV) /\ (2 <= length (Data exCV))%nat /\ length (Labels exCV) = length (Data exCV) /\ sizesOk (Data exCV) /\
  optsOk exChk /\ validInts (Z.of_nat (length (Data exCV))) ints0 /\ fairInts (Z.of_nat (length (Data exCV))) ints0.
Proof.
  split.
  { apply goodTable_short; [discriminate| |].
    - intros r1 r2 H1 H2. unfold exCV, mat in H1, H2. cbn [Data] in H1, H2.
      apply in_map_iff in H1 as (a & <- & H1). apply in_map_iff in H2 as (b & <- & H2).
      unfold vec. rewrite !map_length.
      assert (HA : forall r : list Z, In r [[0]; [1]; [2]; [3]; [4]; [5]; [6]] -> length r = 1%nat) by (simpl; intuition (subst; reflexivity)).
      rewrite (HA a H1), (HA b H2). reflexivity.
    - apply (mat_short [[0]; [1]; [2]; [3]; [4]; [5]; [6]]). intros row z Hr Hz.
      simpl in Hr. repeat (destruct Hr as [<-|Hr]; [destruct Hz as [<-|[]]; vm_compute; reflexivity|]). destruct Hr. }
  split; [simpl; lia|]. split; [reflexivity|]. split.
  { split; [vm_compute; reflexivity|]. intros row Hr. simpl in Hr. repeat (destruct Hr as [<-|Hr]; [vm_compute; reflexivity|]). destruct Hr. }
  split; [apply check_optsOk; [apply lossSized_std|vm_compute; reflexivity]|]. split; [exact ints0_valid|exact ints0_fair].
Qed.
