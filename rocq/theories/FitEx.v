(** Concrete inputs for C117 to C119 and C120. *)
From Coq Require Import Reals Lra String.
From Flocq Require Import Core.
From Verif Require Import Base F64 F64Lemmas Env EnvLemmas Utils Tree Spec Options Train SpecTrain SpecTot SpecInv SpecFit Examples TrainEx TrainTotEx TreeShort InvEx NumErr.
From Coq Require Import List.
Open Scope Z_scope.

Lemma ex_c117 : EnvOk env0 /\ sortsByComparison env0 /\ 0 <= 0 < Z.of_nat 1 /\ (forall row, In row (Data exD) -> length row = 1%nat) /\
  followsColumn (Data exD) 0 (vec [-7; 20; 400]) /\ fltb (o_css exFullO) fone = false /\
  exists tr, NewMultiClass env0 draws0 exD exFullO = Ok tr.
Proof.
  split; [exact env0_ok|]. split; [exact (proj1 (proj2 ex_c101))|]. split; [lia|]. split; [intros row [<-|[<-|[<-|[]]]]; reflexivity|].
  split; [|split; [vm_compute; reflexivity|exact runFull_ok]]. split; [reflexivity|].
  split; [intros v [<-|[<-|[<-|[]]]]; vm_compute; reflexivity|].
  split; [intros i a Ha; apply (cell1 0 1 2) in Ha as [_ [[_ ->]|[[_ ->]|[_ ->]]]]; vm_compute; reflexivity|].
  intros i j a b v w Ha Hb [_ Hv] [_ Hw]. apply (cell1 0 1 2) in Ha as [_ Ha]. apply (cell1 0 1 2) in Hb as [_ Hb].
  destruct Ha as [[-> ->]|[[-> ->]|[-> ->]]]; destruct Hb as [[-> ->]|[[-> ->]|[-> ->]]]; injection Hv as <-; injection Hw as <-; vm_compute; reflexivity.
Qed.

Lemma ex_c118 : exists t, NewTree env0 exX exO = Ok t /\ (2 <= length (leaves t))%nat.
Proof.
  destruct (ok_ex (NewTree env0 exX exO) (fun t => Nat.leb 2 (length (leaves t)))) as (t & Ht & HB); [vm_compute; reflexivity|].
  exists t. split; [exact Ht|]. apply Nat.leb_le. exact HB.
Qed.
Lemma ex_c118_depth : exists u t, NewTree env0 exX (withDepth exOg 4) = Ok u /\ NewTree env0 exX (withDepth exOg 1) = Ok t /\ (length (leaves t) < length (leaves u))%nat.
Proof.
  destruct (ok_ex (NewTree env0 exX (withDepth exOg 4)) (fun u => match NewTree env0 exX (withDepth exOg 1) with Ok t => Nat.ltb (length (leaves t)) (length (leaves u)) | _ => false end))
    as (u & Hu & HB); [vm_compute; reflexivity|].
  exists u. destruct (NewTree env0 exX (withDepth exOg 1)) as [t| |]; try discriminate HB. exists t. split; [exact Hu|]. split; [reflexivity|]. apply Nat.ltb_lt. exact HB.
Qed.

Definition memO : TreeOptions := MkTO false fone [] fzero fzero None None (vec [5; 2; 7]) None None 3 None.
Lemma ex_c119 : goodTable (Data exD) /\ to_xgb memO = false /\ to_allowed memO = [] /\ (forall y, In y (to_y memO) -> moderate y) /\
  ftoZ (to_mcw memO) <= 1 /\ initialSamples (Data exD) memO = [0; 1; 2] /\ to_maxdepth memO = 3 /\ NoDup (initialSamples (Data exD) memO) /\
  (forall i j, In i (initialSamples (Data exD) memO) -> In j (initialSamples (Data exD) memO) -> sameRow (Data exD) i j -> i = j) /\
  exists t, NewTree env0 (Data exD) memO = Ok t.
Proof.
  split; [exact exD_good|]. split; [reflexivity|]. split; [reflexivity|]. split.
  { intros y Hy. assert (HZ : exists z, 0 <= z < 10 /\ y = fofZ z).
    { destruct Hy as [<-|[<-|[<-|[]]]]; [exists 5|exists 2|exists 7]; split; try lia; reflexivity. }
    destruct HZ as (z & Hz & ->). destruct (fofZ_exact50 z ltac:(lia)) as [F1 B1]. split; [exact F1|]. rewrite B1, <- abs_IZR.
    apply Rle_trans with (IZR 10); [apply IZR_le; lia|]. apply Rle_trans with (bpow radix2 4); [cbn; lra|apply bpow_le; lia]. }
  split; [vm_compute; discriminate|]. split; [reflexivity|]. split; [reflexivity|].
  split; [cbn; repeat constructor; cbn; intros H; repeat (destruct H as [H|H]; [discriminate|]); exact H|]. split.
  { assert (HC : forall i, In i (initialSamples (Data exD) memO) -> cell (Data exD) i 0 (fZ i)).
    { intros i [<-|[<-|[<-|[]]]]; [exists (vec [0])|exists (vec [1])|exists (vec [2])]; split; split; try lia; reflexivity. }
    intros i j Hi Hj HS. specialize (HS 0 (fZ i) (fZ j) (HC i Hi) (HC j Hj)).
    destruct Hi as [<-|[<-|[<-|[]]]]; destruct Hj as [<-|[<-|[<-|[]]]]; try reflexivity; vm_compute in HS; discriminate HS. }
  destruct (ok_ex (NewTree env0 (Data exD) memO) (fun _ => true)) as (t & Ht & _); [vm_compute; reflexivity|]. eauto.
Qed.

(** two rows, two labels, learning rate 1 *)
Definition satD : DataBunch unit := MkData (mat [[0]; [1]]) [] [7; 5].
Definition satO (rounds : Z) : Options :=
  MkOpts false rounds 4 0 fone fzero fone fzero fzero fzero fzero 0 "" false (MSELoss 0).
Definition accIs (M : MultiClass) (D : DataBunch unit) (z : Z) : bool := match Accuracy M D with Ok a => feqb a (fofZ z) | _ => false end.
Definition allNaN (M : MultiClass) (row : list f64) : bool := match PredictMC M row [] with Ok (ps, _) => forallb fnanb ps | _ => false end.
Lemma accIs_ex M D z : accIs M D z = true -> exists a, Accuracy M D = Ok a /\ feqb a (fofZ z) = true.
Proof. unfold accIs. destruct (Accuracy M D); try discriminate. eauto. Qed.
Lemma ex_c120 : exists tr18 tr19 a18 a19 ps bufs,
  NewMultiClass env0 draws0 satD (satO 18) = Ok tr18 /\ NewMultiClass env0 draws0 satD (satO 19) = Ok tr19 /\
  Accuracy (tr_model tr18) satD = Ok a18 /\ feqb a18 (fofZ 100) = true /\
  Accuracy (tr_model tr19) satD = Ok a19 /\ feqb a19 (fofZ 50) = true /\
  PredictMC (tr_model tr19) (vec [1]) [] = Ok (ps, bufs) /\ forall p, In p ps -> fnanb p = true.
Proof.
  destruct (ok_ex (NewMultiClass env0 draws0 satD (satO 18)) (fun tr => accIs (tr_model tr) satD 100)) as (tr18 & H18 & A18); [vm_compute; reflexivity|].
  destruct (ok_ex (NewMultiClass env0 draws0 satD (satO 19)) (fun tr => accIs (tr_model tr) satD 50 && allNaN (tr_model tr) (vec [1]))) as (tr19 & H19 & A19); [vm_compute; reflexivity|].
  apply andb_true_iff in A19 as [A19 N19]. apply accIs_ex in A18 as (a18 & A18 & B18). apply accIs_ex in A19 as (a19 & A19 & B19).
  unfold allNaN in N19. destruct (PredictMC (tr_model tr19) (vec [1]) []) as [[ps bufs]| |] eqn:EP; try discriminate N19.
  exists tr18, tr19, a18, a19, ps, bufs. repeat (split; [assumption || reflexivity|]). apply forallb_forall. exact N19.
Qed.
