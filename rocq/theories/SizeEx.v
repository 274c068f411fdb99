(** Concrete inputs for C123. *)
From Coq Require Import String.
From Verif Require Import Base F64 F64Lemmas Env EnvLemmas Utils Tree Spec Options Train SpecTrain SpecTot SpecOpt SpecSize Examples TreeThms TreeShort TrainTot TrainEx TrainTotEx InvEx.
From Coq Require Import List.
Open Scope Z_scope.

Lemma exX_good : goodTable exX.
Proof.
  apply goodTable_short; [discriminate| |].
  - intros r1 r2 [<-|[<-|[<-|[<-|[]]]]] [<-|[<-|[<-|[<-|[]]]]]; reflexivity.
  - apply (mat_short [[0; 0]; [0; 1]; [1; 0]; [1; 1]]). intros row z [<-|[<-|[<-|[<-|[]]]]] [<-|[<-|[]]]; vm_compute; reflexivity.
Qed.
(** the bound is reached *)
Lemma ex_c123 : goodTable exX /\ exists t, NewTree env0 exX exO = Ok t /\ leastSamples (to_mcw exO) = 1 /\
  nodes t = mostNodes (Z.of_nat (length (initialSamples exX exO))) 1.
Proof.
  split; [exact exX_good|]. destruct (ok_ex (NewTree env0 exX exO) (fun t => nodes t =? 7)) as (t & Ht & HB); [vm_compute; reflexivity|].
  exists t. split; [exact Ht|]. split; [vm_compute; reflexivity|]. apply Z.eqb_eq in HB. rewrite HB. reflexivity.
Qed.
Lemma ex_c123_model : goodTable (Data exD) /\ exists tr, NewMultiClass env0 draws0 exD (mkO true 0 3 2 (fdec 3 10)) = Ok tr /\
  length (concat (mc_b (tr_model tr))) = 9%nat /\ 9 < allNodes (concat (mc_b (tr_model tr))).
Proof.
  split; [exact exD_good|].
  destruct (ok_ex (NewMultiClass env0 draws0 exD (mkO true 0 3 2 (fdec 3 10)))
    (fun tr => Nat.eqb (length (concat (mc_b (tr_model tr)))) 9 && (9 <? allNodes (concat (mc_b (tr_model tr)))))) as (tr & Ht & HB); [vm_compute; reflexivity|].
  apply andb_prop in HB as [H1 H2]. exists tr. split; [exact Ht|]. split; [apply Nat.eqb_eq; exact H1|apply Z.ltb_lt; exact H2].
Qed.

(** two neighbouring numbers whose midpoint rounds to the larger one: MinChildWeight 2 and a node with one sample *)
Definition ulp1 : f64 := fdiv fone (fofZ (2 ^ 52)).
Definition nearA : f64 := fadd fone ulp1.
Definition nearB : f64 := fadd nearA ulp1.
Definition nearX : list (list f64) := [[nearA]; [nearA]; [nearB]; [fofZ 3]].
Definition nearO : TreeOptions := MkTO false (fofZ 2) [] fzero fzero None None (vec [0; 0; 5; 5]) None None 1 None.
Lemma ref_c123 : exists t d, NewTree env0 nearX nearO = Ok t /\ (forall row v, In row nearX -> In v row -> ffinite v = true) /\
  subAt (Node d Nil Nil) 1 t /\ t_nsamples d = 1 /\ leastSamples (to_mcw nearO) = 2.
Proof.
  destruct (ok_ex (NewTree env0 nearX nearO) (fun t => match t with Node _ _ (Node d Nil Nil) => t_nsamples d =? 1 | _ => false end)) as (t & Ht & HB); [vm_compute; reflexivity|].
  destruct t as [|d0 l [|d [|] [|]]]; try discriminate HB. exists (Node d0 l (Node d Nil Nil)), d. split; [exact Ht|].
  split; [apply fin_cells; vm_compute; reflexivity|]. split; [apply subAt_r, subAt_0|]. split; [apply Z.eqb_eq; exact HB|vm_compute; reflexivity].
Qed.
