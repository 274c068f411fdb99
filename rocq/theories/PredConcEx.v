(** A concrete case for C155 (multiclass.go:34-108): a trained model of three classes; two goroutines ask for the accuracy on the rows of
    ConfuEx.v with three classes, a third one for the class of a row. *)
From Verif Require Import Base F64 Env EnvLemmas Utils Tree Options Train Spec SpecTrain Examples TrainEx Confu ConfuEx PredConc SpecPredConc PredConcProofs.
From Coq Require Import List Lia.
Open Scope Z_scope.

Definition exJobs : list (job unit) := [JAcc exT (Some 3); JAcc exD (Some 3); JClass (map fofZ [1]) []].
Lemma ex_jobs : exists tr a1 a2, NewMultiClass env0 draws0 exD (mkO true 0 3 2 (fdec 3 10)) = Ok tr /\
  map (alone (tr_model tr)) exJobs = [Ok (RAcc a1); Ok (RAcc a2); Ok (RClass 1)] /\ feqb a1 a2 = false /\
  exists s, psteps (tr_model tr) 2 (pinit [] exJobs) (Some s) /\ racing (tr_model tr) s /\
  exists n s', psteps (tr_model tr) n s (Some s') /\ ps_threads s' = [TEnd (RAcc a1); TEnd (RAcc a2); TEnd (RClass 1)].
Proof.
  destruct (ok_ex (NewMultiClass env0 draws0 exD (mkO true 0 3 2 (fdec 3 10)))
    (fun tr => match map (alone (tr_model tr)) exJobs with [Ok (RAcc a1); Ok (RAcc a2); Ok (RClass c)] => (c =? 1) && negb (feqb a1 a2) | _ => false end)) as (tr & H & HP); [vm_compute; reflexivity|].
  remember (tr_model tr) as M eqn:EM. cbn [map exJobs] in *.
  destruct (alone M (JAcc exT (Some 3))) as [[|?|a1]| |] eqn:E1; try discriminate HP. destruct (alone M (JAcc exD (Some 3))) as [[|?|a2]| |] eqn:E2; try discriminate HP.
  destruct (alone M (@JClass unit [fofZ 1] [])) as [[|c|]| |] eqn:E3; try discriminate HP. apply andb_prop in HP as [HP1 HP2]. apply Z.eqb_eq in HP1 as ->. apply Bool.negb_true_iff in HP2.
  exists tr, a1, a2. split; [exact H|]. rewrite <- EM. cbn [map exJobs]. rewrite E1, E2, E3. split; [reflexivity|]. split; [exact HP2|].
  assert (HR : exists s, psteps M 2 (pinit [] exJobs) (Some s) /\ racing M s).
  { eexists. split.
    - eapply pss_more; [eapply pss_more; [apply pss_refl|]|].
      + apply (pst_go M _ 0 (TStart (JAcc exT (Some 3))) None (TMake 3 exT)); [reflexivity|]. apply (ts_check M exT 3 []); cbn; lia.
      + apply (pst_go M _ 1 (TStart (JAcc exD (Some 3))) None (TMake 3 exD)); [reflexivity|]. apply (ts_check M exD 3 []); cbn; lia.
    - exists O, 1%nat. do 6 eexists. split; [discriminate|]. split; [reflexivity|]. split; [reflexivity|]. split; apply ts_make. }
  destruct HR as (s & HS & HR). exists s. split; [exact HS|]. split; [exact HR|].
  destruct (completes M 2 [] exJobs s) as (n & s' & HS' & HF); [|exact HS|].
  { intros j [<-|[<-|[<-|[]]]]; eauto. }
  exists n, s'. split; [exact HS'|]. unfold exJobs in HF. inversion HF as [|? ? ? ? (x1 & -> & X1) HF2]; subst. inversion HF2 as [|? ? ? ? (x2 & -> & X2) HF3]; subst. inversion HF3 as [|? ? ? ? (x3 & -> & X3) HF4]; subst. inversion HF4; subst.
  assert (E3' : Ok (RClass 1) = Ok x3) by (rewrite <- X3, <- E3; reflexivity). congruence.
Qed.
