(** Concrete cases for cross-validation. *)
From Verif Require Import Base F64 Env Utils Tree Options Train Spec SpecTrain Examples TrainEx CV SpecCV CVProofs.
Open Scope Z_scope.

Definition exCV : DataBunch unit := MkData (mat [[0]; [1]; [2]; [3]; [4]; [5]; [6]]) [tt] [7; 5; 7; 5; 7; 5; 7].
(** every index in turn, each of them twice *)
Definition ints0 (p : nat) : Z := Z.of_nat (p / 2 mod 7).

Lemma ints0_valid : validInts (Z.of_nat (length (Data exCV))) ints0.
Proof. intros p. unfold ints0. simpl length. pose proof (Nat.mod_upper_bound (p / 2) 7 ltac:(lia)). lia. Qed.
Lemma ints0_fair : fairInts (Z.of_nat (length (Data exCV))) ints0.
Proof.
  intros x Hx p. simpl length in Hx. exists (2 * (Z.to_nat x + p * 7))%nat. split; [lia|]. unfold ints0.
  replace (2 * (Z.to_nat x + p * 7))%nat with ((Z.to_nat x + p * 7) * 2)%nat by lia. rewrite Nat.div_mul by lia.
  rewrite Nat.mod_add by lia. rewrite Nat.mod_small by lia. lia.
Qed.

Definition cvsIs (n : nat) (folds : option (list (list Z))) (e : bool) (r : nat * option (sampler unit) * bool) : bool :=
  Nat.eqb (fst (fst r)) n && Bool.eqb (snd r) e &&
  match snd (fst r), folds with
  | Some s, Some f => if list_eq_dec (list_eq_dec Z.eq_dec) (sp_folds s) f then true else false
  | None, None => true
  | _, _ => false
  end.
Lemma cvsIs_ok n folds e r : cvsIs n folds e r = true -> exists so, r = (n, so, e) /\ option_map sp_folds so = folds.
Proof.
  destruct r as [[n' so] e']. unfold cvsIs. cbn [fst snd]. intros H. apply andb_true_iff in H as [H H3]. apply andb_true_iff in H as [H1 H2].
  apply Nat.eqb_eq in H1. apply eqb_prop in H2. subst. exists so. split; [reflexivity|]. destruct so as [s|], folds as [f|]; try discriminate H3; auto.
  simpl. destruct (list_eq_dec _ _ _); [congruence|discriminate H3].
Qed.
Lemma ex_cvs : exists s, CrossValidationSamples 10 ints0 exCV 3 = Ok (3%nat, Some s, false) /\ sp_folds s = [[0; 1]; [2; 3]; [4; 5; 6]].
Proof.
  destruct (ok_ex (CrossValidationSamples 10 ints0 exCV 3) (cvsIs 3 (Some [[0; 1]; [2; 3]; [4; 5; 6]]) false)) as (r & Hr & HB); [vm_compute; reflexivity|].
  apply cvsIs_ok in HB as ([s|] & -> & HF); try discriminate HF. injection HF as HF. eauto.
Qed.
Lemma ex_cvs_lowered : exists s, CrossValidationSamples 10 ints0 exCV 4 = Ok (3%nat, Some s, true).
Proof.
  destruct (ok_ex (CrossValidationSamples 10 ints0 exCV 4) (cvsIs 3 (Some [[0; 1]; [2; 3]; [4; 5; 6]]) true)) as (r & Hr & HB); [vm_compute; reflexivity|].
  apply cvsIs_ok in HB as ([s|] & -> & HF); try discriminate HF. eauto.
Qed.
Lemma ex_cvs_few : CrossValidationSamples 10 ints0 (MkData (mat [[0]; [1]]) [tt] [7; 5]) 4 = Ok (0%nat, None, true).
Proof. reflexivity. Qed.
Lemma ex_c54 : exists r, MultiClassCrossValidation env0 10 ints0 (fun _ => draws0) 0 exCV 3 (Some (mkO true 0 2 2 (fdec 3 10))) true = Ok r /\
  cv_err r = false /\ fltb fzero (cv_acc r) = true /\ fltb (cv_acc r) (fofZ 100) = true.
Proof.
  destruct (ok_ex (MultiClassCrossValidation env0 10 ints0 (fun _ => draws0) 0 exCV 3 (Some (mkO true 0 2 2 (fdec 3 10))) true)
    (fun r => negb (cv_err r) && fltb fzero (cv_acc r) && fltb (cv_acc r) (fofZ 100))) as (r & Hr & HB); [vm_compute; reflexivity|].
  exists r. split; [exact Hr|]. apply andb_true_iff in HB as [HB H3]. apply andb_true_iff in HB as [H1 H2]. apply negb_true_iff in H1. auto.
Qed.
Lemma ex_c54_fail : exists r, MultiClassCrossValidation env0 10 ints0 (fun _ => draws0) 0 (MkData (mat [[0]; [1]]) [tt] [7; 5]) 4 None true = Ok r /\ cv_err r = true.
Proof. eexists. split; [reflexivity|]. reflexivity. Qed.
Definition callsMade (o : nat * option (sampler unit) * bool) : bool :=
  match o with
  | (3%nat, Some s, false) => match callsOf s 5 with Ok [Some _; Some _; Some _; None; None] => true | _ => false end
  | _ => false
  end.
Lemma ex_calls : exists s outs, CrossValidationSamples 10 ints0 exCV 3 = Ok (3%nat, Some s, false) /\ callsOf s 5 = Ok outs /\
  map (fun o => match o with Some _ => true | None => false end) outs = [true; true; true; false; false].
Proof.
  destruct (ok_ex (CrossValidationSamples 10 ints0 exCV 3) callsMade) as ([[n o] e] & Hr & HB); [vm_compute; reflexivity|].
  unfold callsMade in HB. destruct n as [|[|[|[|]]]]; try discriminate HB. destruct o as [s|]; try discriminate HB. destruct e; try discriminate HB.
  destruct (callsOf s 5) as [l| |] eqn:E; try discriminate HB. exists s, l. split; [exact Hr|]. split; [exact E|].
  destruct l as [|[|] [|[|] [|[|] [|[|] [|[|] [|]]]]]]; try discriminate HB. reflexivity.
Qed.
