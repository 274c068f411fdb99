(** Concrete cases for the sharing of rows. *)
From Verif Require Import Base F64 Env Utils Tree Options Train Spec SpecTrain Examples TrainEx CV SpecCV CVProofs CVEx CVShare SpecCVShare CVShareProofs.
Open Scope Z_scope.

(** the data of [exCV] in memory *)
Definition exRows : rowHeap := Data exCV.
Definition exShare : hdata unit := MkHD [0; 1; 2; 3; 4; 5; 6]%nat [tt] (Labels exCV).
Definition exFolds : list (list Z) := [[0; 1]; [2; 3]; [4; 5; 6]].
Lemma ex_share_values : valuesOf exRows exShare = exCV. Proof. reflexivity. Qed.
Lemma ex_rowsIn : rowsIn exRows exShare.
Proof. intros p Hp. simpl in *. lia. Qed.
Lemma ex_sampler (usecopies : option bool) : exists s, CrossValidationSamplesH 10 ints0 exRows exShare 3 usecopies = Ok (3%nat, Some s, false) /\
  s = MkSH exShare exFolds 3 0 (match usecopies with Some b => b | None => false end).
Proof.
  set (D := MkData (map (fun _ => []) (hd_rows exShare)) (hd_keys exShare) (hd_labels exShare)).
  destruct (ok_ex (CrossValidationSamples 10 ints0 D 3) (cvsIs 3 (Some exFolds) false)) as (r & Hr & HB); [vm_compute; reflexivity|].
  apply cvsIs_ok in HB as ([s|] & -> & HF); try discriminate HF. injection HF as HF.
  assert (HV : validInts (Z.of_nat (length (Data D))) ints0) by exact ints0_valid.
  apply (CVS_inv D) in Hr as HI; [|exact HV]. destruct HI as (_ & [(_ & _ & HX & _)|(_ & _ & _ & s1 & E & E1 & E2 & E3 & _)]); [discriminate HX|]. injection E as <-.
  unfold CrossValidationSamplesH. fold D. rewrite Hr. cbn [bind fst snd option_map]. rewrite HF, E2, E3. eauto.
Qed.
Lemma ex_reach (usecopies : option bool) : reachH exShare (match usecopies with Some b => b | None => false end) 3 exFolds 0 exRows
  (MkSH exShare exFolds 3 0 (match usecopies with Some b => b | None => false end)).
Proof.
  destruct (ex_sampler usecopies) as (s & Hs & E). rewrite <- E. eapply rh_start; [exact ex_rowsIn|exact ints0_valid|reflexivity|exact Hs|reflexivity|]. rewrite E. reflexivity.
Qed.
(** the caller overwrites the first test row; the second training set has the new values *)
Definition row99 : list f64 := [fofZ 99].
Lemma ex_overwrite : exists s1 s2 train1 test1 train2 test2, callSamplerH exRows (MkSH exShare exFolds 3 0 false) = Ok (exRows, Some (train1, test1), s1) /\
  hd_rows test1 = [0; 1]%nat /\ callSamplerH (upd_nat exRows 0 row99) s1 = Ok (upd_nat exRows 0 row99, Some (train2, test2), s2) /\
  Data (valuesOf (upd_nat exRows 0 row99) train2) = [row99; [fofZ 1]; [fofZ 4]; [fofZ 5]; [fofZ 6]] /\
  Data (valuesOf (upd_nat exRows 0 row99) exShare) = row99 :: tl (Data exCV).
Proof. do 6 eexists. repeat (split; [reflexivity|]). reflexivity. Qed.
Lemma ex_written : exists s1 s2 train1 test1 train2 test2, reachH exShare false 3 exFolds 0 exRows (MkSH exShare exFolds 3 0 false) /\
  callSamplerH exRows (MkSH exShare exFolds 3 0 false) = Ok (exRows, Some (train1, test1), s1) /\
  writtenAt (hd_rows test1) exRows (upd_nat exRows 0 row99) /\
  callSamplerH (upd_nat exRows 0 row99) s1 = Ok (upd_nat exRows 0 row99, Some (train2, test2), s2) /\
  ~ In row99 (Data exCV) /\ In row99 (Data (valuesOf (upd_nat exRows 0 row99) train2)) /\ In row99 (Data (valuesOf (upd_nat exRows 0 row99) exShare)).
Proof.
  destruct ex_overwrite as (s1 & s2 & train1 & test1 & train2 & test2 & H1 & H2 & H3 & H4 & H5). exists s1, s2, train1, test1, train2, test2.
  split; [exact (ex_reach None)|]. split; [exact H1|]. split; [|split; [exact H3|]].
  - rewrite H2. intros [|p] Hp HN; [exfalso; apply HN; left; reflexivity|]. destruct p; reflexivity.
  - split; [|split; [rewrite H4|rewrite H5]; left; reflexivity].
    intros HX. assert (E : existsb (fun r => feqb (nth 0 r fzero) (fofZ 99)) (Data exCV) = true); [|vm_compute in E; discriminate E].
    apply existsb_exists. exists row99. split; [exact HX|vm_compute; reflexivity].
Qed.
(** copies asked for *)
Lemma ex_copies : exists h' train test s', callSamplerH exRows (MkSH exShare exFolds 3 0 true) = Ok (h', Some (train, test), s') /\
  hd_rows test = [7; 8]%nat /\ hd_rows train = [9; 10; 11; 12; 13]%nat /\ Data (valuesOf h' test) = [[fofZ 0]; [fofZ 1]].
Proof. do 4 eexists. repeat (split; [reflexivity|]). reflexivity. Qed.
