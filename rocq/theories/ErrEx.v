(** Examples and witnesses for the error bounds (C113-C115). *)
From Coq Require Import Reals Lra.
From Verif Require Import Base F64 F64Lemmas Env EnvLemmas Utils Tree Spec Options Train Examples TrainEx RealProofs NumErr SpecErr ErrProofs.
Open Scope R_scope.

Definition tenth : f64 := flit 3602879701896397 (-55).
Definition tiny1 : f64 := flit 1 (-600).
Lemma B2R_SF (x : f64) : B2R x = SF2R radix2 (B2SF x).
Proof. symmetry. apply SF2R_B2SF. Qed.
Lemma tiny_nz : B2R tiny1 <> 0.
Proof. rewrite B2R_SF. replace (B2SF tiny1) with (SpecFloat.S754_finite false 4503599627370496 (-652)) by (vm_compute; reflexivity). simpl SF2R. apply Rgt_not_eq. apply F2R_gt_0. reflexivity. Qed.
Lemma ref_c113 : exists y p, length y = length p /\ allFinite y /\ allFinite p /\ exact y <> exact p /\ B2R (l_loss (MSELoss 0%Z) y p) = 0.
Proof.
  exists [tiny1], [fzero]. split; [reflexivity|]. split; [intros x [<-|[]]; vm_compute; reflexivity|]. split; [intros x [<-|[]]; reflexivity|].
  split. { intros H. unfold exact in H. simpl map in H. injection H as H. apply tiny_nz. exact H. }
  rewrite B2R_SF. replace (B2SF (l_loss (MSELoss 0%Z) [tiny1] [fzero])) with (SpecFloat.S754_zero false) by (vm_compute; reflexivity). reflexivity.
Qed.
Lemma ex_c113 : ffinite (l_loss (MSELoss 0%Z) (vec [1; 2]%Z) (vec [3; 5]%Z)) = true /\ fits 2 /\ meanSquare (exact (vec [1; 2]%Z)) (exact (vec [3; 5]%Z)) = 13 / 2.
Proof.
  split; [vm_compute; reflexivity|]. split; [unfold fits; simpl; lia|]. 
  assert (HZ : forall l, Forall (fun z => 0 <= z < 2 ^ 53)%Z l -> exact (vec l) = map IZR l).
  { induction 1 as [|z l Hz Hl IH]; [reflexivity|]. unfold exact, vec in *. cbn [map]. rewrite IH. destruct (fofZ_exact50 z Hz) as [_ Ez]. unfold fZ. rewrite Ez. reflexivity. }
  rewrite !HZ by (repeat constructor; lia). unfold meanSquare.
  simpl. lra.
Qed.
Definition tenO : TreeOptions := MkTO false fone [] fzero fzero None None (repeat tenth 3) None None 4%Z None.
Lemma ref_c114 : exists X o t d ix, NewTree env0 X o = Ok t /\ to_xgb o = false /\ sub (Node d Nil Nil) t /\ t_samples d = Some ix /\
  (forall i, In i ix -> look (to_y o) i tenth) /\ feqb (t_value d) tenth = false.
Proof.
  destruct (ok_ex (NewTree env0 (mat [[1]; [1]; [1]]%Z) tenO)
    (fun t => match t with Node d Nil Nil => (if list_eq_dec Z.eq_dec (orNil (t_samples d)) [0; 1; 2]%Z then true else false) && negb (feqb (t_value d) tenth) && negb (isNone (t_samples d)) | _ => false end))
    as (t & Ht & HB); [vm_compute; reflexivity|].
  destruct t as [|d [|? ? ?] [|? ? ?]]; try discriminate HB. apply andb_true_iff in HB as [HB H3]. apply andb_true_iff in HB as [H1 H2].
  exists (mat [[1]; [1]; [1]]%Z), tenO, (Node d Nil Nil), d, [0; 1; 2]%Z. split; [exact Ht|]. split; [reflexivity|]. split; [constructor|].
  split. { destruct (t_samples d) as [l|]; [|discriminate H3]. simpl in H1. destruct (list_eq_dec Z.eq_dec l [0; 1; 2]%Z) as [->|]; [reflexivity|discriminate H1]. }
  split. { intros i [<-|[<-|[<-|[]]]]; split; try lia; reflexivity. }
  apply negb_true_iff in H2. exact H2.
Qed.
Lemma ex_node o : match NewTree env0 exX o with Ok (Node d _ _) => (t_nsamples d <=? 2 ^ 50)%Z && ffinite (t_value d) | _ => false end = true ->
  exists t d l r, NewTree env0 exX o = Ok t /\ sub (Node d l r) t /\ (t_nsamples d <= 2 ^ 50)%Z /\ ffinite (t_value d) = true.
Proof.
  intros H. destruct (NewTree env0 exX o) as [[|d l r]| |] eqn:E; try discriminate. apply andb_true_iff in H as [H1 H2]. apply Z.leb_le in H1.
  exists (Node d l r), d, l, r. repeat split; auto. constructor.
Qed.
Lemma ex_c114 : (exists t d l r, NewTree env0 exX exOg = Ok t /\ sub (Node d l r) t /\ (t_nsamples d <= 2 ^ 50)%Z /\ ffinite (t_value d) = true) /\
  (exists t d l r, NewTree env0 exX exO = Ok t /\ sub (Node d l r) t /\ (t_nsamples d <= 2 ^ 50)%Z /\ ffinite (t_value d) = true) /\
  forallb (fun x => fleb fzero x && fleb x fone) (orNil (to_hess exO)) = true /\ ffinite (to_lambda exO) = true /\ to_lambda exO = fzero.
Proof.
  split; [apply ex_node; vm_compute; reflexivity|]. split; [apply ex_node; vm_compute; reflexivity|]. split; [vm_compute; reflexivity|]. split; reflexivity.
Qed.
Lemma ref_c115 : exists p q out, Normalization p q = Ok out /\ (forall x, In x p -> fleb fzero x = true) /\ rsum (exact out) <> 1.
Proof.
  exists (repeat fone 3), (repeat fzero 3). eexists. split; [reflexivity|]. split; [intros x [<-|[<-|[<-|[]]]]; reflexivity|].
  assert (H : forall x : f64, B2SF x = SpecFloat.S754_finite false 6004799503160661 (-54) -> B2R x = 6004799503160661 / 18014398509481984).
  { intros x Hx. rewrite B2R_SF, Hx. simpl. unfold F2R; simpl. lra. }
  unfold normalization. cbn [app map exact rsum repeat skipn length].
  rewrite !(H (ndiv F fone (fold_left (nadd F) [fone; fone; fone] (nofZ F 0)))) by (vm_compute; reflexivity). lra.
Qed.
Lemma ex_c115 : exists tr preds, NewMultiClass env0 draws0 exD (mkO true 0 3 2 (fdec 3 10))%Z = Ok tr /\
  PredictMC (tr_model tr) (vec [1]%Z) [] = Ok (preds, []) /\ fits (length preds) /\ forallb (fun x => negb (fnanb x)) preds = true /\ existsb (fltb fzero) preds = true.
Proof.
  destruct (ok_ex (NewMultiClass env0 draws0 exD (mkO true 0 3 2 (fdec 3 10))%Z)
    (fun tr => match PredictMC (tr_model tr) (vec [1]%Z) [] with Ok (preds, []) => (Nat.leb (length preds) 3) && forallb (fun x => negb (fnanb x)) preds && existsb (fltb fzero) preds | _ => false end))
    as (tr & Htr & HB); [vm_compute; reflexivity|].
  exists tr. destruct (PredictMC (tr_model tr) (vec [1]%Z) []) as [[preds [|? ?]]| |]; try discriminate HB. exists preds.
  apply andb_true_iff in HB as [HB H3]. apply andb_true_iff in HB as [H1 H2]. apply Nat.leb_le in H1. split; [exact Htr|]. split; [reflexivity|]. split; [unfold fits; lia|]. auto.
Qed.
