(** Concrete inputs for C128. *)
From Coq Require Import Reals Permutation.
From Flocq Require Import Core IEEE754.BinarySingleNaN.
From Verif Require Import Base F64 F64Lemmas Env EnvLemmas Utils Tree Spec SpecRow Examples TrainEx RowProofs.
From Coq Require Import List.
Open Scope Z_scope.

Lemma sums_integers zs : fold_right (fun m s => Z.abs m + s) 0 zs < 2 ^ 53 -> sumsExactly (map fofZ zs).
Proof. intros H. exists 0, zs. split; [lia|]. split; [reflexivity|exact H]. Qed.
(** the gradients of two equally likely classes *)
Lemma sums_halves l : (forall x, In x l -> x = fhalf \/ x = fopp fhalf) -> Z.of_nat (length l) < 2 ^ 53 -> sumsExactly l.
Proof.
  intros H HL. assert (HO : fopp fhalf = flit (-1) (-1)).
  { apply B2R_Bsign_inj64; [vm_compute; reflexivity|vm_compute; reflexivity| |vm_compute; reflexivity].
    unfold fopp. rewrite B2R_Bopp. destruct (flit_val (-1) ltac:(lia) 1 ltac:(reflexivity)) as (_ & R1 & _). destruct (flit_val (-1) ltac:(lia) (-1) ltac:(reflexivity)) as (_ & R2 & _). unfold fhalf. rewrite R1, R2. ring. }
  assert (HM : exists ms, l = map (fun m => flit m (-1)) ms /\ fold_right (fun m s => Z.abs m + s) 0 ms = Z.of_nat (length l)).
  { clear HL. induction l as [|x l IH]; [exists []; split; reflexivity|]. destruct IH as (ms & -> & HB); [intros; apply H; right; auto|].
    assert (HX : exists m, x = flit m (-1) /\ Z.abs m = 1) by (destruct (H x (or_introl eq_refl)) as [->| ->]; [exists 1; split; reflexivity|exists (-1); rewrite HO; split; reflexivity]).
    destruct HX as (m & -> & Hm). exists (m :: ms). split; [reflexivity|]. cbn [fold_right length]. rewrite HB, Hm, map_length. cbn [length map]. lia. }
  destruct HM as (ms & E & HB). exists (-1), ms. split; [lia|]. split; [exact E|]. rewrite HB. exact HL.
Qed.

(** the same four rows in two orders *)
Definition rowX : list (list f64) := mat [[0; 5]; [1; 5]; [2; 4]; [3; 4]].
Definition rowX' : list (list f64) := mat [[3; 4]; [1; 5]; [0; 5]; [2; 4]].
Definition regO (y : list Z) : TreeOptions := MkTO false fone [] fzero fzero None None (map fofZ y) None None 3 None.
Lemma row_tables : (forall row, In row rowX \/ In row rowX' -> length row = 2%nat) /\
  (forall i f v, cell rowX i f v -> fnanb v = false) /\ (forall i f v, cell rowX' i f v -> fnanb v = false).
Proof.
  assert (G : forall M, forallb (fun row => forallb (fun v => negb (fnanb v)) row) M = true -> forall i f v, cell M i f v -> fnanb v = false).
  { intros M H i f v (row & [_ H1] & [_ H2]). apply nth_error_In in H1, H2. rewrite forallb_forall in H. specialize (H _ H1). rewrite forallb_forall in H. specialize (H _ H2). destruct (fnanb v); [discriminate|reflexivity]. }
  split; [|split; apply G; vm_compute; reflexivity].
  intros row [H|H]; repeat (destruct H as [<-|H]; [reflexivity|]); destruct H.
Qed.
Lemma perm4 {A} (a b c d : A) : Permutation [a; b; c; d] [d; b; a; c].
Proof. apply Permutation_sym. apply (Permutation_cons_app [a; b; c] []). cbn [app]. apply perm_swap. Qed.
Definition isTree (t : tree) : bool := Nat.leb 2 (length (leaves t)).
Lemma ex_c128 : EnvOk env0 /\ sameSamples rowX (regO [0; 1; 7; 9]) rowX' (regO [9; 1; 0; 7]) /\ (forall l, summed rowX (regO [0; 1; 7; 9]) l -> sumsExactly l) /\
  exists t t', NewTree env0 rowX (regO [0; 1; 7; 9]) = Ok t /\ NewTree env0 rowX' (regO [9; 1; 0; 7]) = Ok t' /\ (2 <= length (leaves t))%nat.
Proof.
  split; [exact env0_ok|]. split; [|split].
  - unfold sameSamples. do 6 (split; [reflexivity|]). exact (perm4 _ _ _ _).
  - intros l H. unfold summed in H. cbn [regO to_xgb to_y] in H. replace l with (map fofZ [0; 1; 7; 9]); [apply sums_integers; reflexivity|].
    eapply TreeSplit.looks_fun; [|exact H]. repeat (apply Forall2_cons; [split; [lia|reflexivity]|]). apply Forall2_nil.
  - destruct (ok_ex (NewTree env0 rowX (regO [0; 1; 7; 9])) isTree) as (t & Ht & HB); [vm_compute; reflexivity|].
    destruct (ok_ex (NewTree env0 rowX' (regO [9; 1; 0; 7])) isTree) as (t' & Ht' & _); [vm_compute; reflexivity|].
    exists t, t'. split; [exact Ht|]. split; [exact Ht'|]. apply Nat.leb_le. exact HB.
Qed.
(** sums that need rounding: the order decides *)
Definition sameX : list (list f64) := mat [[0]; [0]; [0]].
Lemma perm3 {A} (a b c : A) : Permutation [a; b; c] [a; c; b].
Proof. apply perm_skip, perm_swap. Qed.
Lemma ref_c128 : exists X o o' t t' row v v', sameSamples X o X o' /\ NewTree env0 X o = Ok t /\ NewTree env0 X o' = Ok t' /\
  PredictSingle t row = Ok v /\ PredictSingle t' row = Ok v' /\ feqb v v' = false.
Proof.
  set (o := regO [2 ^ 53; 1; - 2 ^ 53]). set (o' := regO [2 ^ 53; - 2 ^ 53; 1]).
  destruct (ok_ex (t <- NewTree env0 sameX o ;; t' <- NewTree env0 sameX o' ;; v <- PredictSingle t [fzero] ;; v' <- PredictSingle t' [fzero] ;; Ok (negb (feqb v v'))) (fun b => b)) as (b & H & HB); [vm_compute; reflexivity|].
  apply bind_Ok in H as (t & Ht & H). apply bind_Ok in H as (t' & Ht' & H). apply bind_Ok in H as (v & Hv & H). apply bind_Ok in H as (v' & Hv' & H). injection H as <-.
  exists sameX, o, o', t, t', [fzero], v, v'. split; [|repeat split; auto; destruct (feqb v v'); [discriminate|reflexivity]].
  unfold sameSamples. do 6 (split; [reflexivity|]). exact (perm3 _ _ _).
Qed.
