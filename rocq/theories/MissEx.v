(** Witnesses for tables with missing values. *)
From Coq Require Import String.
From Verif Require Import Base F64 F64Lemmas Env EnvLemmas Utils Tree Options Train Spec Examples TrainEx TreeProofs TreeThms.
From Coq Require Import List.
Open Scope Z_scope.
Definition missX : list (list f64) := [[fZ 0]; [fZ 1]; [fnan]; [fZ 3]].
Definition missD : DataBunch unit := MkData missX [] [0; 0; 1; 1].
Definition fullD : DataBunch unit := MkData (mat [[0]; [1]; [2]; [3]]) [] [0; 0; 1; 1].
Definition panics {A} (r : res A) := match r with Panic => true | _ => false end.
Definition runs {A} (r : res A) := match r with Ok _ => true | _ => false end.
Definition missG : DataBunch unit := MkData [[fZ 0]; [fZ 1]; [fZ 2]; [fnan]; [fZ 4]; [fZ 5]] [] [0; 0; 0; 1; 1; 1].
Definition fullG : DataBunch unit := MkData (mat [[0]; [1]; [2]; [3]; [4]; [5]]) [] [0; 0; 0; 1; 1; 1].
Definition chkM : Options := MkOpts true 3 2 0 (fdec 3 10) fone fone fzero fhalf fhalf fhalf 1 "exact" false (SQErrLoss 0).
Lemma miss_training : NewMultiClass env0 draws0 missG (DefaultGOptions 0) = Panic /\ (exists tr, NewMultiClass env0 draws0 fullG (DefaultGOptions 0) = Ok tr) /\
  Check chkM = true /\ NewMultiClass env0 draws0 missD chkM = Panic /\ (exists tr, NewMultiClass env0 draws0 fullD chkM = Ok tr).
Proof.
  assert (P : forall A (r : res A), panics r = true -> r = Panic) by (intros A [| |] H; try discriminate H; reflexivity).
  assert (R : forall A (r : res A), runs r = true -> exists t, r = Ok t) by (intros A [| |] H; try discriminate H; eauto).
  split; [apply P; vm_compute; reflexivity|]. split; [apply R; vm_compute; reflexivity|]. split; [vm_compute; reflexivity|].
  split; [apply P; vm_compute; reflexivity|apply R; vm_compute; reflexivity].
Qed.
Definition missO (n : Z) : TreeOptions := MkTO false fone [] fzero fzero None None (vec [0; 1]) None None n None.
Definition noneX : list (list f64) := [[fnan]; [fnan]].
Lemma miss_tree : exists t d l r, NewTree env0 noneX (missO 1) = Ok t /\ subAt (Node d l r) 0 t /\ t_leaf d = false /\ fnanb (t_thr d) = true /\
  (forall i f v, cell noneX i f v -> fnanb v = true) /\ (forall row0, look noneX 0 row0 -> row0 <> []) /\
  (exists f j sc thr, scannedAt (missO 2) 1 0 f /\ candidate env0 noneX (missO 2) (initialSamples noneX (missO 2)) f j sc thr /\ betterScore false sc (startScore false) = true).
Proof.
  destruct (ok_ex (NewTree env0 noneX (missO 1)) (fun t => match t with Node d _ _ => negb (t_leaf d) && fnanb (t_thr d) | Nil => false end)) as (t & Ht & H);
    [vm_compute; reflexivity|]. destruct t as [|d l r]; [discriminate H|]. apply andb_true_iff in H as [H1 H2]. apply negb_true_iff in H1.
  exists (Node d l r), d, l, r. split; [exact Ht|]. split; [apply subAt_0|]. split; [exact H1|]. split; [exact H2|].
  split. { intros i f v (row & [_ Hr] & [_ Hv]). destruct (Z.to_nat i) as [|[|[|]]]; cbn [noneX nth_error] in Hr; try discriminate Hr; apply (f_equal (fun x => match x with Some y => y | None => [] end)) in Hr; cbn in Hr; subst row;
    destruct (Z.to_nat f) as [|[|]]; cbn [nth_error] in Hv; try discriminate Hv; apply (f_equal (fun x => match x with Some y => fnanb y | None => true end)) in Hv; cbn in Hv; symmetry; exact Hv. }
  split. { intros row0 [_ Hr]. cbn [noneX nth_error Z.to_nat] in Hr. apply (f_equal (fun x => match x with Some y => y | None => [fnan] end)) in Hr. cbn in Hr. subst row0. discriminate. }
  destruct (c07_lemma env0 noneX (missO 1) (Node d l r) d l r 0 env0_ok Ht (subAt_0 _)) as (row0 & [_ Hr] & Hc & _).
  destruct (Hc H1) as (j & Hs & Hcand & Hbet & _). assert (Hd : samplesOf d = initialSamples noneX (missO 1)).
  { apply NewTree_grown in Ht. inversion Ht; reflexivity. }
  rewrite Hd in Hcand. exists (t_split d), j, (t_best d), (t_thr d). split; [|split; [exact Hcand|exact Hbet]].
  cbn [noneX nth_error Z.to_nat] in Hr. apply (f_equal (fun x => match x with Some y => length y | None => 0%nat end)) in Hr. cbn in Hr. rewrite <- Hr in Hs. exact Hs.
Qed.
Lemma cell_col (l : list f64) i f v : cell (map (fun x => [x]) l) i f v -> 0 <= i /\ f = 0 /\ nth_error l (Z.to_nat i) = Some v.
Proof.
  intros (row & [Hi Hr] & [Hf Hv]). rewrite nth_error_map in Hr. destruct (nth_error l (Z.to_nat i)) as [x|]; [|discriminate Hr].
  cbn [option_map] in Hr. apply (f_equal (fun y => match y with Some z => z | None => [] end)) in Hr. subst row.
  destruct (Z.to_nat f) as [|[|n]] eqn:Ef; cbn [nth_error] in Hv; try discriminate Hv. split; [exact Hi|]. split; [lia|exact Hv].
Qed.
Lemma col_cell (l : list f64) i v : 0 <= i -> nth_error l (Z.to_nat i) = Some v -> cell (map (fun x => [x]) l) i 0 v.
Proof. intros Hi H. exists [v]. split; [split; [exact Hi|rewrite nth_error_map, H; reflexivity]|split; [lia|reflexivity]]. Qed.
Lemma one_missing : exists (D D' A A' : DataBunch unit) O,
  length (Data D) = 6%nat /\ (forall i f v, cell (Data D) i f v -> ffinite v = true \/ i = 3 /\ f = 0) /\
  length (Data A) = 4%nat /\ (forall i f v, cell (Data A) i f v -> ffinite v = true \/ i = 2 /\ f = 0) /\
  (forall i f v, cell (Data D') i f v -> ffinite v = true /\ (i <> 3 -> cell (Data D) i f v)) /\
  (forall i f v, cell (Data A') i f v -> ffinite v = true /\ (i <> 2 -> cell (Data A) i f v)) /\
  Labels D' = Labels D /\ Labels A' = Labels A /\
  NewMultiClass env0 draws0 D (DefaultGOptions 0) = Panic /\ (exists tr, NewMultiClass env0 draws0 D' (DefaultGOptions 0) = Ok tr) /\
  Check O = true /\ NewMultiClass env0 draws0 A O = Panic /\ (exists tr, NewMultiClass env0 draws0 A' O = Ok tr).
Proof.
  exists missG, fullG, missD, fullD, chkM. split; [reflexivity|].
  assert (F : forall (o : option f64) v, o = Some v -> match o with Some x => ffinite x | None => true end = true -> ffinite v = true).
  { intros o v -> H. exact H. }
  split. { intros i f v H. apply (cell_col (vec [0; 1; 2] ++ [fnan] ++ vec [4; 5])) in H as (Hi & -> & H).
    destruct (Z.to_nat i) as [|[|[|[|[|[|[|n]]]]]]] eqn:Ei; try (left; refine (F _ _ H _); reflexivity). right. lia. }
  split; [reflexivity|].
  split. { intros i f v H. apply (cell_col (vec [0; 1] ++ [fnan] ++ vec [3])) in H as (Hi & -> & H).
    destruct (Z.to_nat i) as [|[|[|[|[|n]]]]] eqn:Ei; try (left; refine (F _ _ H _); reflexivity). right. lia. }
  split. { intros i f v H. apply (cell_col (vec [0; 1; 2; 3; 4; 5])) in H as (Hi & -> & H). split.
    - destruct (Z.to_nat i) as [|[|[|[|[|[|[|n]]]]]]] eqn:Ei; refine (F _ _ H _); reflexivity.
    - intros Hn. apply (col_cell (vec [0; 1; 2] ++ [fnan] ++ vec [4; 5])); [exact Hi|].
      destruct (Z.to_nat i) as [|[|[|[|[|[|[|n]]]]]]] eqn:Ei; try exact H. lia. }
  split. { intros i f v H. apply (cell_col (vec [0; 1; 2; 3])) in H as (Hi & -> & H). split.
    - destruct (Z.to_nat i) as [|[|[|[|[|n]]]]] eqn:Ei; refine (F _ _ H _); reflexivity.
    - intros Hn. apply (col_cell (vec [0; 1] ++ [fnan] ++ vec [3])); [exact Hi|].
      destruct (Z.to_nat i) as [|[|[|[|[|n]]]]] eqn:Ei; try exact H. lia. }
  split; [reflexivity|]. split; [reflexivity|]. exact miss_training.
Qed.
