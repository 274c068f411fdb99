(** Examples of confusion matrices: the model of TrainEx on rows labelled 7, 7, 6. *)
From Coq Require Import Ascii String.
From Verif Require Import Base F64 Env EnvLemmas Utils Tree Options Train Spec SpecTrain Examples TrainEx Text Confu SpecConfu ConfuProofs ConfuMore.
From Coq Require Import List.
Open Scope Z_scope.

Definition exT : DataBunch unit := MkData (mat [[0]; [1]; [2]]) [] [7; 7; 6].
Definition exC : Confusions := MkCf [7; 7; 6] [7; 5; 6] [7; 5; 6] None None None [(6, 2); (5, 1); (7, 0)].
Definition zl_eqb (a b : list Z) : bool := if list_eq_dec Z.eq_dec a b then true else false.
Lemma zl_eq a b : zl_eqb a b = true -> a = b.
Proof. unfold zl_eqb. destruct (list_eq_dec Z.eq_dec a b); [auto|discriminate]. Qed.
Definition isExC (C : Confusions) : bool :=
  zl_eqb (cf_actual C) [7; 7; 6] && zl_eqb (cf_predicted C) [7; 5; 6] && zl_eqb (cf_labels C) [7; 5; 6] &&
  match cf_matrix C, cf_tmpvals C, cf_tmpindx C with None, None, None => true | _, _, _ => false end &&
  zl_eqb (map fst (cf_m C)) [6; 5; 7] && zl_eqb (map snd (cf_m C)) [2; 1; 0].
Lemma isExC_eq C : isExC C = true -> C = exC.
Proof.
  unfold isExC. intros H. repeat (apply andb_true_iff in H as [H ?]). destruct C as [a p l mx tv ti m]. cbn [cf_actual cf_predicted cf_labels cf_matrix cf_tmpvals cf_tmpindx cf_m] in *.
  destruct mx; [discriminate|]. destruct tv; [discriminate|]. destruct ti; [discriminate|].
  repeat match goal with HH : zl_eqb _ _ = true |- _ => apply zl_eq in HH end. subst a p l.
  assert (HM : m = [(6, 2); (5, 1); (7, 0)]); [|subst m; reflexivity].
  destruct m as [|[a1 b1] [|[a2 b2] [|[a3 b3] [|]]]]; try discriminate. cbn [map fst snd] in *. congruence.
Qed.
Lemma ex_confu : exists tr, NewMultiClass env0 draws0 exD (mkO true 0 3 2 (fdec 3 10)) = Ok tr /\ ClassLabels (tr_model tr) = [7; 5; 6] /\
  MCConfusions (tr_model tr) exT = Ok exC.
Proof.
  destruct (ok_ex runFull (fun tr => zl_eqb (ClassLabels (tr_model tr)) [7; 5; 6] && match MCConfusions (tr_model tr) exT with Ok C => isExC C | _ => false end)) as (tr & Htr & HB);
    [vm_compute; reflexivity|].
  exists tr. apply andb_true_iff in HB as [H1 H2]. split; [exact Htr|]. split; [apply zl_eq; auto|].
  destruct (MCConfusions (tr_model tr) exT) as [C| |]; try discriminate H2. apply isExC_eq in H2 as ->. auto.
Qed.
Lemma ex_labels_nodup : NoDup [7; 5; 6].
Proof. repeat constructor; simpl; intuition lia. Qed.
Lemma ex_confu_hyps : exists tr, NewMultiClass env0 draws0 exD (mkO true 0 3 2 (fdec 3 10)) = Ok tr /\ ClassLabels (tr_model tr) = [7; 5; 6] /\
  MCConfusions (tr_model tr) exT = Ok exC /\ NoDup (ClassLabels (tr_model tr)) /\ ~ knownBeyond (tr_model tr) exT.
Proof.
  destruct ex_confu as (tr & H1 & H2 & H3). exists tr. split; [auto|]. split; [auto|]. split; [auto|]. split; [rewrite H2; exact ex_labels_nodup|].
  intros (i & l & Hi & Hge & _). assert (HL : (i < length (Labels exT))%nat) by (apply nth_error_Some; congruence). clear -Hge HL. cbn in Hge, HL. lia.
Qed.
Lemma ex_matrix : exists C', Matrix exC = Ok ([[1; 1; 0]; [0; 0; 0]; [0; 0; 1]], C').
Proof. eexists. vm_compute. reflexivity. Qed.
Definition exC2 : DataBunch unit := MkData (mat [[0]; [1]]) [] [7; 7; 6].
Lemma ex_panics : exists tr C, NewMultiClass env0 draws0 exD (mkO true 0 3 2 (fdec 3 10)) = Ok tr /\ MCConfusions (tr_model tr) exC2 = Ok C /\
  NoDup (ClassLabels (tr_model tr)) /\ knownBeyond (tr_model tr) exC2.
Proof.
  destruct (ok_ex runFull (fun tr => zl_eqb (ClassLabels (tr_model tr)) [7; 5; 6] && match MCConfusions (tr_model tr) exC2 with Ok C => true | _ => false end)) as (tr & Htr & HB);
    [vm_compute; reflexivity|].
  apply andb_true_iff in HB as [H1 H2]. apply zl_eq in H1. destruct (MCConfusions (tr_model tr) exC2) as [C| |] eqn:EC; try discriminate H2.
  exists tr, C. split; [exact Htr|]. split; [auto|]. split; [rewrite H1; exact ex_labels_nodup|]. exists 2%nat, 6. split; [reflexivity|]. split; [cbn; lia|]. rewrite H1. right; right; left; reflexivity.
Qed.
(** the same slices before and after another call without copy *)
Lemma ex_overwritten : exists ri rv C1 h1 C2 h2, TopNForLabelM env0 exC [] 2 7 false = Ok (Some (ri, rv), C1, h1) /\ sread h1 rv = [1; 1] /\
  TopNForLabelM env0 C1 h1 2 6 false = Ok (Some (ri, rv), C2, h2) /\ sread h2 rv = [1; 0] /\ sread h2 ri <> sread h1 ri.
Proof. do 6 eexists. split; [vm_compute; reflexivity|]. split; [vm_compute; reflexivity|]. split; [vm_compute; reflexivity|]. split; [vm_compute; reflexivity|]. vm_compute. discriminate. Qed.
Lemma ex_copy : exists ri rv C1 h1, TopNForLabelM env0 exC [] 2 7 true = Ok (Some (ri, rv), C1, h1) /\ sread h1 rv = [1; 1] /\ sread h1 ri <> [].
Proof. do 4 eexists. split; [vm_compute; reflexivity|]. split; [vm_compute; reflexivity|]. vm_compute. discriminate. Qed.
Lemma ex_print : exists C' h', PrintTopN env0 exC [] 3 (fun z => decZ z) = Ok (tx "Confusions:" ++ NL :: tx "Label 7  5:1 7:1" ++ NL :: tx "Label 6  6:1", C', h').
Proof. do 2 eexists. vm_compute. reflexivity. Qed.
Lemma trained_nodup {K} E rnd (D : DataBunch K) O tr : NewMultiClass E rnd D O = Ok tr -> NoDup (ClassLabels (tr_model tr)).
Proof. intros H. apply (TrainMore.c30_lemma E rnd D O tr H). Qed.
(** C95: names of labels *)
Lemma simple_names labels k : nameGet (MakeSimpleNameMap labels) k = if contains labels k then decZ k else [].
Proof.
  unfold MakeSimpleNameMap. rewrite <- map_rev. assert (HC : contains labels k = contains (rev labels) k).
  { unfold contains. apply eq_true_iff_eq. rewrite !existsb_exists. split; intros (x & Hx & He); exists x; (split; [|auto]).
    - apply -> in_rev. exact Hx.
    - apply in_rev. exact Hx. }
  rewrite HC. generalize (rev labels) as l. induction l as [|x l IH]; [auto|]. cbn [map nameGet contains existsb]. rewrite (Z.eqb_sym k x).
  destruct (Z.eqb_spec x k) as [->|]; cbn [orb]; auto.
Qed.
Lemma ex_copied : exists ri rv C1 h1 o C2 h2, TopNForLabelM env0 exC [] 2 7 true = Ok (Some (ri, rv), C1, h1) /\
  TopNForLabelM env0 C1 h1 2 6 false = Ok (o, C2, h2) /\ sread h2 rv = [1; 1].
Proof. do 7 eexists. split; [vm_compute; reflexivity|]. split; vm_compute; reflexivity. Qed.
