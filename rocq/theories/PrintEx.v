(** Concrete cases and witnesses for the printed descriptions. *)
From Coq Require Import Ascii String.
From Verif Require Import Base F64 Env EnvLemmas Utils Tree Spec Options Train SpecTrain Examples TrainEx Text Confu Readers Feats SpecFeats Print SpecPrint UtilsProofs PrintProofs.
From Coq Require Import List.
Open Scope Z_scope.

Definition teq (a b : text) : bool := if list_eq_dec ascii_dec a b then true else false.
Lemma teq_eq a b : teq a b = true -> a = b.
Proof. unfold teq. destruct (list_eq_dec ascii_dec a b); [auto|discriminate]. Qed.
Definition okText (r : res text) (t : text) : bool := match r with Ok s => teq s t | _ => false end.
Lemma okText_eq r t : okText r t = true -> r = Ok t.
Proof. destruct r; cbn [okText]; try discriminate. intros H. apply teq_eq in H. subst. reflexivity. Qed.

(** a tree from NewTree, printed *)
Definition lines (l : list string) : text := flat_map (fun s => tx s ++ [NL]) l.
Definition shallow : TreeOptions := MkTO true fone [] fzero fzero (Some (vec [-3; -1; 1; 3])) (Some (vec [1; 1; 1; 1])) [] None None 1 None.
Definition shallowText : text := lines ["Feature  0 < 0.500"; "---> True"; "    PREDICT    2.000 with [0 1] Samples"; "---> False"; "    PREDICT    -2.000 with [2 3] Samples"]%string.
Lemma ex_c107 : exists t, NewTree env0 exX shallow = Ok t /\ PrintTree None [] t = Ok shallowText.
Proof.
  destruct (ok_ex (NewTree env0 exX shallow) (fun t => okText (PrintTree None [] t) shallowText)) as (t & Ht & HB); [vm_compute; reflexivity|].
  exists t. split; [auto|]. apply okText_eq; auto.
Qed.
(** the printed comparison is strict, prediction is not: a row equal to the threshold *)
Definition atThr : list f64 := [fdec 5 10; fzero].
Lemma ref_c107 : exists t v w, NewTree env0 exX shallow = Ok t /\ PredictSingle t atThr = Ok v /\ readsRule atThr t w /\ ftoZ v = 2 /\ ftoZ w = -2.
Proof.
  destruct (ok_ex (NewTree env0 exX shallow) (fun t => match t with
    | Node d (Node dl _ _) (Node dr _ _) => negb (t_leaf d) && t_leaf dl && t_leaf dr && (t_split d =? 0) && negb (fltb (fdec 5 10) (t_thr d)) && fleb (fdec 5 10) (t_thr d) &&
        (ftoZ (t_value dl) =? 2) && (ftoZ (t_value dr) =? -2)
    | _ => false end)) as (t & Ht & HB); [vm_compute; reflexivity|].
  destruct t as [|d [|dl ll lr] [|dr rl rr]]; try discriminate HB. rewrite !andb_true_iff, !negb_true_iff, !Z.eqb_eq in HB.
  destruct HB as (((((((HL & HLl) & HLr) & HS) & Hlt) & Hle) & HVl) & HVr).
  exists (Node d (Node dl ll lr) (Node dr rl rr)), (t_value dl), (t_value dr). split; [auto|]. split; [|split].
  - cbn [PredictSingle]. rewrite HL, HS. change (idx atThr 0) with (Ok (fdec 5 10)). cbn [bind]. rewrite Hle, HLl. reflexivity.
  - eapply rr_false; [auto|rewrite HS; apply look_idx; reflexivity|auto|apply rr_leaf; auto].
  - auto.
Qed.

(** feature sets *)
Definition twoFeats : feats := MkFeats true [1; 2] [fdec 5 10; fofZ 3].
Lemma ex_c108 : StringFeats twoFeats = Ok (joinT [tx "Feature Importance in descending order, for xgboost:"; tx "1 Feature 1 with score: 0.500"; tx "2 Feature 2 with score: 3.000"] [NL]).
Proof. apply okText_eq. vm_compute. reflexivity. Qed.
(** the header promises an order that [Add] does not keep *)
Lemma ref_c108 : exists f s, (f1 <- Feats.Add (NewFeats true) 1 (fdec 5 10) ;; Feats.Add f1 2 (fofZ 3)) = Ok f /\ StringFeats f = Ok s /\
  firstn 39 s = tx "Feature Importance in descending order," /\ ~ bestFirst true f.
Proof.
  destruct (ok_ex (f1 <- Feats.Add (NewFeats true) 1 (fdec 5 10) ;; Feats.Add f1 2 (fofZ 3)) (fun f => match StringFeats f with Ok s => teq (firstn 39 s) (tx "Feature Importance in descending order,") &&
     match fe_gains f with [a; b] => fltb a b | _ => false end | _ => false end)) as (f & Hf & HB); [vm_compute; reflexivity|].
  destruct (StringFeats f) as [s| |] eqn:HS; try discriminate HB. rewrite andb_true_iff in HB. destruct HB as [HT HG]. exists f, s.
  split; [auto|]. split; [auto|]. split; [apply teq_eq; auto|]. clear -HG. unfold bestFirst.
  intros H. destruct (fe_gains f) as [|a [|b [|c l]]]; try discriminate HG. specialize (H 0%nat 1%nat a b (le_n 1) eq_refl eq_refl). cbv iota in H.
  pose proof (F64Lemmas.fltb_leb_trans _ _ _ HG H) as HX. rewrite F64Lemmas.fltb_irrefl in HX. discriminate.
Qed.

(** options *)
Definition noEarly : Options := let O := DefaultXOptions 0 in
  MkOpts (o_xgb O) (o_rounds O) (o_maxdepth O) 3 (o_lr O) (o_lambda O) (o_mcw O) (o_gamma O) (o_ss O) (o_css O) (o_base O) (o_minsample O) (o_method O) (o_verbose O) (o_loss O).
Lemma ref_c109 : exists O O', StringOptions O = StringOptions O' /\ o_earlystop O <> o_earlystop O'.
Proof. exists (DefaultXOptions 0), noEarly. split; [reflexivity|discriminate]. Qed.
Lemma ex_c109 : StringOptions (DefaultXOptions 0) = tx "xgboost 20 r/5 md/0.300 lr/0.800 ss/0.500 bs/0.200 gam/1.500 lam/3.000 mcw/0.800 css".
Proof. apply teq_eq. vm_compute. reflexivity. Qed.
Lemma ex_c110 : PrintDenseMatrix fmt3 (Dense 2 2 (vec [1; 2; 3; 4])) = Ok (tx "[[1.000 2.000]" ++ [NL] ++ tx "[3.000 4.000]]").
Proof. apply okText_eq. vm_compute. reflexivity. Qed.
