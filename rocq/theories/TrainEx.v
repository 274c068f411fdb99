(** Options (C66, C67) and concrete training runs. *)
From Coq Require Import Reals Lra String.
From Verif Require Import Base F64 F64Lemmas Env EnvLemmas Utils Tree Spec Options Train SpecTrain TrainThms Examples ActProofs.
Open Scope Z_scope.

(** *** C66 *)
Lemma feqb_refl x : fnanb x = false -> feqb x x = true.
Proof. intros H. apply feqb_true. auto. Qed.
Definition withEarlyStop (o : Options) (n : Z) : Options :=
  MkOpts (o_xgb o) (o_rounds o) (o_maxdepth o) n (o_lr o) (o_lambda o) (o_mcw o) (o_gamma o) (o_ss o) (o_css o)
         (o_base o) (o_minsample o) (o_method o) (o_verbose o) (o_loss o).

Lemma Equal_iff o O : Equal o O = true <->
  o_xgb O = o_xgb o /\ o_rounds O = o_rounds o /\ feqb (o_ss O) (o_ss o) = true /\ feqb (o_css O) (o_css o) = true /\
  feqb (o_lambda O) (o_lambda o) = true /\ feqb (o_mcw O) (o_mcw o) = true /\ feqb (o_gamma O) (o_gamma o) = true /\
  o_maxdepth O = o_maxdepth o /\ feqb (o_lr O) (o_lr o) = true /\ feqb (o_base O) (o_base o) = true /\
  o_method O = "exact"%string /\ l_name (o_loss O) = l_name (o_loss o) /\ o_verbose O = o_verbose o /\ o_minsample O = o_minsample o.
Proof.
  unfold Equal, fneqb.
  repeat match goal with
  | |- context [if negb ?c then false else _] => let Q := fresh "Q" in destruct c eqn:Q; cbn [negb]
  end; rewrite ?Bool.eqb_true_iff, ?Bool.eqb_false_iff, ?Z.eqb_eq, ?Z.eqb_neq, ?String.eqb_eq, ?String.eqb_neq in *;
  split; intros HH; try discriminate HH; try (decompose [and] HH; congruence); repeat split; auto.
Qed.

Definition noNaN (o : Options) : Prop :=
  forall x, In x [o_lr o; o_lambda o; o_mcw o; o_gamma o; o_ss o; o_css o; o_base o] -> fnanb x = false.

Lemma c66_lemma o :
  Clone o = MkOpts (o_xgb o) (o_rounds o) (o_maxdepth o) 0 (o_lr o) (o_lambda o) (o_mcw o) (o_gamma o) (o_ss o) (o_css o)
                   (o_base o) (o_minsample o) "exact" (o_verbose o) (o_loss o) /\
  (Equal o (Clone o) = true <-> noNaN o) /\
  (forall O n, Equal o (withEarlyStop O n) = Equal o O /\ Equal (withEarlyStop o n) O = Equal o O) /\
  (Equal o o = true <-> noNaN o /\ o_method o = "exact"%string).
Proof.
  assert (HN : noNaN o <-> fnanb (o_lr o) = false /\ fnanb (o_lambda o) = false /\ fnanb (o_mcw o) = false /\ fnanb (o_gamma o) = false /\
    fnanb (o_ss o) = false /\ fnanb (o_css o) = false /\ fnanb (o_base o) = false).
  { unfold noNaN. split.
    - intros H. repeat split; apply H; simpl; tauto.
    - intros (? & ? & ? & ? & ? & ? & ?) x Hx. simpl in Hx. destruct Hx as [<-|[<-|[<-|[<-|[<-|[<-|[<-|[]]]]]]]]; auto. }
  assert (HR : forall x, feqb x x = true <-> fnanb x = false).
  { intros x. split; [intros H; apply feqb_nnan in H; tauto|apply feqb_refl]. }
  split; [reflexivity|]. split; [|split].
  - rewrite Equal_iff, HN. cbn [Clone o_xgb o_rounds o_ss o_css o_lambda o_mcw o_gamma o_maxdepth o_lr o_base o_method o_loss o_verbose o_minsample].
    rewrite !HR. tauto.
  - intros O n. split; reflexivity.
  - rewrite Equal_iff, HN, !HR. tauto.
Qed.
Lemma c66_defaults : Equal (DefaultGOptions 0) (DefaultGOptions 0) = false /\
  Equal (DefaultGOptions 0) (Clone (DefaultGOptions 0)) = true /\ Equal (Clone (DefaultGOptions 0)) (DefaultGOptions 0) = false.
Proof. vm_compute. auto. Qed.

(** *** C67 *)
Lemma c67_lemma o : Check o = true <->
  0 < o_rounds o /\ 1 <= o_minsample o /\ 2 <= o_maxdepth o /\
  ~ (fleb (o_lr o) fzero = true) /\ ~ (fleb (o_ss o) fzero = true) /\ ~ (fltb fone (o_ss o) = true) /\
  ~ (fleb (o_css o) fzero = true) /\ ~ (fltb fone (o_css o) = true) /\ ~ (fltb (o_lambda o) fzero = true) /\
  ~ (fltb (o_mcw o) fone = true) /\ ~ (fltb (o_gamma o) fzero = true).
Proof.
  unfold Check. assert (HI : forall a b : bool, (if a then false else b) = true <-> negb a = true /\ b = true) by (intros [|] [|]; cbn; intuition congruence).
  rewrite !HI, !negb_true_iff, !orb_false_iff, !Z.leb_gt, !Z.ltb_ge, !not_true_iff_false. tauto.
Qed.
Lemma c67_defaults id : Check (DefaultXOptions id) = true /\ Check (DefaultGOptions id) = false.
Proof. split; vm_compute; reflexivity. Qed.
Definition nanOptions : Options :=
  MkOpts true 10 4 0 fnan fnan fnan fnan fnan fnan fnan 1 "exact" false (SQErrLoss 0).
Lemma c67_nan : Check nanOptions = true.
Proof. vm_compute. reflexivity. Qed.

(** *** Training runs *)
Definition mkO (xgb : bool) (es rounds md : Z) (lr : f64) : Options :=
  MkOpts xgb rounds md es lr fone fone fzero fone fone fhalf 0 "exact" false (SQErrLoss 0).
Definition draws0 : draws := fun _ => (fun _ => fzero, fun _ => fzero).
Definition exD : DataBunch unit := MkData (mat [[0]; [1]; [2]]) [] [7; 5; 6].
(** regular boosting with a large learning rate: class 0 stops after the second round *)
Notation runEarly := (NewMultiClass env0 draws0 exD (mkO false 1 3 1 (fofZ 16))).
(** XGB boosting without early stopping *)
Notation runFull := (NewMultiClass env0 draws0 exD (mkO true 0 3 2 (fdec 3 10))).

Definition shape (r : res trained) : option (list (list nat) * list bool) :=
  match r with Ok tr => Some (map (map g_class) (tr_hist tr), s_stopped (tr_state tr)) | _ => None end.
Lemma runEarly_shape : shape runEarly = Some ([[0; 1; 2]; [0; 1; 2]; [1; 2]]%nat, [true; false; false]).
Proof. vm_compute. reflexivity. Qed.
Lemma runFull_shape : shape runFull = Some ([[0; 1; 2]; [0; 1; 2]; [0; 1; 2]]%nat, [false; false; false]).
Proof. vm_compute. reflexivity. Qed.
Lemma shape_ok r s : shape r = Some s -> exists tr, r = Ok tr /\ map (map g_class) (tr_hist tr) = fst s /\ s_stopped (tr_state tr) = snd s.
Proof. destruct r; simpl; intros H; try discriminate H. injection H as <-. eauto. Qed.

(** the raw scores of training row 0 differ between the ensemble and training, in every class *)
Definition scoresDiffer (r : res trained) : bool :=
  match r with
  | Ok tr => match rawScores (tr_model tr) (vec [0]) with
             | Ok out => negb (existsb (fun p => feqb (fst p) (snd p)) (combine out (rowView (s_raw (tr_state tr)) 0)))
             | _ => false
             end
  | _ => false
  end.
Lemma runEarly_differs : scoresDiffer runEarly = true.
Proof. vm_compute. reflexivity. Qed.

Lemma c29_refuted_lemma : exists E rnd (D : DataBunch unit) O tr row out,
  EnvOk E /\ length (Data D) = length (Labels D) /\ 0 < o_earlystop O /\ NewMultiClass E rnd D O = Ok tr /\
  nth_error (Data D) 0 = Some row /\ rawScores (tr_model tr) row = Ok out /\
  map (map g_class) (tr_hist tr) = [[0; 1; 2]; [0; 1; 2]; [1; 2]]%nat /\
  forall k a b, nth_error out k = Some a -> nth_error (rowView (s_raw (tr_state tr)) 0) k = Some b -> feqb a b = false.
Proof.
  destruct (shape_ok _ _ runEarly_shape) as (tr & Htr & Hs & _). pose proof runEarly_differs as HD. rewrite Htr in HD. unfold scoresDiffer in HD.
  destruct (rawScores (tr_model tr) (vec [0])) as [out| |] eqn:Eo; try discriminate HD.
  exists env0, draws0, exD, (mkO false 1 3 1 (fofZ 16)), tr, (vec [0]), out.
  split; [exact env0_ok|]. split; [reflexivity|]. split; [reflexivity|]. split; [exact Htr|]. split; [reflexivity|]. split; [exact Eo|]. split; [exact Hs|].
  intros k a b Ha Hb. apply negb_true_iff in HD. destruct (feqb a b) eqn:Eab; auto.
  exfalso. assert (HX : existsb (fun p => feqb (fst p) (snd p)) (combine out (rowView (s_raw (tr_state tr)) 0)) = true); [|congruence].
  apply existsb_exists. exists (a, b). split; [|exact Eab]. eapply nth_error_In. apply nth_combine2; eauto.
Qed.

Lemma ok_ex {A} (r : res A) (P : A -> bool) : (match r with Ok a => P a | _ => false end) = true -> exists a, r = Ok a /\ P a = true.
Proof. destruct r; intros H; try discriminate H. eauto. Qed.
Lemma ex_c28 : exists tr, NewMultiClass env0 draws0 exD (mkO true 0 3 2 (fdec 3 10)) = Ok tr /\
  (List.length (Data exD) <= List.length (Labels exD))%nat /\ mc_b (tr_model tr) <> [] /\ o_earlystop (mkO true 0 3 2 (fdec 3 10)) <= 0.
Proof.
  destruct (ok_ex runFull (fun tr => match mc_b (tr_model tr) with [] => false | _ => true end)) as (tr & Htr & HB); [vm_compute; reflexivity|].
  exists tr. split; [exact Htr|]. split; [simpl; lia|]. split; [|simpl; lia]. intros HX. rewrite HX in HB. discriminate HB.
Qed.
Lemma ex_c30 : exists tr, NewMultiClass env0 draws0 exD (mkO false 1 3 1 (fofZ 16)) = Ok tr /\
  map (@List.length tree) (mc_b (tr_model tr)) = [3; 3; 2]%nat /\ ClassLabels (tr_model tr) = [7; 5; 6].
Proof.
  destruct (ok_ex runEarly (fun tr => (if list_eq_dec Nat.eq_dec (map (@List.length tree) (mc_b (tr_model tr))) [3; 3; 2]%nat then true else false) &&
     (if list_eq_dec Z.eq_dec (ClassLabels (tr_model tr)) [7; 5; 6] then true else false))) as (tr & Htr & HB); [vm_compute; reflexivity|].
  exists tr. split; [exact Htr|]. destruct (list_eq_dec Nat.eq_dec _ _); [|discriminate HB]. destruct (list_eq_dec Z.eq_dec _ _); [auto|discriminate HB].
Qed.
Lemma ex_c31 : exists tr, NewMultiClass env0 draws0 exD
    (MkOpts false 10 4 0 (fdec 1 10) fzero (fofZ 3) fzero fzero fzero fzero 1 "" false (MSELoss 0)) = Ok tr.
Proof. destruct (ok_ex (NewMultiClass env0 draws0 exD
    (MkOpts false 10 4 0 (fdec 1 10) fzero (fofZ 3) fzero fzero fzero fzero 1 "" false (MSELoss 0))) (fun _ => true)) as (tr & Htr & _); [vm_compute; reflexivity|eauto]. Qed.
Lemma ex_c32 : exists tr, NewMultiClass env0 draws0 exD (mkO false 1 3 1 (fofZ 16)) = Ok tr /\
  s_stopped (tr_state tr) = [true; false; false].
Proof. destruct (shape_ok _ _ runEarly_shape) as (tr & Htr & _ & Hs). eauto. Qed.
Lemma ex_c34 : exists t t', NewTree env0 exX exOg = Ok t /\ updateLeaves t (vec [1; 2; 3; 4]) (vec [1; 1; 1; 1]) = Ok t'.
Proof.
  destruct (ok_ex (NewTree env0 exX exOg) (fun t => match updateLeaves t (vec [1; 2; 3; 4]) (vec [1; 1; 1; 1]) with Ok _ => true | _ => false end)) as (t & Ht & HB); [vm_compute; reflexivity|].
  exists t. destruct (updateLeaves t _ _) as [t'| |]; try discriminate HB. eauto.
Qed.
Lemma ex_c35 : exists tr, NewMultiClass env0 draws0 exD (mkO true 0 2 2 fone) = Ok tr /\
  Classes (tr_model tr) = 2 /\ Rounds (tr_model tr) None = Ok 3.
Proof.
  destruct (ok_ex (NewMultiClass env0 draws0 exD (mkO true 0 2 2 fone)) (fun tr => (Classes (tr_model tr) =? 2) && match Rounds (tr_model tr) None with Ok r => r =? 3 | _ => false end))
    as (tr & Htr & HB); [vm_compute; reflexivity|].
  exists tr. split; [exact Htr|]. apply andb_true_iff in HB as [H1 H2]. split; [apply Z.eqb_eq; auto|].
  destruct (Rounds (tr_model tr) None); try discriminate H2. apply Z.eqb_eq in H2. congruence.
Qed.
Definition classIs (M : MultiClass) (row : list f64) (k : Z) : bool :=
  match PredictSingleClass M row [] with Ok (p, []) => p =? k | _ => false end.
Lemma ex_c36 : exists tr, NewMultiClass env0 draws0 exD (mkO true 0 3 2 (fdec 3 10)) = Ok tr /\
  map (fun row => PredictSingleClass (tr_model tr) row []) (Data exD) = [Ok (0, []); Ok (1, []); Ok (2, [])].
Proof.
  destruct (ok_ex runFull (fun tr => classIs (tr_model tr) (vec [0]) 0 && classIs (tr_model tr) (vec [1]) 1 && classIs (tr_model tr) (vec [2]) 2))
    as (tr & Htr & HB); [vm_compute; reflexivity|].
  exists tr. split; [exact Htr|]. apply andb_true_iff in HB as [HB H3]. apply andb_true_iff in HB as [H1 H2].
  assert (HG : forall row k, classIs (tr_model tr) row k = true -> PredictSingleClass (tr_model tr) row [] = Ok (k, [])).
  { intros row k H. unfold classIs in H. destruct (PredictSingleClass (tr_model tr) row []) as [[p [|]]| |]; try discriminate H. apply Z.eqb_eq in H. congruence. }
  change (Data exD) with [vec [0]; vec [1]; vec [2]]. cbn [map]. rewrite (HG _ _ H1), (HG _ _ H2), (HG _ _ H3). reflexivity.
Qed.
Lemma ex_c37 : exists tr a, NewMultiClass env0 draws0 exD (mkO true 0 3 2 (fdec 3 10)) = Ok tr /\
  Accuracy (tr_model tr) exD = Ok a /\ feqb a (fofZ 100) = true.
Proof.
  destruct (ok_ex runFull (fun tr => match Accuracy (tr_model tr) exD with Ok a => feqb a (fofZ 100) | _ => false end)) as (tr & Htr & HB); [vm_compute; reflexivity|].
  exists tr. destruct (Accuracy (tr_model tr) exD) as [a| |]; try discriminate HB. exists a. auto.
Qed.
Lemma ex_c40 : (0 < 1 / 4 < 1)%R /\ (1 - 1 / 4 <> 1)%R.
Proof. split; Lra.lra. Qed.
Lemma c66_refuted_lemma : exists o O, noNaN o /\ Equal o o = false /\ Equal o O = true /\ Equal O o = false.
Proof.
  exists (DefaultGOptions 0), (Clone (DefaultGOptions 0)). split; [|exact c66_defaults].
  intros x Hx. simpl In in Hx. destruct Hx as [<-|[<-|[<-|[<-|[<-|[<-|[<-|[]]]]]]]]; vm_compute; reflexivity.
Qed.
Lemma ex_c81 : exists tr, NewMultiClass env0 draws0 exD (mkO true 0 3 2 (fdec 3 10)) = Ok tr /\
  (List.length (Data exD) <= List.length (Labels exD))%nat /\ map g_class (concat (tr_hist tr)) = [0; 1; 2; 0; 1; 2; 0; 1; 2]%nat.
Proof.
  destruct (ok_ex runFull (fun tr => if list_eq_dec Nat.eq_dec (map g_class (concat (tr_hist tr))) [0; 1; 2; 0; 1; 2; 0; 1; 2]%nat then true else false)) as (tr & Htr & HB); [vm_compute; reflexivity|].
  exists tr. split; [exact Htr|]. split; [simpl; lia|]. destruct (list_eq_dec Nat.eq_dec _ _) as [E|]; [exact E|discriminate HB].
Qed.
Lemma ex_c82 : exists tr, NewMultiClass env0 draws0 exD (mkO true 0 3 2 (fdec 3 10)) = Ok tr /\
  (List.length (Data exD) <= List.length (Labels exD))%nat /\ mc_b (tr_model tr) <> [] /\ nth_error (Data exD) 0 = Some (vec [0]) /\
  exists ps, PredictMC (tr_model tr) (vec [17; 4]) [] = Ok (ps, []) /\ List.length ps = 3%nat.
Proof.
  destruct (ok_ex runFull (fun tr => match PredictMC (tr_model tr) (vec [17; 4]) [] with Ok ([_; _; _], []) => match mc_b (tr_model tr) with [] => false | _ => true end | _ => false end)) as (tr & Htr & HB); [vm_compute; reflexivity|].
  exists tr. split; [exact Htr|]. split; [simpl; lia|]. destruct (PredictMC (tr_model tr) (vec [17; 4]) []) as [[[|p1 [|p2 [|p3 [|]]]] [|]]| |]; try discriminate HB.
  split; [intros HX; rewrite HX in HB; discriminate HB|]. split; [reflexivity|]. eexists. split; reflexivity.
Qed.
