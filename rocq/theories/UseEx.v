(** Concrete inputs for C129-C134. *)
From Coq Require Import Reals String.
From Flocq Require Import Core IEEE754.BinarySingleNaN.
From Verif Require Import Base F64 F64Lemmas Env EnvLemmas Utils Tree Options Train Spec SpecTrain SpecTot Examples TreeThms TrainEx InvEx SizeEx
  Feats SpecFeats FeatsConc Text Json SpecJson JsonCodec JsonMore SpecUse UseProofs.
From Coq Require Import List.
Open Scope Z_scope.

Lemma one_outside X (a b : f64) : (forall i f c, cell X i f c -> fltb a c = false /\ fltb b c = false) -> differOutside X [a] [b].
Proof.
  intros H. split; [reflexivity|]. intros f v w [H0 Hv] [_ Hw]. destruct (Z.to_nat f) as [|[|]]; try discriminate Hv. injection Hv as <-. injection Hw as <-.
  right; right. intros i c Hc. exact (H i f c Hc).
Qed.

(** the second column carries no information *)
Definition useD : DataBunch unit := MkData (mat [[0; 5]; [1; 5]; [2; 5]]) [] [0; 1; 2].
Definition useO : Options := mkO true 0 3 2 (fdec 3 10).
Lemma ex_c129 : EnvOk env0 /\ agreeOn [0] (vec [1; 4]) (vec [1; 9]) /\ exists tr f, NewMultiClass env0 draws0 useD useO = Ok tr /\
  FeatureImportance env0 (tr_model tr) = Ok f /\ fe_feat f = [0].
Proof.
  split; [exact env0_ok|]. split. { intros f v [<-|[]]. split; intros H; exact H. }
  destruct (ok_ex (NewMultiClass env0 draws0 useD useO) (fun tr => match FeatureImportance env0 (tr_model tr) with Ok f => match fe_feat f with [x] => x =? 0 | _ => false end | _ => false end))
    as (tr & Htr & HB); [vm_compute; reflexivity|].
  exists tr. destruct (FeatureImportance env0 (tr_model tr)) as [f| |]; try discriminate HB. exists f. split; [exact Htr|]. split; [auto|].
  destruct (fe_feat f) as [|x [|]]; try discriminate HB. apply Z.eqb_eq in HB. congruence.
Qed.
Lemma ex_c129_tree : exists t f, NewTree env0 exX exO = Ok t /\ TreeImportance env0 (to_xgb exO) t = Ok (Some f) /\ fe_feat f <> [].
Proof.
  destruct (ok_ex (NewTree env0 exX exO) (fun t => match TreeImportance env0 (to_xgb exO) t with Ok (Some f) => match fe_feat f with [] => false | _ => true end | _ => false end))
    as (t & Ht & HB); [vm_compute; reflexivity|].
  exists t. destruct (TreeImportance env0 (to_xgb exO) t) as [[f|]| |]; try discriminate HB. exists f. split; [exact Ht|]. split; [reflexivity|]. destruct (fe_feat f); [discriminate|congruence].
Qed.

(** learning rate zero: the trees split on a feature, but the class never changes *)
Definition zeroO : Options := mkO true 0 3 2 fzero.
Lemma zeroO_facts : feqb (o_lr zeroO) fzero = true /\ o_base zeroO <> fopp fzero.
Proof. split; [vm_compute; reflexivity|]. intros H. assert (HB : Bsign (o_base zeroO) = Bsign (fopp fzero)) by (rewrite H; reflexivity). vm_compute in HB. discriminate. Qed.
Lemma ex_c133 : exists tr a, NewMultiClass env0 draws0 exD zeroO = Ok tr /\ Accuracy (tr_model tr) exD = Ok a /\ fltb a (fofZ 34) = true.
Proof.
  destruct (ok_ex (NewMultiClass env0 draws0 exD zeroO) (fun tr => match Accuracy (tr_model tr) exD with Ok a => fltb a (fofZ 34) | _ => false end)) as (tr & Htr & HB); [vm_compute; reflexivity|].
  exists tr. destruct (Accuracy (tr_model tr) exD) as [a| |]; try discriminate HB. exists a. auto.
Qed.
Lemma ref_c129 : exists tr f, NewMultiClass env0 draws0 exD zeroO = Ok tr /\ FeatureImportance env0 (tr_model tr) = Ok f /\ In 0 (fe_feat f) /\
  forall x y bufs k k' b b', PredictSingleClass (tr_model tr) x bufs = Ok (k, b) -> PredictSingleClass (tr_model tr) y bufs = Ok (k', b') -> k = k'.
Proof.
  destruct (ok_ex (NewMultiClass env0 draws0 exD zeroO) (fun tr => match FeatureImportance env0 (tr_model tr) with Ok f => match fe_feat f with [x] => x =? 0 | _ => false end | _ => false end))
    as (tr & Htr & HB); [vm_compute; reflexivity|].
  exists tr. destruct (FeatureImportance env0 (tr_model tr)) as [f| |]; try discriminate HB. exists f. split; [exact Htr|]. split; [auto|]. split.
  - destruct (fe_feat f) as [|x [|]]; try discriminate HB. apply Z.eqb_eq in HB. left. exact HB.
  - intros x y bufs k k' b b' H1 H2. destruct zeroO_facts as [Z1 Z2]. destruct (c133_lemma unit env0 draws0 exD zeroO tr env0_ok Htr Z1 Z2) as [HZ _].
    rewrite (HZ _ _ _ _ H1), (HZ _ _ _ _ H2). reflexivity.
Qed.

(** two equal rows with different labels *)
Definition conD : DataBunch unit := MkData (mat [[1]; [1]; [2]; [1]]) [] [0; 1; 1; 1].
Definition rowKey (row : list f64) : Z := match row with v :: _ => ftoZ v | [] => 0 end.
Lemma conD_key fs : forall x y, In x (Data conD) -> In y (Data conD) -> rowKey x = rowKey y -> agreeOn fs x y.
Proof.
  assert (HE : forall x y, In x (Data conD) -> In y (Data conD) -> rowKey x = rowKey y -> x = y).
  { intros x y Hx Hy HK. repeat (destruct Hx as [<-|Hx]; [repeat (destruct Hy as [<-|Hy]; [first [reflexivity|vm_compute in HK; discriminate HK]|]); destruct Hy|]). destruct Hx. }
  intros x y Hx Hy HK. rewrite (HE x y Hx Hy HK). intros f v _. tauto.
Qed.
Lemma ex_c130 : ceiling rowKey conD = 3%nat /\ (forall fs x y, In x (Data conD) -> In y (Data conD) -> rowKey x = rowKey y -> agreeOn fs x y) /\
  exists tr f a, NewMultiClass env0 draws0 conD useO = Ok tr /\ FeatureImportance env0 (tr_model tr) = Ok f /\ Accuracy (tr_model tr) conD = Ok a /\ feqb a (fofZ 75) = true.
Proof.
  split; [vm_compute; reflexivity|]. split; [exact conD_key|].
  destruct (ok_ex (NewMultiClass env0 draws0 conD useO) (fun tr => match FeatureImportance env0 (tr_model tr), Accuracy (tr_model tr) conD with Ok f, Ok a => feqb a (fofZ 75) | _, _ => false end))
    as (tr & Htr & HB); [vm_compute; reflexivity|].
  exists tr. destruct (FeatureImportance env0 (tr_model tr)) as [f| |]; try discriminate HB. destruct (Accuracy (tr_model tr) conD) as [a| |]; try discriminate HB. exists f, a. auto.
Qed.

Lemma ex_c131 : CodecOk codec0 /\ exists tr, NewMultiClass env0 draws0 exD useO = Ok tr /\ writable (tr_model tr) /\ modelFinite (tr_model tr) /\
  mc_pt (tr_model tr) = softmaxOf env0 /\ length (mc_b (tr_model tr)) = 3%nat.
Proof.
  split; [exact codec0_ok|]. destruct ex_json as (tr & out & Htr & HW & HF & _ & HL & _). exists tr. split; [exact Htr|]. split; [exact HW|]. split; [exact HF|].
  split; [|exact HL]. apply (trained_writable _ _ _ _ _ Htr). cbn; lia.
Qed.

(** values beyond the training data, infinite or not a number *)
Lemma ex_c132 : goodTable (Data exD) /\ differOutside (Data exD) (vec [-5]) [fninf] /\ differOutside (Data exD) (vec [100]) [finf] /\ differOutside (Data exD) (vec [100]) [fnan] /\
  exists tr, NewMultiClass env0 draws0 exD useO = Ok tr.
Proof.
  split; [exact exD_good|].
  assert (HC : forall P : f64 -> bool, forallb (forallb P) (Data exD) = true -> forall i f c, cell (Data exD) i f c -> P c = true).
  { intros P HP i f c (row & [_ H1] & [_ H2]). apply nth_error_In in H1, H2. rewrite forallb_forall in HP. specialize (HP _ H1). rewrite forallb_forall in HP. exact (HP _ H2). }
  assert (HL : forall z w, forallb (forallb (fun c => fleb (fZ z) c && fleb w c)) (Data exD) = true -> differOutside (Data exD) (vec [z]) [w]).
  { intros z w HB. split; [reflexivity|]. intros f v w' [H0 Hv] [_ Hw]. destruct (Z.to_nat f) as [|[|]]; try discriminate Hv. injection Hv as <-. injection Hw as <-.
    right; left. intros i c Hc. apply andb_prop. exact (HC _ HB i f c Hc). }
  assert (HR : forall z w, forallb (forallb (fun c => negb (fltb (fZ z) c) && negb (fltb w c))) (Data exD) = true -> differOutside (Data exD) (vec [z]) [w]).
  { intros z w HB. split; [reflexivity|]. intros f v w' [H0 Hv] [_ Hw]. destruct (Z.to_nat f) as [|[|]]; try discriminate Hv. injection Hv as <-. injection Hw as <-.
    right; right. intros i c Hc. pose proof (HC _ HB i f c Hc) as HB'. apply andb_prop in HB' as [B1 B2]. split; apply negb_true_iff; auto. }
  split; [apply HL; vm_compute; reflexivity|]. split; [apply HR; vm_compute; reflexivity|]. split; [apply HR; vm_compute; reflexivity|].
  destruct ex_json as (tr & _ & Htr & _). exists tr. exact Htr.
Qed.
(** with neighbouring numbers the largest training value and infinity can be told apart *)
Definition tightX : list (list f64) := [[nearA]; [nearA]; [nearB]; [nearB]].
Lemma ref_c132 : exists X o t x y v w, (forall row c, In row X -> In c row -> ffinite c = true) /\ NewTree env0 X o = Ok t /\ differOutside X x y /\
  PredictSingle t x = Ok v /\ PredictSingle t y = Ok w /\ fnanb v = false /\ fnanb w = true.
Proof.
  exists tightX, nearO.
  destruct (ok_ex (NewTree env0 tightX nearO) (fun t => match PredictSingle t [nearB], PredictSingle t [finf] with Ok v, Ok w => negb (fnanb v) && fnanb w | _, _ => false end)) as (t & Ht & HB); [vm_compute; reflexivity|].
  exists t, [nearB], [finf]. destruct (PredictSingle t [nearB]) as [v| |]; try discriminate HB. destruct (PredictSingle t [finf]) as [w| |]; try discriminate HB.
  apply andb_prop in HB as [B1 B2]. exists v, w. split; [apply fin_cells; vm_compute; reflexivity|]. split; [exact Ht|]. split.
  - apply one_outside. intros i f c (row & [_ H1] & [_ H2]). apply nth_error_In in H1, H2.
    assert (HP : forallb (forallb (fun c => negb (fltb nearB c) && negb (fltb finf c))) tightX = true) by (vm_compute; reflexivity).
    rewrite forallb_forall in HP. specialize (HP _ H1). rewrite forallb_forall in HP. specialize (HP _ H2). apply andb_prop in HP as [P1 P2]. apply negb_true_iff in P1, P2. split; assumption.
  - split; [reflexivity|]. split; [reflexivity|]. split; [apply negb_true_iff; exact B1|exact B2].
Qed.

Lemma ex_c134 : EnvOk env0 /\ exists tr scores preds k, NewMultiClass env0 draws0 exD useO = Ok tr /\ rawScores (tr_model tr) (vec [1]) = Ok scores /\
  PredictMC (tr_model tr) (vec [1]) [] = Ok (preds, []) /\ PredictSingleClass (tr_model tr) (vec [1]) [] = Ok (k, []) /\
  (forall x, In x preds -> fnanb x = false) /\ keepsOrder (e_exp env0) scores.
Proof.
  split; [exact env0_ok|].
  destruct (ok_ex (NewMultiClass env0 draws0 exD useO) (fun tr => match rawScores (tr_model tr) (vec [1]), PredictMC (tr_model tr) (vec [1]) [], PredictSingleClass (tr_model tr) (vec [1]) [] with
    | Ok s, Ok (p, []), Ok (k, []) => forallb (fun x => negb (fnanb x)) p && forallb (fun x => forallb (fun y => negb (fleb x y) || fleb (e_exp env0 x) (e_exp env0 y)) s) s
    | _, _, _ => false end)) as (tr & Htr & HB); [vm_compute; reflexivity|].
  exists tr. destruct (rawScores (tr_model tr) (vec [1])) as [s| |]; try discriminate HB. destruct (PredictMC (tr_model tr) (vec [1]) []) as [[p [|]]| |]; try discriminate HB.
  destruct (PredictSingleClass (tr_model tr) (vec [1]) []) as [[k [|]]| |]; try discriminate HB. apply andb_prop in HB as [B1 B2]. exists s, p, k.
  split; [exact Htr|]. split; [reflexivity|]. split; [reflexivity|]. split; [reflexivity|]. split.
  - intros x Hx. rewrite forallb_forall in B1. apply negb_true_iff. auto.
  - intros x y Hx Hy Hxy. rewrite forallb_forall in B2. specialize (B2 x Hx). rewrite forallb_forall in B2. specialize (B2 y Hy). rewrite Hxy in B2. exact B2.
Qed.
Definition tiny60 : f64 := flit 1 (-60).
Lemma ref_c134 : exists out a b, SoftMax env0 [fzero; tiny60] (vec [0; 0]) = Ok out /\ fltb fzero tiny60 = true /\ out = [a; b] /\ feqb a b = true.
Proof.
  destruct (ok_ex (SoftMax env0 [fzero; tiny60] (vec [0; 0])) (fun out => match out with [a; b] => feqb a b | _ => false end)) as (out & Ho & HB); [vm_compute; reflexivity|].
  destruct out as [|a [|b [|]]]; try discriminate HB. exists [a; b], a, b. split; [exact Ho|]. split; [vm_compute; reflexivity|]. auto.
Qed.
