(** Cross-validation returns on well-formed input (proof support for C100). *)
From Coq Require Import Reals Lra.
From Verif Require Import Base F64 F64Lemmas Env EnvLemmas Utils Tree Spec UtilsProofs TreeProofs TreeThms Options Train SpecTrain SpecTot
  TrainThms TrainMore TrainTot TrainEx CV SpecCV CVProofs.
Open Scope Z_scope.

Lemma goodTable_incl X Y : goodTable X -> Y <> [] -> incl Y X -> goodTable Y.
Proof.
  intros [G1 G2 G3 G4] HN HI. split; auto.
  - intros i f v (row & [_ Hr] & Hv). apply nth_error_In in Hr. apply HI in Hr. apply In_nth_error in Hr as [k Hk].
    apply (G3 (Z.of_nat k) f). exists row. split; auto. split; [|rewrite Nat2Z.id; auto].
    apply Nat2Z.is_nonneg.
  - intros f i j a b (ra & [_ Hra] & Ha) (rb & [_ Hrb] & Hb) L.
    apply nth_error_In in Hra. apply HI in Hra. apply In_nth_error in Hra as [ka Hka].
    apply nth_error_In in Hrb. apply HI in Hrb. apply In_nth_error in Hrb as [kb Hkb].
    apply (G4 f (Z.of_nat ka) (Z.of_nat kb)); auto; eexists; (split; [|eassumption]); (split; [apply Nat2Z.is_nonneg|rewrite Nat2Z.id; auto]).
Qed.
Lemma rowsAt_incl X ix : (forall i, In i ix -> 0 <= i < Z.of_nat (length X)) -> incl (rowsAt X ix) X.
Proof.
  intros H row Hr. unfold rowsAt in Hr. apply in_map_iff in Hr as (i & <- & Hi). apply nth_In. specialize (H i Hi). lia.
Qed.

Lemma countRight_ex {K} E rnd (D : DataBunch K) O tr row0 : NewMultiClass E rnd D O = Ok tr -> (length (Data D) <= length (Labels D))%nat ->
  mc_b (tr_model tr) <> [] -> nth_error (Data D) 0 = Some row0 -> forall actual rows i right, 0 <= i ->
  (forall row, In row rows -> (length row0 <= length row)%nat) -> i + Z.of_nat (length rows) <= Z.of_nat (length actual) ->
  exists n, countRight (tr_model tr) rows actual i right = Ok n.
Proof.
  intros HT HL HB H0 actual. induction rows as [|row rows IH]; intros i right Hi Hw Hl; cbn [countRight]; [eauto|].
  destruct (c82_lemma E rnd D O tr HT row0 row [[]] HL HB H0) as (preds & k & _ & _ & Hk & Hr); [apply Hw; left; auto|].
  rewrite Hk. cbn [bind]. destruct (proj2 (idx_range (mc_labels (tr_model tr)) k)) as [lab ->]; [exact Hr|]. cbn [bind]. cbn [length] in Hl.
  destruct (proj2 (idx_range actual i)) as [act ->]; [lia|]. cbn [bind]. apply IH; [lia| |lia].
  intros r Hr'. apply Hw. right; auto.
Qed.

Lemma optsOk_fix O : optsOk O -> optsOk (fixMCW O).
Proof. intros [A B C D]. split; auto. Qed.
Lemma optsOk_unfix O : optsOk (fixMCW O) -> optsOk O.
Proof. intros [A B C D]. split; auto. Qed.
Lemma train_ex {K} E rnd (D : DataBunch K) O : EnvOk E -> goodTable (Data D) -> length (Labels D) = length (Data D) -> optsOk O -> sizesOk (Data D) ->
  exists tr, NewMultiClass E rnd D O = Ok tr.
Proof.
  intros HE HG HL [A B C F] [S1 S2]. apply c98_lemma; auto. intros rd _. unfold roundFed. tauto.
Qed.

Section Loop.
Context {K : Type} (E : Env) (HE : EnvOk E) (D : DataBunch K) (rndf : nat -> draws) (id : Z).
Context (HG : goodTable (Data D)) (HL : length (Labels D) = length (Data D)) (HS : sizesOk (Data D)).

Lemma fold_ex n folds i train test O : (2 <= n)%nat -> (2 <= length (Data D) / n)%nat -> goodFolds (length (Data D)) n folds -> (i < n)%nat ->
  foldPair D folds i (train, test) -> optsOk (match O with Some o => o | None => DefaultXOptions id end) ->
  exists tr r, trainWith E (rndf i) id train O = Ok tr /\ Rounds (tr_model tr) None = Ok r /\ (0 < r -> exists a, Accuracy (tr_model tr) test = Ok a).
Proof.
  intros Hn Hq (F1 & F2 & F3 & F4) Hi (te & trn & Ht & HP & E1 & E2) HO. cbn [fst snd] in E1, E2.
  assert (HR : forall x, In x (trn ++ te) -> 0 <= x < Z.of_nat (length (Data D))).
  { intros x Hx. apply In_indices. eapply Permutation_in; eauto. }
  assert (Hlt : (length te < length (Data D))%nat).
  { pose proof (Nat.div_mod (length (Data D)) n ltac:(lia)) as HM. pose proof (Nat.mod_upper_bound (length (Data D)) n ltac:(lia)).
    destruct (Nat.eq_dec i (n - 1)) as [->|Hne]; [rewrite (F4 _ Ht)|rewrite (F3 _ _ Ht) by lia]; nia. }
  assert (Hne : trn <> []).
  { intros ->. apply Permutation_length in HP. unfold indices in HP. rewrite map_length, seq_length in HP. simpl in HP. lia. }
  assert (I1 : incl (Data train) (Data D)) by (rewrite E1; apply rowsAt_incl; intros x Hx; apply HR, in_app_iff; auto).
  assert (I2 : incl (Data test) (Data D)) by (rewrite E2; apply rowsAt_incl; intros x Hx; apply HR, in_app_iff; auto).
  assert (N1 : Data train <> []) by (rewrite E1; cbn; unfold rowsAt; destruct trn; [congruence|discriminate]).
  assert (L1 : length (Labels train) = length (Data train)) by (rewrite E1; cbn; unfold rowsAt, labelsAt; rewrite !map_length; auto).
  assert (L2 : length (Labels test) = length (Data test)) by (rewrite E2; cbn; unfold rowsAt, labelsAt; rewrite !map_length; auto).
  assert (S1 : sizesOk (Data train)).
  { destruct HS as [Sa Sb]. split; [|intros row Hr; apply Sb, I1; auto].
    assert (length (Data train) <= length (Data D))%nat; [|lia]. rewrite E1. cbn. unfold rowsAt. rewrite map_length.
    apply Permutation_length in HP. unfold indices in HP. rewrite map_length, seq_length, app_length in HP. lia. }
  destruct (train_ex E (rndf i) train _ HE (goodTable_incl _ _ HG N1 I1) L1 HO S1) as [tr Htr].
  assert (HRo : exists r, Rounds (tr_model tr) None = Ok r /\ (0 < r -> mc_b (tr_model tr) <> [])).
  { unfold Rounds, Classes. destruct (mc_b (tr_model tr)) as [|b bs]; [exists (-1); split; [reflexivity|lia]|].
    destruct (_ || _)%bool; [exists (-1); split; [reflexivity|lia]|]. cbn. eexists. split; [reflexivity|discriminate]. }
  destruct HRo as (r & Hr & Hb). exists tr, r. split; [exact Htr|]. split; [exact Hr|]. intros Hpos.
  destruct (Data train) as [|row0 rest] eqn:Ed; [congruence|].
  unfold Accuracy. destruct (countRight_ex E (rndf i) train _ tr row0 Htr) with (actual := Labels test) (rows := Data test) (i := 0) (right := 0) as [c ->].
  - rewrite L1, Ed. auto.
  - auto.
  - rewrite Ed. reflexivity.
  - lia.
  - intros row Hrow. apply Nat.eq_le_incl. apply (gt_rect _ HG); [apply I1; left; auto|apply I2; auto].
  - lia.
  - cbn [bind]. eauto.
Qed.

Lemma cvLoop_ex n : forall i s O accus, sp_data s = D -> goodFolds (length (Data D)) (sp_nf s) (sp_folds s) -> (2 <= sp_nf s)%nat ->
  (2 <= length (Data D) / sp_nf s)%nat -> sp_calls s = i -> (i + n = sp_nf s)%nat ->
  optsOk (match O with Some o => o | None => DefaultXOptions id end) ->
  exists r, cvLoop E rndf id s O i n accus = Ok r.
Proof.
  induction n as [|n IH]; intros i s O accus HD HF H2 Hq Hi Hn HO; cbn [cvLoop]; [eauto|].
  destruct (call_Some D s HD HL HF ltac:(lia)) as ([train test] & Hc & Hp). rewrite Hc. cbn [bind]. rewrite Hi in Hp.
  destruct (fold_ex (sp_nf s) (sp_folds s) i train test O H2 Hq HF ltac:(lia) Hp HO) as (tr & r & Htr & Hr & Ha).
  rewrite Htr. cbn [bind]. rewrite Hr. cbn [bind]. cbn zeta.
  assert (HO' : optsOk (match (match O with Some _ => Some (tr_opts tr) | None => None end) with Some o => o | None => DefaultXOptions id end)).
  { destruct O as [o|]; auto. apply train_opts in Htr. rewrite Htr. apply optsOk_fix. auto. }
  assert (HN : forall acc', exists r', cvLoop E rndf id (MkSampler D (sp_folds s) (sp_nf s) (S (sp_calls s)))
      (match O with Some _ => Some (tr_opts tr) | None => None end) (S i) n acc' = Ok r').
  { intros acc'. apply IH; auto; cbn [sp_nf sp_calls]; lia. }
  destruct (Z.leb_spec r 0) as [Q|Q]; [apply HN|]. destruct (Ha Q) as [a ->]. cbn [bind]. apply HN.
Qed.
End Loop.

Lemma c100_lemma {K} E ints rndf id (D : DataBunch K) nfold O conc : EnvOk E -> goodTable (Data D) -> (2 <= length (Data D))%nat ->
  length (Labels D) = length (Data D) -> sizesOk (Data D) -> optsOk (match O with Some o => o | None => DefaultXOptions id end) ->
  validInts (Z.of_nat (length (Data D))) ints -> fairInts (Z.of_nat (length (Data D))) ints ->
  exists fuel r, MultiClassCrossValidation E fuel ints rndf id D nfold O conc = Ok r.
Proof.
  intros HE HG H2 HL HS HO HV HF. destruct (CVS_terminates D ints nfold H2 HV HF) as (fuel & [[n so] e] & Hc). exists fuel.
  unfold MultiClassCrossValidation. rewrite Hc. cbn [bind].
  apply CVS_inv in Hc as (_ & [(_ & -> & -> & ->)|(U2 & Hn & _ & s & -> & E1 & E2 & E3 & HGF)]); auto.
  - cbn. eauto.
  - destruct (e && Nat.eqb n 0)%bool; [eauto|].
    assert (Hq : (2 <= length (Data D) / n)%nat) by (rewrite Hn; apply used_min; [auto|exact U2]).
    destruct (cvLoop_ex E HE D rndf id HG HL HS n 0 s O fzero E1) as [[accus O'] ->]; rewrite ?E2; auto; try lia.
    cbn [bind]. eauto.
Qed.
Lemma check_optsOk O : lossSized (o_loss O) -> Check O = true -> optsOk O.
Proof.
  intros HLs HC. apply TrainEx.c67_lemma in HC as (_ & C1 & _ & _ & C2 & C3 & C4 & C5 & _).
  assert (HFr : forall p, ~ fleb p fzero = true -> fractionOk p).
  { intros p Hp Hlt. apply not_true_iff_false in Hp. apply fltb_true in Hlt as (N & _ & _).
    destruct (fleb fzero p) eqn:E; auto. exfalso.
    assert (Hnn : fnanb fzero = false) by reflexivity.
    assert (H1 : ~ (ext p <= ext fzero)%R) by (intros Hle; assert (fleb p fzero = true) by (apply fleb_true; auto); congruence).
    assert (H2 : ~ (ext fzero <= ext p)%R) by (intros Hle; assert (fleb fzero p = true) by (apply fleb_true; auto); congruence).
    lra. }
  split; auto.
Qed.
Lemma default_optsOk id : optsOk (DefaultXOptions id).
Proof. apply check_optsOk; [apply lossSized_std|]. vm_compute. reflexivity. Qed.
