(** Proofs about what is printed and logged: cross-validation (C158). *)
From Verif Require Import Base F64 Env Utils Tree Options Train Spec SpecTrain TrainProofs TrainThms TrainSteps TrainMore OptProofs Text Confu Print CV SpecCV CVProofs Grid Grad Verbose SpecVerbose VerboseProofs.
From Coq Require Import List.
Open Scope Z_scope.

Lemma downTo_S k b : (b <= k)%nat -> downTo (S k) b = S k :: downTo k b.
Proof.
  intros H. unfold downTo. replace (S k - b)%nat with (S (k - b)) by lia. rewrite seq_S, rev_app_distr. simpl. f_equal. lia.
Qed.
Lemma downTo_nil k : downTo k k = [].
Proof. unfold downTo. rewrite Nat.sub_diag. reflexivity. Qed.
Lemma adjust_le tot nf : forall n, adjustFolds tot nf = Ok n -> (n <= nf)%nat.
Proof. induction nf as [|k IH]; intros n H; cbn [adjustFolds] in H; [discriminate|]. destruct (_ <? 2); [apply IH in H; lia|injection H as <-; lia]. Qed.
Lemma adjV tot : forall nf tried err, adjustFoldsV tot nf tried err =
  (n <- adjustFolds tot nf ;; Ok (n, tried ++ downTo nf n, if Nat.ltb n nf then Some (fewerText (S n) tot (tried ++ downTo nf (S n))) else err)).
Proof.
  induction nf as [|k IH]; intros tried err; cbn [adjustFoldsV adjustFolds]; [reflexivity|]. destruct (tot / Z.of_nat (S k) <? 2).
  - rewrite IH. apply bind_ext. intros n Hn. pose proof (adjust_le _ _ _ Hn). rewrite downTo_S by lia. rewrite <- app_assoc. replace (Nat.ltb n (S k)) with true by (symmetry; apply Nat.ltb_lt; lia).
    destruct (Nat.ltb_spec n k) as [Hlt|Hge].
    + rewrite downTo_S by lia. rewrite <- app_assoc. reflexivity.
    + assert (n = k) by lia. subst n. rewrite !downTo_nil, !app_nil_r. reflexivity.
  - cbn [bind]. rewrite downTo_nil, app_nil_r, Nat.ltb_irrefl. reflexivity.
Qed.
(** the text about a smaller number of folds *)
Definition msgOf {K} (D : DataBunch K) (nfold : Z) (n : nat) (e : bool) : option text :=
  if e && negb (Nat.eqb n 0) then Some (fewerText (S n) (Z.of_nat (length (Data D))) (downTo (requested nfold) (S n))) else None.
Lemma CVSV_eq {K} fuel ints (D : DataBunch K) nfold : CrossValidationSamplesV fuel ints D nfold =
  (' (n, so, e) <- CrossValidationSamples fuel ints D nfold ;; Ok (n, so, e, msgOf D nfold n e)).
Proof.
  unfold CrossValidationSamplesV, CrossValidationSamples. fold (requested nfold). rewrite adjV. destruct (adjustFolds _ _) as [n| |]; cbn [bind]; auto.
  cbn [app]. destruct (Nat.ltb_spec n 2) as [|H2]; [reflexivity|]. destruct (drawFolds _ _ _ _ _) as [folds| |]; cbn [bind]; auto. destruct (fillRemaining _ _) as [folds'| |]; cbn [bind]; auto.
  unfold msgOf. replace (Nat.eqb n 0) with false by (symmetry; apply Nat.eqb_neq; lia). destruct (Nat.ltb n (requested nfold)); reflexivity.
Qed.
Lemma snd_cvLoopV {K} E rndf id nf : forall n (s : sampler K) O i accus, snd (cvLoopV E rndf id nf s O i n accus) = cvLoop E rndf id s O i n accus.
Proof.
  induction n as [|n IH]; intros s O i accus; cbn [cvLoopV cvLoop]; [reflexivity|].
  rewrite snd_wbind. cbn [lift snd]. apply bind_ext. intros [[[train test]|] s'] _; [|reflexivity].
  rewrite snd_wbind. unfold trainWithV, trainWith. rewrite snd_NewMultiClassV. apply bind_ext. intros tr _. cbv zeta.
  rewrite snd_wbind. cbn [lift snd]. apply bind_ext. intros r _. destruct (r <=? 0).
  - rewrite say_eq. cbn [snd]. apply IH.
  - rewrite snd_wbind. cbn [lift snd]. apply bind_ext. intros a _. apply IH.
Qed.
Lemma c158_same_lemma {K} E fuel ints rndf id (D : DataBunch K) nfold O conc :
  snd (MultiClassCrossValidationV E fuel ints rndf id D nfold O conc) = MultiClassCrossValidation E fuel ints rndf id D nfold O conc.
Proof.
  unfold MultiClassCrossValidationV, MultiClassCrossValidation. rewrite snd_wbind. cbn [lift snd]. rewrite CVSV_eq.
  destruct (CrossValidationSamples _ _ _ _) as [[[n so] e]| |]; cbn [bind]; auto. destruct (e && Nat.eqb n 0); [reflexivity|].
  rewrite say_eq. cbn [snd]. destruct so as [s|]; [|reflexivity]. rewrite snd_wbind, snd_cvLoopV. apply bind_ext. intros [a O'] _. reflexivity.
Qed.
Lemma trainV_fix {K} E rnd id (D : DataBunch K) Oc O : option_map fixMCW Oc = option_map fixMCW O -> trainWithV E rnd id D Oc = trainWithV E rnd id D O.
Proof.
  intros H. unfold trainWithV. destruct Oc as [oc|], O as [o|]; try discriminate H; auto.
  assert (HF : fixMCW oc = fixMCW o) by (simpl in H; congruence). unfold NewMultiClassV. rewrite HF. reflexivity.
Qed.

Section Loop.
Context {K : Type} (E : Env) (D : DataBunch K) (rndf : nat -> draws) (id : Z).
Let tot := length (Data D).
Lemma cvLoopV_says nf O : forall n i s Oc accus q, sp_data s = D -> length (Labels D) = tot -> goodFolds tot (sp_nf s) (sp_folds s) ->
  sp_calls s = i -> (i + n = sp_nf s)%nat -> option_map fixMCW Oc = option_map fixMCW O -> snd (cvLoopV E rndf id nf s Oc i n accus) = Ok q ->
  exists pairs outs saids, length pairs = n /\ length outs = n /\ length saids = n /\ fst q = fold_left fadd (somes outs) accus /\
   (forall k p o, nth_error pairs k = Some p -> nth_error outs k = Some o -> foldPair D (sp_folds s) (i + k) p /\ foldOutcome E (rndf (i + k)%nat) id O p o) /\
   (forall k p o said, nth_error pairs k = Some p -> nth_error outs k = Some o -> nth_error saids k = Some said -> foldSays E nf (rndf (i + k)%nat) id O p o said) /\
   fst (cvLoopV E rndf id nf s Oc i n accus) = concat saids.
Proof.
  induction n as [|n IH]; intros i s Oc accus q HD HL HG Hi Hn HO H; cbn [cvLoopV] in *.
  - injection H as <-. exists [], [], []. repeat (split; [reflexivity|]). split; [intros [|k] p o Hk; discriminate Hk|]. split; [intros [|k] p o said Hk; discriminate Hk|reflexivity].
  - destruct (call_Some D s HD HL HG ltac:(lia)) as ([train test] & Hc & Hp). rewrite Hc in *.
    apply lift_Ok in H as ([tt_ s1] & Hx & H & HF). injection Hx as <- <-. rewrite HF. clear HF.
    apply wbind_Ok in H as (tr & Htr & H & HF). rewrite HF. clear HF. cbv zeta in *. apply lift_Ok in H as (r & Hr & H & HF). rewrite HF. clear HF.
    set (O1 := match Oc with Some _ => Some (tr_opts tr) | None => None end) in *.
    rewrite (trainV_fix E (rndf i) id train Oc O HO) in *.
    assert (Htr' : trainWith E (rndf i) id train O = Ok tr) by (unfold trainWithV in Htr; rewrite snd_NewMultiClassV in Htr; exact Htr).
    assert (HO2 : option_map fixMCW O1 = option_map fixMCW O).
    { unfold O1. destruct Oc as [oc|]; destruct O as [o|]; simpl in *; try discriminate HO; auto. apply train_opts in Htr'. rewrite Htr', fixMCW_idem. auto. }
    match goal with |- context [_ ++ fst ?W = concat _] => assert (HX : exists acc1 o1, snd (cvLoopV E rndf id nf (MkSampler D (sp_folds s) (sp_nf s) (S (sp_calls s))) O1 (S i) n acc1) = Ok q /\
       foldOutcome E (rndf i) id O (train, test) o1 /\ acc1 = fold_left fadd (somes [o1]) accus /\
       fst W =
       match o1 with None => [LNoModel nf] | Some _ => [] end ++ fst (cvLoopV E rndf id nf (MkSampler D (sp_folds s) (sp_nf s) (S (sp_calls s))) O1 (S i) n acc1)) end.
    { destruct (Z.leb_spec r 0) as [Hle|Hgt].
      - exists accus, None. rewrite say_eq in *. cbn [fst snd] in *. split; [auto|]. split; [exists tr, r; auto|]. split; reflexivity.
      - apply lift_Ok in H as (a & Ha & H & HF). rewrite HF. exists (fadd accus a), (Some a). split; [auto|]. split; [exists tr, r; auto|]. split; reflexivity. }
    clear H. destruct HX as (acc1 & o1 & H & Hfo & Hacc & HF). rewrite HF. clear HF.
    destruct (IH (S i) (MkSampler D (sp_folds s) (sp_nf s) (S (sp_calls s))) O1 acc1 q ltac:(auto) HL ltac:(auto) ltac:(cbn [sp_calls]; lia) ltac:(cbn [sp_nf]; lia) HO2 H) as (pairs & outs & saids & G1 & G2 & G3 & G4 & G5 & G6 & G7).
    cbn [sp_folds] in G5.
    exists ((train, test) :: pairs), (o1 :: outs), ((fst (trainWithV E (rndf i) id train O) ++ match o1 with None => [LNoModel nf] | Some _ => [] end) :: saids).
    split; [simpl; lia|]. split; [simpl; lia|]. split; [simpl; lia|]. split.
    + rewrite G4, Hacc. change (somes (o1 :: outs)) with ((match o1 with Some a => [a] | None => [] end) ++ somes outs). rewrite fold_left_app.
      f_equal. unfold somes. simpl. rewrite app_nil_r. reflexivity.
    + split; [|split].
      * intros [|k] p o Hk Ho.
        -- injection Hk as <-. injection Ho as <-. rewrite Nat.add_0_r. subst i. auto.
        -- replace (i + S k)%nat with (S i + k)%nat by lia. apply G5; auto.
      * intros [|k] p o said Hk Ho Hs.
        -- injection Hk as <-. injection Ho as <-. injection Hs as <-. rewrite Nat.add_0_r. unfold foldSays. reflexivity.
        -- replace (i + S k)%nat with (S i + k)%nat by lia. apply G6; auto.
      * cbn [concat]. rewrite G7, <- app_assoc. reflexivity.
Qed.
End Loop.

Lemma c158_lemma {K} E fuel ints rndf id (D : DataBunch K) nfold O conc r : validInts (Z.of_nat (length (Data D))) ints -> length (Labels D) = length (Data D) ->
  snd (MultiClassCrossValidationV E fuel ints rndf id D nfold O conc) = Ok r ->
  let out := fst (MultiClassCrossValidationV E fuel ints rndf id D nfold O conc) in
  let n := Nat.min (requested nfold) (length (Data D) / 2) in
  if cv_err r then out = []
  else exists folds pairs outs saids, goodFolds (length (Data D)) n folds /\ length pairs = n /\ length outs = n /\ length saids = n /\
    (forall i p o, nth_error pairs i = Some p -> nth_error outs i = Some o -> foldPair D folds i p /\ foldOutcome E (rndf i) id O p o) /\
    cv_acc r = fdiv (fold_left fadd (somes outs) fzero) (fofZ (Z.of_nat n)) /\
    (forall i p o said, nth_error pairs i = Some p -> nth_error outs i = Some o -> nth_error saids i = Some said -> foldSays E n (rndf i) id O p o said) /\
    out = (if Nat.ltb n (requested nfold) then [LFewer n (length (Data D)) (fewerText (S n) (Z.of_nat (length (Data D))) (downTo (requested nfold) (S n)))] else []) ++ concat saids.
Proof.
  intros HV HL H. cbv zeta. unfold MultiClassCrossValidationV in *. apply lift_Ok in H as ([[[n so] err] msg] & HC & H & HF). rewrite HF. clear HF.
  rewrite CVSV_eq in HC. apply bind_Ok in HC as ([[n1 so1] e1] & HC & Hm). injection Hm as <- <- <- <-.
  apply CVS_inv in HC as (HT & HC); auto. unfold foldsUsed in HC.
  destruct HC as [(H1 & -> & -> & ->)|(H1 & -> & -> & s & -> & E1 & E2 & E3 & HG)].
  - cbn in H. injection H as <-. reflexivity.
  - set (n := Nat.min (requested nfold) (length (Data D) / 2)) in *. assert (HZ : Nat.eqb n 0 = false) by (apply Nat.eqb_neq; lia).
    rewrite HZ, andb_false_r in *. rewrite say_eq in *. cbn [fst snd] in *. unfold msgOf. rewrite HZ. cbn [negb]. rewrite andb_true_r.
    apply wbind_Ok in H as ([accus O'] & Hl & H & HF). rewrite HF. clear HF. injection H as <-. cbn [cv_err cv_acc lift fst]. rewrite app_nil_r.
    destruct (cvLoopV_says E D rndf id n O n 0%nat s O fzero (accus, O')) as (pairs & outs & saids & G1 & G2 & G3 & G4 & G5 & G6 & G7); auto; [rewrite E2; auto|].
    exists (sp_folds s), pairs, outs, saids. split; [auto|]. split; [auto|]. split; [auto|]. split; [auto|]. split; [auto|]. cbn [fst] in G4. split; [rewrite G4; auto|]. split; [auto|].
    rewrite G7. destruct (Nat.ltb n (requested nfold)); reflexivity.
Qed.
