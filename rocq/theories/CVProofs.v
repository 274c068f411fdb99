(** Proofs about cross-validation (C48-C54, C84). *)
From Coq Require Import Reals Lra.
From Flocq Require Import Core.
From Verif Require Import Base F64 F64Lemmas Env EnvLemmas Utils Tree Options Train Spec SpecTrain UtilsThms UtilsProofs ActProofs TrainThms TrainMore CV SpecCV.
Open Scope Z_scope.

Lemma isInPrevious_iff i fs : isInPrevious i fs = true <-> In i (concat fs).
Proof.
  unfold isInPrevious. rewrite existsb_exists, in_concat. split; intros (l & H1 & H2); exists l; split; auto; apply contains_iff; auto.
Qed.

(** *** fold number *)
Lemma adjust_spec tot nf : 2 <= tot -> (1 <= nf)%nat -> adjustFolds tot nf = Ok (Nat.min nf (Z.to_nat (tot / 2))).
Proof.
  intros HT. induction nf as [|k IH]; intros H; [lia|]. cbn [adjustFolds].
  destruct (Z.ltb_spec (tot / Z.of_nat (S k)) 2) as [HL|HL].
  - destruct k as [|k]; [change (Z.of_nat 1) with 1 in HL; rewrite Z.div_1_r in HL; lia|].
    rewrite IH by lia. f_equal. assert (tot / 2 <= Z.of_nat (S k)); [|lia].
    assert (tot / 2 < Z.of_nat (S (S k))); [|lia]. apply Z.div_lt_upper_bound; [lia|].
    apply Z.nle_gt. intros HC. assert (2 <= tot / Z.of_nat (S (S k))); [|lia]. apply Z.div_le_lower_bound; lia.
  - f_equal. assert (Z.of_nat (S k) <= tot / 2); [|lia].
    apply Z.div_le_lower_bound; [lia|]. pose proof (Z.mul_div_le tot (Z.of_nat (S k)) ltac:(lia)). nia.
Qed.
Lemma adjust_small tot nf : 0 <= tot < 2 -> adjustFolds tot nf = Panic.
Proof.
  intros HT. induction nf as [|k IH]; cbn [adjustFolds]; auto.
  destruct (Z.ltb_spec (tot / Z.of_nat (S k)) 2) as [HL|HL]; auto.
  assert (tot / Z.of_nat (S k) <= tot / 1) by (apply Z.div_le_compat_l; lia). rewrite Z.div_1_r in *. lia.
Qed.

(** *** drawing *)
Definition snocAt (folds : list (list Z)) (i : nat) (x : Z) : list (list Z) := upd_nat folds i (nth i folds [] ++ [x]).
Lemma snocAt_perm folds : forall i x, (i < length folds)%nat -> Permutation (concat (snocAt folds i x)) (x :: concat folds).
Proof.
  unfold snocAt. induction folds as [|f folds IH]; intros [|i] x H; simpl in *; try lia.
  - rewrite <- app_assoc. simpl. symmetry. apply Permutation_middle.
  - etransitivity; [apply Permutation_app_head, IH; lia|]. symmetry. apply Permutation_middle.
Qed.
Lemma snocAt_length folds i x : length (snocAt folds i x) = length folds.
Proof. apply upd_nat_length. Qed.
Lemma snocAt_nth folds i x k : (i < length folds)%nat -> nth k (snocAt folds i x) [] = if Nat.eqb k i then nth i folds [] ++ [x] else nth k folds [].
Proof.
  intros H. unfold snocAt. pose proof (upd_nat_nth folds i (nth i folds [] ++ [x]) k) as HN.
  replace (Nat.ltb i (length folds)) with true in HN by (symmetry; apply Nat.ltb_lt; auto).
  destruct (Nat.eqb_spec k i).
  - apply nth_error_nth. auto.
  - destruct (nth_error folds k) eqn:E.
    + rewrite (nth_error_nth _ _ [] HN), (nth_error_nth _ _ [] E). auto.
    + rewrite !nth_overflow; auto; [apply nth_error_None; auto|apply nth_error_None; auto].
Qed.

Lemma drawUnused_Ok fuel ints : forall p folds n p', drawUnused fuel ints p folds = Ok (n, p') ->
  ~ In n (concat folds) /\ (p < p')%nat /\ n = ints (Nat.pred p').
Proof.
  induction fuel as [|f IH]; intros p folds n p' H; [discriminate H|]. cbn [drawUnused] in H.
  destruct (isInPrevious (ints p) folds) eqn:E.
  - apply IH in H as (H1 & H2 & H3). split; [auto|]. split; [lia|auto].
  - injection H as <- <-. split; [|split; [lia|auto]]. intros HI. apply isInPrevious_iff in HI. congruence.
Qed.

Definition goodPart (tot : Z) (folds : list (list Z)) : Prop := NoDup (concat folds) /\ forall x, In x (concat folds) -> 0 <= x < tot.
Lemma goodPart_snoc tot folds i x : goodPart tot folds -> (i < length folds)%nat -> ~ In x (concat folds) -> 0 <= x < tot -> goodPart tot (snocAt folds i x).
Proof.
  intros [H1 H2] Hi Hx Hr. pose proof (snocAt_perm folds i x Hi) as HP. split.
  - eapply Permutation_NoDup; [symmetry; exact HP|]. constructor; auto.
  - intros y Hy. apply (Permutation_in _ HP) in Hy as [<-|Hy]; auto.
Qed.

Lemma drawFolds_Ok fuel ints tot plan : forall p folds folds', validInts tot ints -> drawFolds fuel ints plan p folds = Ok folds' ->
  (forall i, In i plan -> (i < length folds)%nat) -> goodPart tot folds ->
  goodPart tot folds' /\ length folds' = length folds /\
  forall k, length (nth k folds' []) = (length (nth k folds []) + count_occ Nat.eq_dec plan k)%nat.
Proof.
  induction plan as [|i plan IH]; intros p folds folds' HV H HI HG; cbn [drawFolds] in H.
  - injection H as <-. split; [auto|]. split; [auto|]. intros k. simpl. lia.
  - apply bind_Ok in H as ([n p'] & Hd & H). apply drawUnused_Ok in Hd as (Hn & _ & ->).
    assert (Hi : (i < length folds)%nat) by (apply HI; left; auto).
    apply (IH p' (snocAt folds i (ints (Nat.pred p')))) in H as (H1 & H2 & H3); auto.
    + rewrite snocAt_length in H2. split; [auto|]. split; [auto|]. intros k. rewrite H3, snocAt_nth by auto. cbn [count_occ].
      destruct (Nat.eqb_spec k i) as [->|Hne].
      * rewrite app_length. simpl. destruct (Nat.eq_dec i i); [lia|congruence].
      * destruct (Nat.eq_dec i k); [congruence|lia].
    + intros j Hj. rewrite snocAt_length. apply HI. right. auto.
    + apply goodPart_snoc; auto.
Qed.

Lemma plan_count nf ns k : forall s, count_occ Nat.eq_dec (flat_map (fun i => repeat i ns) (seq s nf)) k = if (s <=? k)%nat && (k <? s + nf)%nat then ns else 0%nat.
Proof.
  induction nf as [|nf IH]; intros s; cbn [seq flat_map].
  - simpl. destruct (Nat.leb_spec s k), (Nat.ltb_spec k (s + 0)); simpl; auto; lia.
  - rewrite count_occ_app, IH.
    assert (HR : forall n, count_occ Nat.eq_dec (repeat s n) k = if Nat.eqb s k then n else 0%nat).
    { intros n. destruct (Nat.eqb_spec s k); [subst; apply count_occ_repeat_eq; auto|apply count_occ_repeat_neq; auto]. }
    rewrite HR. destruct (Nat.eqb_spec s k), (Nat.leb_spec (S s) k), (Nat.ltb_spec k (S s + nf)), (Nat.leb_spec s k), (Nat.ltb_spec k (s + S nf)); simpl; lia.
Qed.
Lemma plan_In nf ns i : In i (foldPlan nf ns) -> (i < nf)%nat.
Proof. unfold foldPlan. intros H. apply in_flat_map in H as (j & Hj & Hi). apply repeat_spec in Hi as ->. apply in_seq in Hj. lia. Qed.
Lemma plan_length nf ns : length (foldPlan nf ns) = (nf * ns)%nat.
Proof. unfold foldPlan. generalize 0%nat. induction nf as [|nf IH]; intros s; simpl; auto. rewrite app_length, repeat_length, IH. auto. Qed.

(** *** the left-over samples *)
Lemma fill_step tot m l : forall fs, length fs = S m -> goodPart tot fs -> (forall i, In i l -> 0 <= i < tot) ->
  exists fs', foldM (fun fs i => if isInPrevious i fs then Ok fs else l <- idx fs (Z.of_nat m) ;; upd fs (Z.of_nat m) (l ++ [i])) fs l = Ok fs' /\
    length fs' = S m /\ goodPart tot fs' /\ (forall i, In i l -> In i (concat fs')) /\ (forall i, In i (concat fs) -> In i (concat fs')) /\
    forall k, (k < m)%nat -> nth k fs' [] = nth k fs [].
Proof.
  induction l as [|i l IH]; intros fs HL HG HR; cbn [foldM].
  - exists fs. repeat (split; [auto; fail|]). split; [intros i []|]. auto.
  - destruct (isInPrevious i fs) eqn:E; cbn [bind].
    + destruct (IH fs HL HG) as (fs' & H1 & H2 & H3 & H4 & H5 & H6); [intros; apply HR; right; auto|].
      exists fs'. split; [auto|]. split; [auto|]. split; [auto|]. split; [|auto]. intros j [<-|Hj]; auto. apply H5, isInPrevious_iff. auto.
    + assert (Hm : nth_error fs m = Some (nth m fs [])) by (apply nth_error_nth'; lia).
      rewrite (proj2 (idx_of_nat _ _ _) Hm). cbn [bind].
      assert (HU : upd fs (Z.of_nat m) (nth m fs [] ++ [i]) = Ok (snocAt fs m i)) by (apply upd_Ok; rewrite Nat2Z.id; split; [lia|reflexivity]).
      rewrite HU. cbn [bind].
      assert (Hi : ~ In i (concat fs)) by (intros HI; apply isInPrevious_iff in HI; congruence).
      assert (HP := snocAt_perm fs m i ltac:(lia)).
      destruct (IH (snocAt fs m i)) as (fs' & H1 & H2 & H3 & H4 & H5 & H6).
      * rewrite snocAt_length. auto.
      * apply goodPart_snoc; auto; [lia|apply HR; left; auto].
      * intros; apply HR; right; auto.
      * exists fs'. split; [auto|]. split; [auto|]. split; [auto|]. split; [|split].
        -- intros j [<-|Hj]; auto. apply H5. apply (Permutation_in _ (Permutation_sym HP)). left; auto.
        -- intros j Hj. apply H5. apply (Permutation_in _ (Permutation_sym HP)). right; auto.
        -- intros k Hk. rewrite H6 by auto. rewrite snocAt_nth by lia. destruct (Nat.eqb_spec k m); [lia|auto].
Qed.

Lemma In_indices n x : In x (indices n) <-> 0 <= x < Z.of_nat n.
Proof.
  unfold indices. rewrite in_map_iff. split.
  - intros (i & <- & Hi). apply in_seq in Hi. lia.
  - intros H. exists (Z.to_nat x). split; [lia|]. apply in_seq. lia.
Qed.
Lemma NoDup_indices n : NoDup (indices n).
Proof. unfold indices. apply FinFun.Injective_map_NoDup; [intros a b; lia|apply seq_NoDup]. Qed.
Lemma concat_length_sum (fs : list (list Z)) q m : length fs = S m -> (forall k, (k < m)%nat -> length (nth k fs []) = q) ->
  length (concat fs) = (m * q + length (nth m fs []))%nat.
Proof.
  revert fs; induction m as [|m IH]; intros fs HL HQ; destruct fs as [|f fs]; try discriminate HL.
  - destruct fs; [|discriminate HL]. simpl. rewrite app_nil_r. auto.
  - simpl in HL. cbn [concat]. rewrite app_length, (IH fs) by (try lia; intros k Hk; apply (HQ (S k)); lia).
    pose proof (HQ 0%nat ltac:(lia)) as H0. simpl in H0. cbn [nth]. lia.
Qed.

Section CVS.
Context {K : Type} (D : DataBunch K).
Let tot := length (Data D).

Lemma requested_pos nfold : (1 <= requested nfold)%nat.
Proof. unfold requested. destruct (Z.ltb_spec 0 nfold); lia. Qed.
Definition foldsUsed (nfold : Z) : nat := Nat.min (requested nfold) (tot / 2).

Lemma adjust_used nfold : (2 <= tot)%nat -> adjustFolds (Z.of_nat tot) (requested nfold) = Ok (foldsUsed nfold).
Proof.
  intros H. rewrite adjust_spec; [|lia|apply requested_pos]. unfold foldsUsed. do 2 f_equal. change 2 with (Z.of_nat 2). rewrite <- Nat2Z.inj_div, Nat2Z.id. auto.
Qed.

Lemma CVS_inv fuel ints nfold n so e : validInts (Z.of_nat tot) ints -> CrossValidationSamples fuel ints D nfold = Ok (n, so, e) ->
  (2 <= tot)%nat /\ ((foldsUsed nfold < 2)%nat /\ n = 0%nat /\ so = None /\ e = true \/
    (2 <= foldsUsed nfold)%nat /\ n = foldsUsed nfold /\ e = (foldsUsed nfold <? requested nfold)%nat /\
    exists s, so = Some s /\ sp_data s = D /\ sp_nf s = n /\ sp_calls s = 0%nat /\ goodFolds tot n (sp_folds s)).
Proof.
  intros HV H. unfold CrossValidationSamples in H. fold (requested nfold) in H. fold tot in H.
  apply bind_Ok in H as (nf & Hnf & H).
  assert (HT : (2 <= tot)%nat).
  { destruct (Nat.le_gt_cases 2 tot); auto. rewrite adjust_small in Hnf by lia. discriminate Hnf. }
  split; [auto|]. rewrite adjust_used in Hnf by auto. injection Hnf as <-. destruct (Nat.ltb_spec (foldsUsed nfold) 2) as [HL|HL].
  - injection H as <- <- <-. left. auto.
  - right. split; [auto|]. apply bind_Ok in H as (folds & Hd & H). apply bind_Ok in H as (folds' & Hf & H). injection H as <- <- <-.
    split; [auto|]. split; [auto|]. eexists. split; [reflexivity|]. cbn [sp_data sp_nf sp_calls sp_folds]. repeat (split; [auto; fail|]).
    set (nf := foldsUsed nfold) in *.
    assert (Hnat : Z.to_nat (Z.of_nat tot / Z.of_nat nf) = (tot / nf)%nat) by (rewrite <- Nat2Z.inj_div, Nat2Z.id; auto). rewrite Hnat in Hd.
    assert (HC0 : concat (repeat ([] : list Z) nf) = []) by (clear; induction nf; simpl; auto).
    apply (drawFolds_Ok _ _ (Z.of_nat tot)) in Hd as (G1 & G2 & G3); auto.
    + rewrite repeat_length in G2. destruct nf as [|m]; [lia|].
      assert (G3' : forall k, (k < S m)%nat -> length (nth k folds []) = (tot / S m)%nat).
      { intros k Hk. rewrite G3, nth_repeat. unfold foldPlan. rewrite plan_count. simpl length.
        destruct (Nat.leb_spec 0 k), (Nat.ltb_spec k (0 + S m)); simpl; lia. }
      unfold fillRemaining in Hf. rewrite G2, Nat2Z.id in Hf. replace (Z.of_nat (S m) - 1) with (Z.of_nat m) in Hf by lia.
      destruct (fill_step (Z.of_nat tot) m (indices tot) folds G2 G1) as (fs' & E1 & E2 & [E3 E3'] & E4 & _ & E6); [intros i Hi; apply In_indices; auto|].
      unfold indices in E1. assert (folds' = fs') by congruence. subst fs'.
      assert (HP : Permutation (concat folds') (indices tot)).
      { apply NoDup_Permutation; [auto|apply NoDup_indices|]. intros x. split; [intros Hx; apply In_indices; auto|auto]. }
      split; [auto|]. split; [auto|]. replace (S m - 1)%nat with m by lia. split.
      * intros k f Hk Hlt. apply (nth_error_nth _ _ []) in Hk. rewrite <- Hk, E6 by auto. apply G3'. lia.
      * intros f Hk. apply (nth_error_nth _ _ []) in Hk.
        assert (HS := concat_length_sum folds' (tot / S m) m E2 ltac:(intros k Hk'; rewrite E6 by auto; apply G3'; lia)).
        rewrite (Permutation_length HP) in HS. unfold indices in HS. rewrite map_length, seq_length, Hk in HS.
        pose proof (Nat.div_mod tot (S m) ltac:(lia)). nia.
    + intros i Hi. apply plan_In in Hi. rewrite repeat_length. auto.
    + unfold goodPart. rewrite HC0. split; [constructor|intros x []].
Qed.

Lemma fill_rows ix : (length (Labels D) = tot) -> (forall i, In i ix -> 0 <= i < Z.of_nat tot) ->
  fillRows D ix = Ok (rowsAt (Data D) ix, labelsAt (Labels D) ix).
Proof.
  intros HL. induction ix as [|v ix IH]; intros HR; [reflexivity|]. cbn [fillRows].
  assert (Hv : 0 <= v < Z.of_nat tot) by (apply HR; left; auto).
  assert (HD : nth_error (Data D) (Z.to_nat v) = Some (nth (Z.to_nat v) (Data D) [])) by (apply nth_error_nth'; fold tot; lia).
  assert (HLb : nth_error (Labels D) (Z.to_nat v) = Some (nth (Z.to_nat v) (Labels D) 0)) by (apply nth_error_nth'; lia).
  rewrite (proj2 (idx_Ok _ _ _) (conj (proj1 Hv) HD)). cbn [bind].
  destruct (Z.ltb_spec v (Z.of_nat (length (Labels D)))); [|lia].
  rewrite (proj2 (idx_Ok _ _ _) (conj (proj1 Hv) HLb)). cbn [bind]. rewrite IH by (intros; apply HR; right; auto). reflexivity.
Qed.

Lemma others_perm folds : forall i c f, nth_error folds c = Some f -> Permutation (othersFrom i (i + c) folds ++ f) (concat folds).
Proof.
  assert (HN : forall folds i c, (c < i)%nat -> othersFrom i c folds = concat folds).
  { clear. intros fl. induction fl as [|g fl IH]; intros i c H; cbn [othersFrom concat]; auto. destruct (Nat.eqb_spec i c); [lia|]. rewrite IH by lia. auto. }
  induction folds as [|g folds IH]; intros i [|c] f H; try discriminate H; cbn [othersFrom concat].
  - injection H as ->. rewrite Nat.add_0_r, Nat.eqb_refl, HN by lia. simpl. apply Permutation_app_comm.
  - destruct (Nat.eqb_spec i (i + S c)); [lia|]. simpl in H. specialize (IH (S i) c f H). replace (i + S c)%nat with (S i + c)%nat by lia.
    rewrite <- app_assoc. apply Permutation_app_head. auto.
Qed.

(** *** the sampler *)
Lemma call_Some s : sp_data s = D -> length (Labels D) = tot -> goodFolds tot (sp_nf s) (sp_folds s) -> (sp_calls s < sp_nf s)%nat ->
  exists p, callSampler s = Ok (Some p, MkSampler D (sp_folds s) (sp_nf s) (S (sp_calls s))) /\ foldPair D (sp_folds s) (sp_calls s) p.
Proof.
  intros HD HL (G1 & G2 & _) Hc. unfold callSampler. destruct (Nat.leb_spec (sp_nf s) (sp_calls s)); [lia|].
  destruct (nth_error (sp_folds s) (sp_calls s)) as [te|] eqn:Et; [|apply nth_error_None in Et; lia].
  rewrite (proj2 (idx_of_nat _ _ _) Et). cbn [bind]. pose proof (others_perm (sp_folds s) 0 (sp_calls s) te Et) as HP. simpl in HP.
  set (tr := othersFrom 0 (sp_calls s) (sp_folds s)) in *.
  assert (HR : forall x, In x (tr ++ te) -> 0 <= x < Z.of_nat tot).
  { intros x Hx. apply In_indices. apply (Permutation_in _ G2). apply (Permutation_in _ HP). auto. }
  unfold fillDataBunch. rewrite HD. rewrite fill_rows by (auto; intros; apply HR, in_app_iff; auto). cbn [bind].
  rewrite fill_rows by (auto; intros; apply HR, in_app_iff; auto). cbn [bind]. eexists. split; [reflexivity|].
  exists te, tr. cbn [fst snd]. split; [auto|]. split; [etransitivity; eauto|auto].
Qed.
Lemma calls_spec k : forall s, sp_data s = D -> length (Labels D) = tot -> goodFolds tot (sp_nf s) (sp_folds s) ->
  exists outs, callsOf s k = Ok outs /\ length outs = k /\
    forall i o, nth_error outs i = Some o -> ((sp_calls s + i < sp_nf s)%nat -> exists p, o = Some p /\ foldPair D (sp_folds s) (sp_calls s + i) p) /\
      ((sp_nf s <= sp_calls s + i)%nat -> o = None).
Proof.
  induction k as [|k IH]; intros s HD HL HG; cbn [callsOf].
  - exists []. split; [auto|]. split; [auto|]. intros [|i] o H; discriminate H.
  - destruct (Nat.lt_ge_cases (sp_calls s) (sp_nf s)) as [Hlt|Hge].
    + destruct (call_Some s HD HL HG Hlt) as (p & -> & Hp). cbn [bind].
      destruct (IH (MkSampler D (sp_folds s) (sp_nf s) (S (sp_calls s)))) as (outs & -> & H2 & H3); auto. cbn [bind].
      exists (Some p :: outs). split; [auto|]. split; [simpl; lia|]. cbn [sp_calls sp_nf sp_folds] in H3. intros [|i] o Hi.
      * injection Hi as <-. rewrite Nat.add_0_r. split; [eauto|lia].
      * replace (sp_calls s + S i)%nat with (S (sp_calls s) + i)%nat by lia. apply H3. auto.
    + unfold callSampler at 1. destruct (Nat.leb_spec (sp_nf s) (sp_calls s)); [|lia]. cbn [bind].
      destruct (IH s HD HL HG) as (outs & -> & H2 & H3). cbn [bind]. exists (None :: outs). split; [auto|]. split; [simpl; lia|].
      intros [|i] o Hi.
      * injection Hi as <-. split; [lia|auto].
      * split; [lia|]. intros _. apply (H3 i); auto. lia.
Qed.

(** *** termination of the drawing *)
Lemma drawUnused_mono ints : forall fuel fuel' p folds r, (fuel <= fuel')%nat -> drawUnused fuel ints p folds = Ok r -> drawUnused fuel' ints p folds = Ok r.
Proof.
  induction fuel as [|f IH]; intros [|f'] p folds r Hle H; try discriminate H; [lia|]. cbn [drawUnused] in *.
  destruct (isInPrevious _ _); auto. apply IH; auto. lia.
Qed.
Lemma drawFolds_mono ints plan : forall fuel fuel' p folds r, (fuel <= fuel')%nat -> drawFolds fuel ints plan p folds = Ok r -> drawFolds fuel' ints plan p folds = Ok r.
Proof.
  induction plan as [|i plan IH]; intros fuel fuel' p folds r Hle H; cbn [drawFolds] in *; auto.
  apply bind_Ok in H as ([n p'] & Hd & H). rewrite (drawUnused_mono ints fuel fuel' p folds (n, p') Hle Hd). cbn [bind]. eapply IH; eauto.
Qed.
Lemma unused_exists folds n : goodPart (Z.of_nat n) folds -> (length (concat folds) < n)%nat -> exists x, 0 <= x < Z.of_nat n /\ ~ In x (concat folds).
Proof.
  intros [HN HR] HL.
  destruct (List.Exists_dec (fun x => ~ In x (concat folds)) (indices n)) as [H|H].
  - intros x. destruct (in_dec Z.eq_dec x (concat folds)); [right|left]; auto.
  - apply Exists_exists in H as (x & Hx & Hn). exists x. split; [apply In_indices; auto|auto].
  - exfalso. assert (HI : incl (indices n) (concat folds)).
    { intros x Hx. destruct (in_dec Z.eq_dec x (concat folds)); auto. exfalso. apply H. apply Exists_exists. eauto. }
    pose proof (NoDup_incl_length (NoDup_indices n) HI) as HH. unfold indices in HH. rewrite map_length, seq_length in HH. lia.
Qed.
Lemma drawUnused_found ints folds : forall d p, ~ In (ints (p + d)%nat) (concat folds) -> exists r, drawUnused (S d) ints p folds = Ok r.
Proof.
  induction d as [|d IH]; intros p H; cbn [drawUnused].
  - rewrite Nat.add_0_r in H. destruct (isInPrevious (ints p) folds) eqn:E; [apply isInPrevious_iff in E; tauto|eauto].
  - destruct (isInPrevious (ints p) folds) eqn:E; [|eauto]. apply IH. replace (S p + d)%nat with (p + S d)%nat by lia. auto.
Qed.
Lemma drawFolds_terminates ints n plan : validInts (Z.of_nat n) ints -> fairInts (Z.of_nat n) ints -> forall p folds, goodPart (Z.of_nat n) folds ->
  (forall i, In i plan -> (i < length folds)%nat) -> (length (concat folds) + length plan <= n)%nat ->
  exists fuel r, drawFolds fuel ints plan p folds = Ok r.
Proof.
  intros HV HF. induction plan as [|i plan IH]; intros p folds HG HI HL; cbn [drawFolds].
  - exists 0%nat. eauto.
  - simpl in HL. destruct (unused_exists folds n HG ltac:(lia)) as (x & Hx & Hn). destruct (HF x Hx p) as (q & Hq & <-).
    destruct (drawUnused_found ints folds (q - p) p) as ([y p'] & Hd); [replace (p + (q - p))%nat with q by lia; auto|].
    pose proof (drawUnused_Ok _ _ _ _ _ _ Hd) as (Hy & _ & Ey).
    assert (Hi : (i < length folds)%nat) by (apply HI; left; auto).
    destruct (IH p' (snocAt folds i y)) as (f2 & r & Hr).
    + apply goodPart_snoc; auto. rewrite Ey. apply HV.
    + intros j Hj. rewrite snocAt_length. apply HI. right; auto.
    + rewrite (Permutation_length (snocAt_perm folds i y Hi)). simpl. lia.
    + exists (Nat.max (S (q - p)) f2), r. rewrite (drawUnused_mono ints (S (q - p)) _ p folds (y, p') (Nat.le_max_l _ f2) Hd). cbn [bind].
      eapply drawFolds_mono; [|exact Hr]. lia.
Qed.

Lemma CVS_terminates ints nfold : (2 <= tot)%nat -> validInts (Z.of_nat tot) ints -> fairInts (Z.of_nat tot) ints ->
  exists fuel r, CrossValidationSamples fuel ints D nfold = Ok r.
Proof.
  intros HT HV HF. unfold CrossValidationSamples. fold (requested nfold). fold tot. rewrite adjust_used by auto. cbn [bind].
  destruct (Nat.ltb_spec (foldsUsed nfold) 2) as [HL|HL]; [exists 0%nat; eauto|].
  set (nf := foldsUsed nfold) in *.
  assert (Hnat : Z.to_nat (Z.of_nat tot / Z.of_nat nf) = (tot / nf)%nat) by (rewrite <- Nat2Z.inj_div, Nat2Z.id; auto). rewrite Hnat.
  assert (HC0 : concat (repeat ([] : list Z) nf) = []) by (clear; induction nf; simpl; auto).
  assert (HG0 : goodPart (Z.of_nat tot) (repeat [] nf)) by (unfold goodPart; rewrite HC0; split; [constructor|intros x []]).
  destruct (drawFolds_terminates ints tot (foldPlan nf (tot / nf)) HV HF 0 (repeat [] nf) HG0) as (fuel & folds & Hd).
  - intros i Hi. apply plan_In in Hi. rewrite repeat_length. auto.
  - rewrite HC0, plan_length. simpl. apply Nat.mul_div_le. lia.
  - exists fuel. rewrite Hd. cbn [bind].
    apply (drawFolds_Ok _ _ (Z.of_nat tot)) in Hd as (G1 & G2 & _); auto.
    + rewrite repeat_length in G2. unfold fillRemaining. rewrite G2. clearbody nf. destruct nf as [|m]; [lia|]. replace (Z.of_nat (S m) - 1) with (Z.of_nat m) by lia.
      destruct (fill_step (Z.of_nat tot) m (indices tot) folds G2 G1) as (fs' & E1 & _); [intros i Hi; apply In_indices; auto|].
      rewrite Nat2Z.id. unfold indices in E1. rewrite E1. cbn [bind]. eauto.
    + intros i Hi. apply plan_In in Hi. rewrite repeat_length. auto.
Qed.
End CVS.

Lemma fixMCW_idem O : fixMCW (fixMCW O) = fixMCW O.
Proof.
  assert (H : (if fltb (if fltb (o_mcw O) fone then fone else o_mcw O) fone then fone else if fltb (o_mcw O) fone then fone else o_mcw O) =
              (if fltb (o_mcw O) fone then fone else o_mcw O)).
  { destruct (fltb (o_mcw O) fone) eqn:E; [|rewrite E; auto]. destruct (fltb fone fone); auto. }
  unfold fixMCW. cbn [o_xgb o_rounds o_maxdepth o_earlystop o_lr o_lambda o_mcw o_gamma o_ss o_css o_base o_minsample o_method o_verbose o_loss].
  rewrite H. reflexivity.
Qed.
Lemma train_fix {K} E rnd (D : DataBunch K) O : NewMultiClass E rnd D (fixMCW O) = NewMultiClass E rnd D O.
Proof. unfold NewMultiClass. rewrite fixMCW_idem. reflexivity. Qed.
Lemma trainWith_fix {K} E rnd id (D : DataBunch K) O O' : option_map fixMCW O = option_map fixMCW O' -> trainWith E rnd id D O = trainWith E rnd id D O'.
Proof.
  unfold trainWith. destruct O as [o|], O' as [o'|]; simpl; intros H; try discriminate H; auto.
  assert (HH : fixMCW o = fixMCW o') by congruence. clear H. rewrite <- (train_fix E rnd D o), <- (train_fix E rnd D o'). f_equal. assumption.
Qed.
Lemma train_opts {K} E rnd (D : DataBunch K) O tr : NewMultiClass E rnd D O = Ok tr -> tr_opts tr = fixMCW O.
Proof. intros H. apply NewMultiClass_inv in H as (H & _). exact H. Qed.

Section Loop.
Context {K : Type} (E : Env) (D : DataBunch K) (rndf : nat -> draws) (id : Z).
Let tot := length (Data D).

Lemma cvLoop_spec O : forall n i s Oc accus accus' O', sp_data s = D -> length (Labels D) = tot -> goodFolds tot (sp_nf s) (sp_folds s) ->
  sp_calls s = i -> (i + n = sp_nf s)%nat -> option_map fixMCW Oc = option_map fixMCW O -> cvLoop E rndf id s Oc i n accus = Ok (accus', O') ->
  option_map fixMCW O' = option_map fixMCW O /\ (n <> 0%nat -> O' = option_map fixMCW O) /\
  exists pairs outs, length pairs = n /\ length outs = n /\ accus' = fold_left fadd (somes outs) accus /\
   (forall k p o, nth_error pairs k = Some p -> nth_error outs k = Some o -> foldPair D (sp_folds s) (i + k) p /\ foldOutcome E (rndf (i + k)%nat) id O p o).
Proof.
  induction n as [|n IH]; intros i s Oc accus accus' O' HD HL HG Hi Hn HO H; cbn [cvLoop] in H.
  - injection H as <- <-. split; [auto|]. split; [congruence|]. exists [], []. split; [auto|]. split; [auto|]. split; [auto|]. intros [|k] p o Hk; discriminate Hk.
  - destruct (call_Some D s HD HL HG ltac:(lia)) as ([train test] & Hc & Hp). rewrite Hc in H. cbn [bind] in H.
    apply bind_Ok in H as (tr & Htr & H). apply bind_Ok in H as (r & Hr & H).
    set (O1 := match Oc with Some _ => Some (tr_opts tr) | None => None end) in *.
    assert (HO1 : O1 = option_map fixMCW O).
    { unfold O1. destruct Oc as [oc|]; destruct O as [o|]; simpl in *; try discriminate HO; auto. apply train_opts in Htr. rewrite Htr. auto. }
    assert (HO2 : option_map fixMCW O1 = option_map fixMCW O) by (rewrite HO1; destruct O; simpl; rewrite ?fixMCW_idem; auto).
    assert (Htr' : trainWith E (rndf i) id train O = Ok tr) by (rewrite <- (trainWith_fix E (rndf i) id train Oc O HO); auto).
    assert (HX : exists acc1 o1, cvLoop E rndf id (MkSampler D (sp_folds s) (sp_nf s) (S (sp_calls s))) O1 (S i) n acc1 = Ok (accus', O') /\
       foldOutcome E (rndf i) id O (train, test) o1 /\ acc1 = fold_left fadd (somes [o1]) accus).
    { destruct (Z.leb_spec r 0) as [Hle|Hgt].
      - exists accus, None. split; [auto|]. split; [|reflexivity]. exists tr, r. auto.
      - apply bind_Ok in H as (a & Ha & H). exists (fadd accus a), (Some a). split; [auto|]. split; [|reflexivity]. exists tr, r. auto. }
    clear H. destruct HX as (acc1 & o1 & H & Hfo & Hacc).
    assert (HO' : O' = option_map fixMCW O).
    { destruct n as [|n]; [cbn [cvLoop] in H; injection H as _ <-; auto|]. apply IH in H; auto; [|cbn [sp_calls sp_nf]; lia ..]. destruct H as (_ & H & _). apply H. discriminate. }
    apply IH in H; auto; [|cbn [sp_calls sp_nf]; lia ..]. cbn [sp_folds] in H. destruct H as (G1 & G2 & pairs & outs & G3 & G4 & G5 & G6).
    split; [auto|]. split; [auto|].
    exists ((train, test) :: pairs), (o1 :: outs). split; [simpl; lia|]. split; [simpl; lia|]. split.
    + rewrite G5, Hacc. change (somes (o1 :: outs)) with ((match o1 with Some a => [a] | None => [] end) ++ somes outs). rewrite fold_left_app.
      f_equal. unfold somes. simpl. rewrite app_nil_r. reflexivity.
    + intros [|k] p o Hk Ho.
      * injection Hk as <-. injection Ho as <-. rewrite Nat.add_0_r. subst i. auto.
      * replace (i + S k)%nat with (S i + k)%nat by lia. apply G6; auto.
Qed.
End Loop.

Lemma somes_length {A} (l : list (option A)) : (length (somes l) <= length l)%nat.
Proof. unfold somes. induction l as [|[a|] l IH]; simpl; lia. Qed.
Lemma somes_In {A} (l : list (option A)) a : In a (somes l) -> In (Some a) l.
Proof. unfold somes. intros H. apply in_flat_map in H as ([b|] & Hb & Ha); [destruct Ha as [<-|[]]; auto|destruct Ha]. Qed.

(** a sum of [n] numbers between 0 and 100 *)
Definition pct (a : f64) : Prop := fleb fzero a = true /\ fleb a (fofZ 100) = true.
Lemma rnd_int n : Z.abs n < 2 ^ 53 -> rnd (IZR n) = IZR n.
Proof.
  intros H. unfold rnd. apply round_generic; [apply valid_rnd_N|].
  apply (FLT.generic_format_FLT radix2 (-1074) 53). exists (Float radix2 n 0); [unfold F2R; simpl; lra|exact H|simpl; lia].
Qed.
Lemma fofZ_exact n : 0 <= n < 2 ^ 53 -> ffinite (fofZ n) = true /\ B2R (fofZ n) = IZR n.
Proof.
  intros H. destruct (fofZ_bound n 53) as (H1 & _ & H2); [lia|lia|lia|]. split; auto. rewrite H2. apply rnd_int.
  rewrite Z.abs_eq; lia.
Qed.
Lemma pct_real a : pct a -> ffinite a = true /\ (0 <= B2R a <= 100)%R.
Proof.
  intros [H1 H2]. apply fleb_true in H1 as (_ & Hn & H1). apply fleb_true in H2 as (_ & _ & H2).
  destruct (fofZ_exact 100 ltac:(lia)) as [HF HR]. rewrite ext_fzero in H1. rewrite (ext_finite (fofZ 100)), HR in H2 by auto.
  assert (HM : (100 < Mx)%R).
  { unfold Mx. apply Rlt_trans with (bpow radix2 7); [simpl; lra|apply bpow_lt; lia]. }
  assert (Fa : ffinite a = true) by (apply finite_ext; auto; lra). rewrite ext_finite in H1, H2 by auto. auto.
Qed.
Lemma sum_pct l : forall acc m, Forall pct l -> 100 * (m + Z.of_nat (length l)) < 2 ^ 53 -> 0 <= m -> ffinite acc = true ->
  (0 <= B2R acc <= 100 * IZR m)%R ->
  ffinite (fold_left fadd l acc) = true /\ (0 <= B2R (fold_left fadd l acc) <= 100 * IZR (m + Z.of_nat (length l)))%R.
Proof.
  induction l as [|a l IH]; intros acc m HF HB Hm Ha HR.
  - simpl. rewrite Z.add_0_r. auto.
  - inversion HF as [|x y Hp HF']; subst. apply pct_real in Hp as [Fa Ra]. cbn [fold_left].
    cbn [length] in *. rewrite Nat2Z.inj_succ in *.
    destruct (fadd_ext acc a Ha Fa) as [Nn En].
    assert (HR' : (0 <= rnd (B2R acc + B2R a) <= 100 * IZR (m + 1))%R).
    { split; [apply rnd_ge_0; lra|]. replace (100 * IZR (m + 1))%R with (IZR (100 * (m + 1))) by (rewrite mult_IZR; auto).
      rewrite <- (rnd_int (100 * (m + 1))) by (rewrite Z.abs_eq; lia). apply rnd_mono. rewrite mult_IZR, plus_IZR. lra. }
    assert (HM : (100 * IZR (m + 1) < Mx)%R).
    { replace (100 * IZR (m + 1))%R with (IZR (100 * (m + 1))) by (rewrite mult_IZR; auto). apply Rlt_trans with (IZR (2 ^ 53)); [apply IZR_lt; lia|].
      unfold Mx. change (2 ^ 53) with (radix2 ^ 53). rewrite IZR_Zpower by lia. apply bpow_lt. lia. }
    rewrite clamp_id in En by lra.
    assert (Fs : ffinite (fadd acc a) = true) by (apply finite_ext; auto; rewrite En; lra). rewrite ext_finite in En by auto.
    replace (m + Z.succ (Z.of_nat (length l))) with ((m + 1) + Z.of_nat (length l)) by lia. apply IH; auto; try lia. rewrite En. auto.
Qed.
Lemma mean_pct l n : Forall pct l -> (length l <= n)%nat -> (1 <= n)%nat -> 100 * Z.of_nat n < 2 ^ 53 ->
  pct (fdiv (fold_left fadd l fzero) (fofZ (Z.of_nat n))).
Proof.
  intros HF HL Hn HB. destruct (sum_pct l fzero 0 HF) as [Fs Rs]; [lia|lia|reflexivity|simpl; lra|]. rewrite Z.add_0_l in Rs.
  destruct (fofZ_exact (Z.of_nat n) ltac:(lia)) as [Fn En]. set (s := fold_left fadd l fzero) in *.
  assert (Hn1 : (1 <= IZR (Z.of_nat n))%R) by (apply IZR_le; lia). assert (Hln : (IZR (Z.of_nat (length l)) <= IZR (Z.of_nat n))%R) by (apply IZR_le; lia).
  destruct (fdiv_ext s (fofZ (Z.of_nat n)) Fs Fn ltac:(lra)) as [Nq Eq]. rewrite En in Eq.
  assert (Hq : (0 <= rnd (B2R s / IZR (Z.of_nat n)) <= 100)%R).
  { split.
    - apply rnd_ge_0. apply Rmult_le_pos; [lra|]. apply Rlt_le, Rinv_0_lt_compat. lra.
    - rewrite <- (rnd_int 100) by (simpl; lia). apply rnd_mono. apply Rmult_le_reg_r with (IZR (Z.of_nat n)); [lra|]. unfold Rdiv. rewrite Rmult_assoc, Rinv_l; lra. }
  assert (HM : (100 < Mx)%R).
  { unfold Mx. apply Rlt_trans with (bpow radix2 7); [simpl; lra|apply bpow_lt; lia]. }
  rewrite clamp_id in Eq by lra. destruct (fofZ_exact 100 ltac:(lia)) as [HF1 HR1].
  split; apply fleb_true.
  - rewrite ext_fzero, Eq. split; [reflexivity|]. split; [auto|lra].
  - rewrite Eq, ext_finite, HR1 by auto. split; [auto|]. split; [apply finite_nnan; auto|lra].
Qed.

Lemma used_min tot nfold : (2 <= tot)%nat -> (2 <= Nat.min (requested nfold) (tot / 2))%nat -> (2 <= tot / Nat.min (requested nfold) (tot / 2))%nat.
Proof.
  intros HT H. set (n := Nat.min _ _) in *. apply Nat.div_le_lower_bound; [lia|]. assert (n <= tot / 2)%nat by (unfold n; lia).
  pose proof (Nat.div_mod tot 2 ltac:(lia)). nia.
Qed.
Lemma c48_lemma {K} fuel ints (D : DataBunch K) nfold n s e : validInts (Z.of_nat (length (Data D))) ints ->
  CrossValidationSamples fuel ints D nfold = Ok (n, Some s, e) -> goodFolds (length (Data D)) n (sp_folds s).
Proof.
  intros HV H. apply CVS_inv in H as (_ & [(_ & _ & HX & _)|(_ & _ & _ & s' & E & _ & _ & _ & HG)]); auto; [discriminate HX|]. injection E as ->. auto.
Qed.
Lemma c49_lemma {K} fuel ints (D : DataBunch K) nfold n s e k : validInts (Z.of_nat (length (Data D))) ints -> length (Labels D) = length (Data D) ->
  CrossValidationSamples fuel ints D nfold = Ok (n, Some s, e) ->
  exists outs, callsOf s k = Ok outs /\ length outs = k /\
    forall i o, nth_error outs i = Some o -> ((i < n)%nat -> exists p, o = Some p /\ foldPair D (sp_folds s) i p) /\ ((n <= i)%nat -> o = None).
Proof.
  intros HV HL H. apply CVS_inv in H as (_ & [(_ & _ & HX & _)|(_ & _ & _ & s' & E & E1 & E2 & E3 & HG)]); auto; [discriminate HX|].
  injection E as <-. rewrite <- E2 in HG. destruct (calls_spec D k s E1 HL HG) as (outs & H1 & H2 & H3). rewrite E2, E3 in H3. eauto.
Qed.
Lemma c51_lemma {K} fuel ints (D : DataBunch K) nfold n so e : validInts (Z.of_nat (length (Data D))) ints ->
  CrossValidationSamples fuel ints D nfold = Ok (n, so, e) ->
  let used := Nat.min (requested nfold) (length (Data D) / 2) in
  ((used < 2)%nat -> n = 0%nat /\ so = None /\ e = true) /\
  ((2 <= used)%nat -> n = used /\ (e = true <-> (n < requested nfold)%nat) /\ exists s, so = Some s /\ forall f, In f (sp_folds s) -> (2 <= length f)%nat).
Proof.
  intros HV H. apply CVS_inv in H as (HT & HC); auto. unfold foldsUsed in HC. cbv zeta. split; intros HU.
  - destruct HC as [(_ & HC)|(HC & _)]; [auto|lia].
  - destruct HC as [(HC & _)|(_ & -> & -> & s & -> & _ & _ & _ & HG)]; [lia|]. split; [auto|]. split; [apply Nat.ltb_lt|].
    exists s. split; auto. intros f Hf. destruct HG as (G1 & _ & G3 & G4). apply In_nth_error in Hf as (k & Hk).
    pose proof (used_min _ nfold HT HU) as HM.
    assert (k < length (sp_folds s))%nat by (apply nth_error_Some; congruence).
    destruct (Nat.eq_dec k (Nat.min (requested nfold) (length (Data D) / 2) - 1)) as [->|Hne]; [rewrite (G4 f Hk); lia|rewrite (G3 k f Hk); lia].
Qed.
Lemma c52_lemma {K} fuel ints (D : DataBunch K) nfold : (length (Data D) < 2)%nat -> CrossValidationSamples fuel ints D nfold = Panic.
Proof. intros H. unfold CrossValidationSamples. rewrite adjust_small by lia. reflexivity. Qed.
Lemma c54_lemma {K} E fuel ints rndf id (D : DataBunch K) nfold O conc r : validInts (Z.of_nat (length (Data D))) ints -> length (Labels D) = length (Data D) ->
  MultiClassCrossValidation E fuel ints rndf id D nfold O conc = Ok r ->
  let n := Nat.min (requested nfold) (length (Data D) / 2) in
  if cv_err r then (n < 2)%nat /\ cv_acc r = fzero /\ cv_opts r = O /\ cv_sent r = (if conc then [SErr true; SAcc (fofZ (-1)); SOpt None] else [])
  else (2 <= n)%nat /\ exists folds pairs outs, goodFolds (length (Data D)) n folds /\ length pairs = n /\ length outs = n /\
    (forall i p o, nth_error pairs i = Some p -> nth_error outs i = Some o -> foldPair D folds i p /\ foldOutcome E (rndf i) id O p o) /\
    cv_acc r = fdiv (fold_left fadd (somes outs) fzero) (fofZ (Z.of_nat n)) /\
    match O, cv_opts r with Some o, Some o' => raisedMCW o o' | None, None => True | _, _ => False end /\
    cv_sent r = (if conc then [SErr false; SAcc (cv_acc r); SOpt (cv_opts r)] else []).
Proof.
  intros HV HL H. cbv zeta. unfold MultiClassCrossValidation in H. apply bind_Ok in H as ([[n so] err] & HC & H).
  apply CVS_inv in HC as (HT & HC); auto. unfold foldsUsed in HC.
  destruct HC as [(H1 & -> & -> & ->)|(H1 & -> & -> & s & -> & E1 & E2 & E3 & HG)].
  - cbn in H. injection H as <-. cbn [cv_err cv_acc cv_opts cv_sent]. auto.
  - set (n := Nat.min (requested nfold) (length (Data D) / 2)) in *. replace (Nat.eqb n 0) with false in H by (symmetry; apply Nat.eqb_neq; lia).
    rewrite andb_false_r in H. apply bind_Ok in H as ([accus O'] & Hl & H). injection H as <-. cbn [cv_err cv_acc cv_opts cv_sent]. split; [auto|].
    apply (cvLoop_spec E D rndf id O) in Hl; auto; [|rewrite E2; auto].
    destruct Hl as (_ & HO & pairs & outs & P1 & P2 & P3 & P4). exists (sp_folds s), pairs, outs. split; [auto|]. split; [auto|]. split; [auto|]. split; [auto|].
    split; [rewrite P3; auto|]. split; [|auto]. rewrite (HO ltac:(lia)). destruct O as [o|]; simpl; auto. split; reflexivity.
Qed.
Lemma c84_lemma {K} E fuel ints rndf id (D : DataBunch K) nfold O conc r : validInts (Z.of_nat (length (Data D))) ints -> length (Labels D) = length (Data D) ->
  Z.of_nat (length (Data D)) < 2 ^ 46 -> MultiClassCrossValidation E fuel ints rndf id D nfold O conc = Ok r ->
  fleb fzero (cv_acc r) = true /\ fleb (cv_acc r) (fofZ 100) = true.
Proof.
  intros HV HL HB H. pose proof (c54_lemma E fuel ints rndf id D nfold O conc r HV HL H) as HC. cbv zeta in HC. destruct (cv_err r).
  - destruct HC as (_ & -> & _). split; vm_compute; reflexivity.
  - destruct HC as (Hn & folds & pairs & outs & HG & P1 & P2 & P3 & -> & _). set (n := Nat.min (requested nfold) (length (Data D) / 2)) in *.
    assert (HnT : (n <= length (Data D))%nat).
    { unfold n. etransitivity; [apply Nat.le_min_r|]. apply Nat.div_le_upper_bound; lia. }
    apply mean_pct; try lia; [|rewrite <- P2; apply somes_length].
    apply Forall_forall. intros a Ha. apply somes_In in Ha. apply In_nth_error in Ha as (i & Hi).
    assert (Hlt : (i < n)%nat) by (rewrite <- P2; apply nth_error_Some; congruence).
    destruct (nth_error pairs i) as [p|] eqn:Ep; [|apply nth_error_None in Ep; lia].
    destruct (P3 i p (Some a) Ep Hi) as [(te & tr & Q1 & Q2 & _ & Q3) (t & r0 & _ & _ & _ & HA)].
    apply c37_lemma in HA as (ps & _ & _ & _ & _ & HA).
    assert (HD : length (Data (snd p)) = length te) by (rewrite Q3; simpl; apply map_length).
    assert (HTe : (length te <= length (Data D))%nat).
    { pose proof (Permutation_length Q2) as HP. rewrite app_length in HP. unfold indices in HP. rewrite map_length, seq_length in HP. lia. }
    assert (2 <= length te)%nat.
    { destruct HG as (_ & _ & G3 & G4). assert (HT : (2 <= length (Data D))%nat) by lia. pose proof (used_min _ nfold HT Hn) as HM. fold n in HM.
      destruct (Nat.eq_dec i (n - 1)) as [->|Hne]; [rewrite (G4 te Q1); lia|rewrite (G3 i te Q1); lia]. }
    apply HA; [|lia]. intros HN. rewrite HN in HD. simpl in HD. lia.
Qed.
Lemma c49_pairs {K} fuel ints (D : DataBunch K) nfold n s e k : validInts (Z.of_nat (length (Data D))) ints -> length (Labels D) = length (Data D) ->
  CrossValidationSamples fuel ints D nfold = Ok (n, Some s, e) ->
  exists outs, callsOf s k = Ok outs /\ length outs = k /\ forall i p, nth_error outs i = Some (Some p) -> foldPair D (sp_folds s) i p.
Proof.
  intros HV HL H. destruct (c49_lemma fuel ints D nfold n s e k HV HL H) as (outs & H1 & H2 & H3). exists outs. split; [auto|]. split; [auto|].
  intros i p Hi. destruct (H3 i _ Hi) as [HA HB]. destruct (Nat.lt_ge_cases i n) as [Hlt|Hge].
  - destruct (HA Hlt) as (q & Hq & Hp). injection Hq as ->. auto.
  - specialize (HB Hge). discriminate HB.
Qed.
