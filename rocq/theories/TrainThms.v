(** Lemmas behind the property theorems on training and ensemble prediction (C28-C40). *)
From Coq Require Import Reals Lra.
From Verif Require Import Base F64 F64Lemmas Env EnvLemmas Utils Tree Spec UtilsProofs TreeProofs UtilsThms ActProofs Options Train SpecTrain TrainProofs.
Open Scope Z_scope.

(** ** Early stopping of one class, as a pure function of its losses *)
Section Losses.
Context (O : Options) (L : list (nat * f64)).
Notation es := (o_earlystop O).
Context (Hes : 0 < es) (H0 : forall j l, nth_error L j = Some (0%nat, l) -> j = 0%nat).
Definition run (n : nat) : bool * Z * f64 := fold_left (esStep O) (firstn n L) init.

Lemma firstn_S_snoc {A} (l : list A) n x : nth_error l n = Some x -> firstn (S n) l = firstn n l ++ [x].
Proof. revert n; induction l as [|y l IH]; intros [|n] H; simpl in *; try discriminate; [congruence|]. f_equal. apply IH. auto. Qed.

Lemma run_S n x : nth_error L n = Some x -> run (S n) = esStep O (run n) x.
Proof. intros H. unfold run. rewrite (firstn_S_snoc _ _ _ H), fold_left_app. reflexivity. Qed.

(** after [n] losses without having stopped *)
Definition going (n : nat) : Prop :=
  exists c, run n = (false, Z.of_nat c, lossBefore L n) /\ (c <= n)%nat /\ Z.of_nat c < es /\
    (forall j, (n - c <= j < n)%nat -> stalled L j) /\ (c = n \/ ~ stalled L (n - c - 1)).

Lemma going_mustStop n : going n -> (n = 0%nat \/ exists rd l, nth_error L (n - 1) = Some (rd, l) /\ fleb l epsilon = false) ->
  ~ mustStop es L n.
Proof.
  intros (c & _ & Hc & Hlt & Hst & Hmax) Hl [(rd & l & Hn & Hnth & Hle)|[Hge Hall]].
  - destruct Hl as [->|(rd' & l' & Hnth' & Hle')]; [lia|]. congruence.
  - destruct Hmax as [->|Hmax]; [lia|]. apply Hmax, Hall. lia.
Qed.

Lemma lossBefore_S n rd l : nth_error L n = Some (rd, l) -> lossBefore L (S n) = l.
Proof. intros H. simpl. rewrite H. auto. Qed.

Lemma run_step n rd l : going n -> nth_error L n = Some (rd, l) ->
  (fst (fst (run (S n))) = true /\ mustStop es L (S n)) \/
  (going (S n) /\ fleb l epsilon = false).
Proof.
  intros (c & Hr & Hc & Hlt & Hst & Hmax) Hn. rewrite (run_S _ _ Hn), Hr. unfold esStep.
  destruct (Z.ltb_spec 0 es) as [_|Q]; [|lia].
  destruct (fleb l epsilon) eqn:Ee.
  { left. split; [auto|]. left. exists rd, l. split; [lia|]. replace (S n - 1)%nat with n by lia. auto. }
  destruct (Nat.eqb_spec rd 0) as [->|Hrd].
  { right. split; [|auto]. assert (n = 0%nat) by eauto. subst n. assert (c = 0%nat) by lia. subst c.
    exists 0%nat. unfold esStep in *. rewrite (run_S _ _ Hn), Hr. unfold esStep. destruct (Z.ltb_spec 0 es) as [_|Q]; [|lia]. rewrite Ee. simpl Nat.eqb. cbv iota.
    split; [|split; [lia|split; [lia|split; [lia|]]]].
    - rewrite (lossBefore_S _ _ _ Hn). reflexivity.
    - right. intros (rd & l' & Hn' & Hne & _). change (1 - 0 - 1)%nat with 0%nat in Hn'. congruence. }
  destruct (fleb (lossBefore L n) l) eqn:Es.
  - assert (HsN : stalled L n) by (exists rd, l; auto).
    destruct (Z.leb_spec es (Z.of_nat c + 1)) as [Q|Q].
    + left. split; [auto|]. right. split; [lia|]. intros j Hj.
      destruct (Nat.eq_dec j n) as [->|]; [auto|]. apply Hst. lia.
    + right. split; [|auto]. exists (S c). rewrite (run_S _ _ Hn), Hr. unfold esStep.
      destruct (Z.ltb_spec 0 es) as [_|Q']; [|lia]. rewrite Ee. destruct (Nat.eqb_spec rd 0) as [|_]; [contradiction|]. rewrite Es.
      destruct (Z.leb_spec es (Z.of_nat c + 1)) as [Q'|_]; [lia|].
      split; [|split; [lia|split; [lia|split]]].
      * rewrite (lossBefore_S _ _ _ Hn). replace (Z.of_nat (S c)) with (Z.of_nat c + 1) by lia. reflexivity.
      * intros j Hj. destruct (Nat.eq_dec j n) as [->|]; [auto|]. apply Hst. lia.
      * destruct Hmax as [->|Hmax]; [left; auto|]. right. replace (S n - S c - 1)%nat with (n - c - 1)%nat by lia. auto.
  - destruct (Z.leb_spec es 0) as [Q|Q]; [lia|].
    right. split; [|auto]. exists 0%nat. rewrite (run_S _ _ Hn), Hr. unfold esStep.
    destruct (Z.ltb_spec 0 es) as [_|Q']; [|lia]. rewrite Ee. destruct (Nat.eqb_spec rd 0) as [|_]; [contradiction|]. rewrite Es.
    destruct (Z.leb_spec es 0) as [Q'|_]; [lia|].
    split; [|split; [lia|split; [lia|split; [lia|]]]].
    + rewrite (lossBefore_S _ _ _ Hn). reflexivity.
    + right. replace (S n - 0 - 1)%nat with n by lia. intros (rd' & l' & Hn' & _ & Hs'). congruence.
Qed.

Lemma going_0 : going 0.
Proof. exists 0%nat. split; [reflexivity|]. split; [lia|]. split; [lia|]. split; [intros; lia|]. left; auto. Qed.

(** if no proper prefix of the first [n] losses stopped the class *)
Lemma run_char n : (n <= length L)%nat -> (forall m, (m < n)%nat -> fst (fst (run m)) = false) ->
  (fst (fst (run n)) = true <-> mustStop es L n) /\ (forall m, (m < n)%nat -> ~ mustStop es L m) /\
  (fst (fst (run n)) = false -> going n /\ (n = 0%nat \/ exists rd l, nth_error L (n - 1) = Some (rd, l) /\ fleb l epsilon = false)).
Proof.
  induction n as [|n IH]; intros Hn Hal.
  - split; [|split].
    + split; [intros HH; discriminate HH|]. intros HM. exfalso. revert HM. apply going_mustStop; [apply going_0|auto].
    + intros m Hm. lia.
    + intros _. split; [apply going_0|auto].
  - destruct IH as (_ & IH2 & IH3); [lia| |].
    { intros m Hm. apply Hal. lia. }
    assert (Hal' : fst (fst (run n)) = false) by (apply Hal; lia).
    destruct (IH3 Hal') as [HG HP].
    destruct (nth_error L n) as [[rd l]|] eqn:En; [|apply nth_error_None in En; lia].
    assert (Hnot : forall m, (m < S n)%nat -> ~ mustStop es L m).
    { intros m Hm. destruct (Nat.eq_dec m n) as [->|]; [apply going_mustStop; auto|apply IH2; lia]. }
    destruct (run_step n rd l HG En) as [[H1 H2]|[HG' Hle]].
    + split; [tauto|]. split; [auto|]. rewrite H1. discriminate.
    + assert (HP' : S n = 0%nat \/ exists rd l, nth_error L (S n - 1) = Some (rd, l) /\ fleb l epsilon = false).
      { right. exists rd, l. replace (S n - 1)%nat with n by lia. auto. }
      split; [|split; auto]. destruct HG' as (c & Hr & HG'). split.
      * rewrite Hr. discriminate.
      * intros HM. exfalso. revert HM. apply going_mustStop; auto. exists c. auto.
Qed.
End Losses.

(** ** The loop over rounds *)
Section Run.
Context (E : Env) (O : Options) (data : list (list f64)) (ohe : dense) (nl r : nat) (rnd : draws).
Context (HO : wfDense ohe) (HOr : d_r ohe = r) (HOc : d_c ohe = nl).

Definition trainedB (rd : nat) : bool := o_minsample O <=? sampledRows O (length data) (fst (rnd rd)).
Definition stoppedBy (es : list entryG) (k : nat) : bool := fst (fst (fold_left (esStep O) (lossesOf es k) init)).

Lemma roundSamples_spec rd ix cols : roundSamples O data rd = Ok (ix, cols) ->
  Z.of_nat (length (orNil ix)) = sampledRows O (length data) (fst rd).
Proof.
  unfold roundSamples, sampledRows. intros H. apply bind_Ok in H as (ix' & Hix & H). apply bind_Ok in H as (cols' & _ & H).
  injection H as <- <-. destruct (_ && o_xgb O).
  - unfold SubSample in Hix. destruct (_ <? 0); [discriminate|]. simpl in Hix. injection Hix as <-. simpl.
    rewrite map_length, Nat2Z.id. auto.
  - injection Hix as <-. reflexivity.
Qed.

Record hinv (done : list nat) (sb : tstate * list (list entryG)) : Prop := {
  hi_inv : inv E O data nl r (fst sb) (concat (snd sb));
  hi_rounds : forall m cl e, nth_error (snd sb) m = Some cl -> In e cl -> nth_error (filter trainedB done) m = Some (g_round e);
  hi_len : length (snd sb) = length (filter trainedB done);
  hi_zero : forall k j l, nth_error (lossesOf (concat (snd sb)) k) j = Some (0%nat, l) -> j = 0%nat;
  hi_shape : forall m cl, nth_error (snd sb) m = Some cl ->
    map g_class cl = filter (fun k => negb (stoppedBy (concat (firstn m (snd sb))) k)) (seq 0 nl)
}.

Lemma lossesOf_app es1 es2 k : lossesOf (es1 ++ es2) k = lossesOf es1 k ++ lossesOf es2 k.
Proof. unfold lossesOf. rewrite filter_app, map_app. reflexivity. Qed.
Lemma classTrees_app es1 es2 k : classTrees (es1 ++ es2) k = classTrees es1 k ++ classTrees es2 k.
Proof. unfold classTrees. rewrite filter_app, map_app. reflexivity. Qed.

Lemma filter_class_once cl k : NoDup (map g_class cl) -> (length (filter (fun e => Nat.eqb (g_class e) k) cl) <= 1)%nat.
Proof.
  induction cl as [|e cl IH]; simpl; intros ND; [lia|]. inversion ND as [|x l Hni ND']; subst.
  destruct (Nat.eqb_spec (g_class e) k) as [He|]; [|auto].
  simpl. assert (HZ : filter (fun e0 => Nat.eqb (g_class e0) k) cl = []); [|rewrite HZ; simpl; lia].
  destruct (filter _ cl) as [|e' rest] eqn:Ef; auto. exfalso. apply Hni.
  assert (Hin : In e' (filter (fun e0 => Nat.eqb (g_class e0) k) cl)) by (rewrite Ef; left; auto).
  apply filter_In in Hin as [Hin Hk]. apply Nat.eqb_eq in Hk. rewrite He, <- Hk. apply in_map. auto.
Qed.

Lemma seq_split_lt n done (a : nat) rest : seq 0 n = done ++ a :: rest -> done = seq 0 a /\ (a < n)%nat.
Proof.
  intros H. assert (Hlen : length done = a).
  { assert (nth_error (seq 0 n) (length done) = Some a) by (rewrite H, nth_error_app2, Nat.sub_diag by lia; auto).
    assert (length done < n)%nat by (rewrite <- (seq_length n 0), H, app_length; simpl; lia).
    rewrite (nth_error_nth' _ 0%nat) in H0 by (rewrite seq_length; auto). rewrite seq_nth in H0 by auto. injection H0 as <-. auto. }
  assert (HL : (a < n)%nat) by (rewrite <- (seq_length n 0), H, app_length, Hlen; simpl; lia).
  split; auto. assert (HF : firstn a (seq 0 n) = done) by (rewrite H, firstn_app_exact; auto).
  rewrite <- HF. replace n with (a + (n - a))%nat by lia. rewrite seq_app, firstn_app_exact; auto. rewrite seq_length; auto.
Qed.

Lemma roundStep_hinv rd st hist sb' : hinv (seq 0 rd) (st, hist) ->
  roundStep E O data ohe nl rnd (st, hist) rd = Ok sb' -> hinv (seq 0 rd ++ [rd]) sb'.
Proof.
  intros [I1 I2 I3 I4 I5] H. cbn [fst snd] in *. unfold roundStep in H. apply bind_Ok in H as ([ix cols] & Hs & H).
  apply roundSamples_spec in Hs.
  assert (HT : trainedB rd = negb (Z.of_nat (length (orNil ix)) <? o_minsample O)).
  { unfold trainedB. rewrite <- Hs. rewrite Z.ltb_antisym. rewrite negb_involutive. auto. }
  destruct (Z.of_nat (length (orNil ix)) <? o_minsample O).
  - injection H as <-. simpl in HT.
    assert (EF : filter trainedB (seq 0 rd ++ [rd]) = filter trainedB (seq 0 rd)).
    { rewrite filter_app. simpl. rewrite HT, app_nil_r. auto. }
    split; cbn [fst snd]; auto; rewrite EF; auto.
  - apply bind_Ok in H as ([st' cl] & Hf & H). injection H as <-. simpl in HT.
    destruct (round_spec E O data ohe nl r HOr HOc ix cols rd st (concat hist) st' cl I1 Hf) as (J1 & J2 & J3 & J4).
    assert (EF : filter trainedB (seq 0 rd ++ [rd]) = filter trainedB (seq 0 rd) ++ [rd]).
    { rewrite filter_app. simpl. rewrite HT. auto. }
    assert (EC : concat (hist ++ [cl]) = concat hist ++ cl) by (rewrite concat_app; simpl; rewrite app_nil_r; auto).
    assert (ND : NoDup (map g_class cl)) by (rewrite J2; apply NoDup_filter, seq_NoDup).
    split; cbn [fst snd].
    + rewrite EC. auto.
    + intros m c e Hm He. rewrite EF. destruct (Nat.ltb_spec m (length hist)) as [Q|Q].
      * rewrite nth_error_app1 in Hm by auto. rewrite nth_error_app1 by lia. eauto.
      * rewrite nth_error_app2 in Hm by auto. destruct (m - length hist)%nat as [|q] eqn:Eq; [|destruct q; discriminate].
        simpl in Hm. injection Hm as <-. rewrite nth_error_app2 by lia. rewrite <- I3, Eq. simpl. rewrite (J3 e He). auto.
    + rewrite app_length, EF, app_length, I3. auto.
    + intros k j l Hj. rewrite EC, lossesOf_app in Hj. destruct (Nat.ltb_spec j (length (lossesOf (concat hist) k))) as [Q|Q].
      * rewrite nth_error_app1 in Hj by auto. eauto.
      * rewrite nth_error_app2 in Hj by auto.
        assert (Hlen : (length (lossesOf cl k) <= 1)%nat) by (unfold lossesOf; rewrite map_length; apply filter_class_once; auto).
        assert (j - length (lossesOf (concat hist) k) < length (lossesOf cl k))%nat by (apply nth_error_Some; congruence).
        assert (Hrd : rd = 0%nat).
        { apply nth_error_In in Hj. unfold lossesOf in Hj. apply in_map_iff in Hj as (e & He & Hin). apply filter_In in Hin as [Hin _].
          rewrite <- (J3 e Hin). congruence. }
        subst rd. simpl in I3. destruct hist; [|discriminate]. simpl in *. lia.
    + intros m c Hm. destruct (Nat.ltb_spec m (length hist)) as [Q|Q].
      * rewrite nth_error_app1 in Hm by auto. rewrite firstn_app. replace (m - length hist)%nat with 0%nat by lia. simpl. rewrite app_nil_r. auto.
      * rewrite nth_error_app2 in Hm by auto. destruct (m - length hist)%nat as [|q] eqn:Eq; [|destruct q; discriminate].
        simpl in Hm. injection Hm as <-. assert (m = length hist) by lia. subst m.
        rewrite firstn_app_exact by auto. rewrite J2. unfold alive. apply filter_ext_in. intros k Hk. apply in_seq in Hk.
        unfold stoppedBy. rewrite <- (inv_es _ _ _ _ _ _ _ I1) by lia. reflexivity.
Qed.

Lemma rounds_hinv st0 n sb : inv E O data nl r st0 [] ->
  foldM (roundStep E O data ohe nl rnd) (st0, []) (seq 0 n) = Ok sb -> hinv (seq 0 n) sb.
Proof.
  intros HI H. eapply (foldM_inv _ hinv); [| |exact H].
  - split; cbn [fst snd]; auto; intros; try (destruct m; discriminate); try (destruct j; discriminate).
  - intros done rd [s1 h1] s2 HP HS _ [rest Hrest]. apply seq_split_lt in Hrest as [-> _]. apply roundStep_hinv with (st := s1) (hist := h1); auto.
Qed.
End Run.

(** ** NewMultiClass *)
Lemma entry_repeat n c x i j : (i < n)%nat -> (j < c)%nat -> entry (Dense n c (repeat x (n * c))) i j x.
Proof.
  intros Hi Hj. split; [auto|]. simpl. rewrite (nth_error_nth' _ x) by (rewrite repeat_length; nia). rewrite nth_repeat. auto.
Qed.

Lemma NewMultiClass_inv {K} E rnd (D : DataBunch K) O0 tr : NewMultiClass E rnd D O0 = Ok tr ->
  let M := tr_model tr in let O := tr_opts tr in
  O = fixMCW O0 /\ mc_b M = map (map g_tree) (tr_hist tr) /\ mc_lr M = o_lr O /\ mc_base M = o_base O /\ mc_xgb M = o_xgb O /\
  mc_pt M = Some (fun P Q => SoftMaxDense E P (Some Q)) /\
  firstOccurrences (Labels D) (mc_labels M) /\ mc_labels M <> [] /\
  hinv E O (Data D) (length (mc_labels M)) (length (Labels D)) rnd (seq 0 (Z.to_nat (o_rounds O))) (tr_state tr, tr_hist tr).
Proof.
  unfold NewMultiClass. intros H. apply bind_Ok in H as ([ohe labels] & Hohe & H). apply bind_Ok in H as (raw0 & Hraw0 & H).
  apply bind_Ok in H as (probs & Hprobs & H). apply bind_Ok in H as ([st hist] & Hf & H). injection H as <-. cbn [tr_model tr_opts tr_hist tr_state].
  cbn [mc_b mc_lr mc_base mc_xgb mc_pt mc_labels]. repeat (split; [reflexivity|]).
  destruct (c22_lemma (Labels D)) as [HN HS].
  assert (Hne : Labels D <> []) by (intros Hn; specialize (HN Hn); congruence).
  destruct (HS Hne) as (ohe' & labels' & Hohe' & HF & HW & Hr & Hc & _). assert (ohe' = ohe /\ labels' = labels) as [-> ->] by (split; congruence).
  split; [auto|]. split.
  { intros Hl. subst labels. destruct HW as (_ & HW & _). simpl in Hc. lia. }
  rewrite Hr, Hc in *. set (n := length (Labels D)) in *. set (c := length labels) in *. set (O := fixMCW O0) in *.
  unfold NewDense in Hraw0. destruct HW as (HW1 & HW2 & HW3).
  assert (Hz : (Nat.eqb n 0 || Nat.eqb c 0)%bool = false).
  { apply orb_false_iff. split; apply Nat.eqb_neq; lia. }
  rewrite Hz, repeat_length, Nat.eqb_refl in Hraw0. injection Hraw0 as <-.
  assert (HR : scaleDense (o_base O) (ToOnes (Dense n c (repeat fzero (n * c)))) = Dense n c (repeat (o_base O) (n * c))).
  { unfold scaleDense, ToOnes. cbn [d_r d_c d_data]. f_equal. rewrite map_map. generalize (n * c)%nat. intros q.
    rewrite (map_ext _ (fun _ => o_base O)) by (intros; apply fmul_1_r). clear.
    induction q as [|q IH]; simpl; [auto|]. f_equal. exact IH. }
  rewrite HR in *.
  assert (HWr : wfDense (Dense n c (repeat (o_base O) (n * c)))) by (repeat split; simpl; try lia; apply repeat_length).
  destruct (c80_lemma E (Dense n c (repeat (o_base O) (n * c))) None HWr) as (P' & HP' & HPW & HPr & HPc & HPs); [intros; discriminate|].
  assert (P' = probs) by congruence. subst P'. cbn [d_r d_c] in *.
  eapply rounds_hinv; [exact Hr|exact Hc| |exact Hf].
  split; cbn [s_raw s_probs s_tmp s_stopped s_noprog s_prev].
  - split; [exact HWr|]. split; [reflexivity|]. split; [reflexivity|]. split; [exact HPW|]. cbn [s_raw s_probs s_tmp s_stopped s_noprog s_prev]. rewrite !repeat_length. repeat split; auto.
  - intros i row k Hi Hir Hk. exists (o_base O). split; [apply entry_repeat; auto|]. exists []. split; [constructor|reflexivity].
  - intros k Hk. unfold esv. cbn [s_raw s_probs s_tmp s_stopped s_noprog s_prev]. rewrite !nth_repeat. reflexivity.
  - intros k m _ Hm. simpl in Hm. lia.
  - intros e [].
  - exact HPs.
Qed.

(** *** C28 *)
Lemma rowView_entry D i k v : wfDense D -> (i < d_r D)%nat -> (k < d_c D)%nat ->
  (nth_error (rowView D i) k = Some v <-> entry D i k v).
Proof.
  intros (HW1 & HW2 & HW3) Hi Hk. unfold rowView, entry. rewrite nth_firstn by auto. rewrite nth_skipn. tauto.
Qed.

Lemma filter_seq_full n (P : nat -> bool) : length (filter P (seq 0 n)) = n -> filter P (seq 0 n) = seq 0 n.
Proof.
  intros H. assert (HG : forall l, length (filter P l) = length l -> filter P l = l).
  { induction l as [|x l IH]; simpl; auto. destruct (P x); simpl; intros HL.
    - f_equal. apply IH. lia.
    - exfalso. assert (length (filter P l) <= length l)%nat; [|lia]. clear. induction l as [|y l IH]; simpl; [lia|]. destruct (P y); simpl; lia. }
  apply HG. rewrite H, seq_length. auto.
Qed.

Lemma filter_class_seq cl : forall s n k, map g_class cl = seq s n -> (s <= k)%nat ->
  filter (fun e => Nat.eqb (g_class e) k) cl = match nth_error cl (k - s) with Some e => [e] | None => [] end.
Proof.
  induction cl as [|e cl IH]; intros s n k H Hk; simpl.
  - destruct (k - s)%nat; auto.
  - destruct n as [|n]; [discriminate|]. simpl in H. injection H as He Hcl. subst s.
    destruct (Nat.eqb_spec (g_class e) k) as [Hek|Hne].
    + rewrite Hek, Nat.sub_diag. simpl. f_equal.
      destruct (filter (fun e0 => Nat.eqb (g_class e0) k) cl) as [|e' rest] eqn:Ef; auto. exfalso.
      assert (Hin : In e' (filter (fun e0 => Nat.eqb (g_class e0) k) cl)) by (rewrite Ef; left; auto).
      apply filter_In in Hin as [Hin Hk']. apply Nat.eqb_eq in Hk'. apply (in_map g_class) in Hin. rewrite Hcl in Hin. apply in_seq in Hin. lia.
    + rewrite (IH _ _ k Hcl) by lia. replace (k - g_class e)%nat with (S (k - S (g_class e)))%nat by lia. auto.
Qed.

Lemma position_is_class hist nl k : (forall cl, In cl hist -> map g_class cl = seq 0 nl) ->
  positionTrees (map (map g_tree) hist) k = classTrees (concat hist) k.
Proof.
  induction hist as [|cl hist IH]; intros H; simpl; [auto|].
  rewrite classTrees_app, IH by (intros; apply H; right; auto). f_equal.
  unfold classTrees. rewrite (filter_class_seq cl 0 nl k) by (try lia; apply H; left; auto). rewrite Nat.sub_0_r, nth_error_map.
  destruct (nth_error cl k); reflexivity.
Qed.

Lemma nth_ext_Some {A} (l l' : list A) : length l = length l' ->
  (forall k, (k < length l)%nat -> exists v, nth_error l k = Some v /\ nth_error l' k = Some v) -> l = l'.
Proof.
  revert l'; induction l as [|x l IH]; intros [|y l'] HL H; simpl in *; try lia; auto.
  destruct (H 0%nat) as (v & H1 & H2); [lia|]. simpl in *. f_equal; [congruence|]. apply IH; [lia|].
  intros k Hk. apply (H (S k)). lia.
Qed.

Lemma accumulated_pred lr row s ts v : accumulated lr row s ts v -> forall t, In t ts -> exists p, PredictSingle t row = Ok p.
Proof. intros (ps & HF & _) t Ht. clear - HF Ht. induction HF as [|a b ts ps H HF IH]; [destruct Ht|]. destruct Ht as [<-|Ht]; eauto. Qed.

Lemma In_positionTrees b ens t : In ens b -> In t ens -> exists k, (k < length ens)%nat /\ In t (positionTrees b k).
Proof.
  intros He Ht. apply In_nth_error in Ht as [k Hk]. exists k. split; [apply nth_error_Some; congruence|].
  apply in_flat_map. exists ens. split; auto. rewrite Hk. left; auto.
Qed.

Lemma c28_lemma {K} E rnd (D : DataBunch K) O0 tr : NewMultiClass E rnd D O0 = Ok tr ->
  (length (Data D) <= length (Labels D))%nat -> mc_b (tr_model tr) <> [] ->
  (forall ens, In ens (mc_b (tr_model tr)) -> length ens = length (ClassLabels (tr_model tr))) ->
  forall i row bufs, nth_error (Data D) i = Some row ->
    rawScores (tr_model tr) row = Ok (rowView (s_raw (tr_state tr)) i) /\
    PredictMC (tr_model tr) row bufs = Ok (rowView (s_probs (tr_state tr)) i, bufs).
Proof.
  intros H HLD Hne Hfull i row bufs Hi. unfold ClassLabels in Hfull.
  destruct (NewMultiClass_inv E rnd D O0 tr H) as (EO & Eb & Elr & Ebase & _ & Ept & HF & Hlne & [I1 I2 I3 I4 I5]). cbn [fst snd] in *.
  set (nl := length (mc_labels (tr_model tr))) in *. set (M := tr_model tr) in *. set (st := tr_state tr) in *.
  assert (Hnl : (0 < nl)%nat) by (unfold nl; destruct (mc_labels M); [congruence|simpl; lia]).
  assert (Hcls : forall cl, In cl (tr_hist tr) -> map g_class cl = seq 0 nl).
  { intros cl Hin. destruct (In_nth_error _ _ Hin) as [m Hm]. rewrite (I5 m cl Hm). apply filter_seq_full. rewrite <- (I5 m cl Hm), map_length.
    rewrite <- (Hfull (map g_tree cl)); [rewrite map_length; auto|]. rewrite Eb. apply in_map. auto. }
  assert (Hpos : forall k, positionTrees (mc_b M) k = classTrees (concat (tr_hist tr)) k) by (intros k; rewrite Eb; apply position_is_class with nl; auto).
  assert (Hir : (i < length (Labels D))%nat) by (assert (i < length (Data D))%nat by (apply nth_error_Some; congruence); lia).
  destruct (inv_wf _ _ _ _ _ _ _ I1) as (W1 & W2 & W3 & W4 & W5 & W6 & _).
  destruct (mc_b M) as [|b0 rest] eqn:EB; [congruence|]. rewrite <- EB in *.
  assert (Hb0 : length b0 = nl) by (apply Hfull; rewrite EB; left; auto).
  destruct (rawScores_ok M row b0 rest EB) as [out Hout].
  - intros ens He. rewrite (Hfull ens He), Hb0. lia.
  - intros ens t He Ht. destruct (In_positionTrees _ _ _ He Ht) as (k & Hk & Hin). rewrite (Hfull ens He) in Hk.
    destruct (inv_scores _ _ _ _ _ _ _ I1 i row k Hi Hir Hk) as (v & _ & Ha).
    rewrite Hpos in Hin. eapply accumulated_pred; eauto.
  - assert (HO : out = rowView (s_raw st) i).
    { destruct (rawScores_spec M row out Hout) as (b0' & rest' & EB' & HL & _ & Hacc).
      assert (b0' = b0) by congruence. subst b0'.
      apply nth_ext_Some.
      - rewrite HL, rowView_len; [congruence|lia|apply W1].
      - intros k Hk. rewrite HL, Hb0 in Hk. destruct (Hacc k ltac:(lia)) as (y & Hy & Ha).
        destruct (inv_scores _ _ _ _ _ _ _ I1 i row k Hi Hir Hk) as (v & Hv & Ha').
        rewrite Hpos, Elr, Ebase in Ha. assert (y = v) by (eapply accumulated_det; eauto). subst y.
        exists v. split; auto. apply rowView_entry; auto; lia. }
    rewrite <- HO. split; [auto|]. unfold PredictMC. rewrite Hout. cbn [bind].
    assert (HLo : length out = nl) by (rewrite HO, rowView_len; [congruence|lia|apply W1]).
    assert (HN : forall q : list f64, length q = nl -> NewDense 1 nl q = Ok (Dense 1 nl q)).
    { intros q Hq. unfold NewDense. destruct (Nat.eqb_spec nl 0) as [|_]; [lia|]. cbn [Nat.eqb orb]. rewrite Hq. simpl. rewrite Nat.add_0_r, Nat.eqb_refl. auto. }
    rewrite HLo, HN by auto. cbn [bind]. rewrite HN by apply repeat_length. cbn [bind]. rewrite Ept.
    destruct (c80_lemma E (Dense 1 nl out) (Some (Dense 1 nl (repeat fzero nl)))) as (D' & HD' & HW' & Hr' & Hc' & HR).
    { repeat split; simpl; lia. }
    { intros d [= <-]. repeat split; simpl; try lia. rewrite repeat_length. lia. }
    rewrite HD'. cbn [bind d_c d_r] in *. do 2 f_equal.
    specialize (HR 0%nat ltac:(lia)). pose proof (inv_probs _ _ _ _ _ _ _ I1 i Hir) as HP.
    assert (ER : rowView (Dense 1 nl out) 0 = out) by (unfold rowView; simpl; apply firstn_all2; lia).
    rewrite ER, HO in HR. fold st in HP. rewrite HP in HR. injection HR as HR. rewrite HR.
    unfold rowView. rewrite Hc'. simpl. symmetry. apply firstn_all2. destruct HW' as (_ & _ & HW'). rewrite Hr', Hc' in HW'. lia.
Qed.

Lemma esStep_off O v L : o_earlystop O <= 0 -> fold_left (esStep O) L v = v.
Proof.
  intros H. revert v; induction L as [|[rd l] L IH]; intros v; simpl; [auto|]. rewrite IH. unfold esStep. destruct v as [[s n] p].
  destruct (Z.ltb_spec 0 (o_earlystop O)) as [Q|Q]; [lia|auto].
Qed.
Lemma no_earlystop_full {K} E rnd (D : DataBunch K) O0 tr : NewMultiClass E rnd D O0 = Ok tr -> o_earlystop O0 <= 0 ->
  forall ens, In ens (mc_b (tr_model tr)) -> length ens = length (ClassLabels (tr_model tr)).
Proof.
  intros H HE ens Hin. unfold ClassLabels. destruct (NewMultiClass_inv E rnd D O0 tr H) as (EO & Eb & _ & _ & _ & _ & _ & _ & [_ _ _ _ I5]). cbn [fst snd] in *.
  rewrite Eb in Hin. apply in_map_iff in Hin as (cl & <- & Hcl). rewrite map_length. destruct (In_nth_error _ _ Hcl) as [m Hm].
  rewrite <- (map_length g_class), (I5 m cl Hm). unfold stoppedBy. rewrite EO.
  replace (filter _ _) with (seq 0 (length (mc_labels (tr_model tr)))); [apply seq_length|].
  symmetry. apply filter_seq_full. rewrite <- (seq_length (length (mc_labels (tr_model tr))) 0) at 2. f_equal.
  rewrite <- (filter_ext (fun _ => true)).
  - clear. induction (seq 0 (length (mc_labels (tr_model tr)))) as [|x l IH]; simpl; congruence.
  - intros k. rewrite esStep_off; [reflexivity|exact HE].
Qed.
