(** Proofs for C154 (confu/confu.go:66-209). *)
From Coq Require Import Ascii String.
From Verif Require Import Base F64 Env EnvLemmas Utils Tree Options Train Spec SpecTrain Text Confu SpecConfu ConfuProofs ConfuMore ConfuShare SpecConfuShare.
From Coq Require Import List.
Open Scope Z_scope.

Lemma block_apps h m b : (b < length h)%nat -> block (h ++ m) b = block h b.
Proof. intros H. unfold block. apply app_nth1. auto. Qed.
Lemma block_rows h m : map (block (h ++ m)) (seq (length h) (length m)) = m.
Proof.
  unfold block. apply nth_ext_err. intros i. rewrite nth_error_map. destruct (nth_error m i) as [x|] eqn:E.
  - assert (Hi : (i < length m)%nat) by (apply nth_error_Some; congruence).
    rewrite (nth_error_nth' _ O) by (rewrite seq_length; auto). rewrite seq_nth by auto. cbn [option_map]. f_equal.
    rewrite app_nth2 by lia. replace (length h + i - length h)%nat with i by lia. apply nth_error_nth. auto.
  - apply nth_error_None in E. rewrite (proj2 (nth_error_None _ _)); auto. rewrite seq_length. auto.
Qed.
Lemma write_block_len h b l b' : length l = length (block h b) -> length (block (write h b l) b') = length (block h b').
Proof.
  intros H. destruct (Nat.eq_dec b' b) as [->|N]; [|rewrite block_write_other; auto]. destruct (Nat.lt_ge_cases b (length h)) as [HL|HL].
  - rewrite block_write; auto.
  - unfold block, write. rewrite !nth_overflow; auto. rewrite upd_nat_length. auto.
Qed.

(** ** the invariant *)
Definition inner (C : ConfH) (b : nat) : Prop := b = ch_actual C \/ b = ch_predicted C \/ b = ch_labels C \/ exists rows, ch_matrix C = Some rows /\ In b rows.
Definition nlab (h : heap) (C : ConfH) : nat := length (block h (ch_labels C)).
Record hinv (h : heap) (C : ConfH) : Prop := {
  hi_in : forall b, inner C b -> (b < length h)%nat;
  hi_tmp : forall b, isTmp C b -> (b < length h)%nat /\ ~ inner C b;
  hi_rows : forall rows, ch_matrix C = Some rows -> length rows = nlab h C /\ forall r, In r rows -> length (block h r) = nlab h C;
  hi_len : forall s, ch_tmpvals C = Some s \/ ch_tmpindx C = Some s -> sl_len s = nlab h C
}.
Definition hkeeps (h : heap) (C : ConfH) (h' : heap) (C' : ConfH) : Prop :=
  (length h <= length h')%nat /\ (forall b, (b < length h)%nat -> ~ isTmp C b -> block h' b = block h b /\ ~ isTmp C' b) /\
  (ch_actual C', ch_predicted C', ch_labels C', ch_m C') = (ch_actual C, ch_predicted C, ch_labels C, ch_m C) /\
  (forall rows, ch_matrix C = Some rows -> ch_matrix C' = Some rows).
Lemma confRow_len C v row : confRow C v = Ok row -> length row = length (cf_labels C).
Proof.
  unfold confRow. intros H. rewrite <- (repeat_length 0 (length (cf_labels C))). revert H. generalize (repeat 0 (length (cf_labels C))) as r0.
  induction (positions (cf_actual C) v 0) as [|w t IH]; intros r0 H; cbn [foldM] in H; [injection H as <-; auto|].
  apply bind_Ok in H as (r1 & H1 & H). apply bind_Ok in H1 as (p & _ & H1). cbv zeta in H1. apply bind_Ok in H1 as (x & _ & H1).
  rewrite (IH r1 H). apply upd_Ok in H1 as [_ ->]. apply upd_nat_length.
Qed.
Lemma mapM_conf C ls m : mapM (confRow C) ls = Ok m -> length m = length ls /\ forall r, In r m -> length r = length (cf_labels C).
Proof.
  revert m; induction ls as [|v t IH]; intros m H; cbn [mapM] in H; [injection H as <-; split; [auto|intros r []]|].
  apply bind_Ok in H as (r & Hr & H). apply bind_Ok in H as (m' & Hm & H). injection H as <-. destruct (IH m' Hm) as [H1 H2]. split; [cbn; auto|].
  intros r' [<-|Hin]; [eapply confRow_len; eauto|auto].
Qed.
Lemma MatrixH_keeps h C h' rows C' : hinv h C -> MatrixH h C = Ok (h', rows, C') ->
  hinv h' C' /\ hkeeps h C h' C' /\ ch_matrix C' = Some rows /\ (ch_tmpvals C', ch_tmpindx C') = (ch_tmpvals C, ch_tmpindx C).
Proof.
  intros HI H. unfold MatrixH in H. destruct (ch_matrix C) as [rs|] eqn:EM.
  - injection H as <- <- <-. split; auto. split; [|auto]. split; auto.
  - apply bind_Ok in H as ([m C2] & Hm & H). injection H as <- <- <-. unfold Matrix, valC in Hm. cbn [cf_matrix] in Hm. rewrite EM in Hm. cbn [option_map] in Hm.
    apply bind_Ok in Hm as (m' & Hm & HE). injection HE as -> _. apply mapM_conf in Hm as [L1 L2]. cbn [cf_labels] in L1, L2.
    destruct HI as [I1 I2 I3 I4].
    assert (HL : (ch_labels C < length h)%nat) by (apply I1; unfold inner; auto).
    split; [|split; [|auto]].
    + split.
      * intros b [->|[->|[->|(rs & [= <-] & Hin)]]]; cbn [ch_actual ch_predicted ch_labels]; rewrite app_length;
          try (assert (HB : forall x, inner C x -> (x < length h + length m)%nat) by (intros x Hx; apply I1 in Hx; lia); apply HB; unfold inner; auto; fail).
        apply in_seq in Hin. lia.
      * intros b Hb. destruct (I2 b Hb) as [B1 B2]. split; [rewrite app_length; lia|]. intros [->|[->|[->|(rs & [= <-] & Hin)]]].
        -- apply B2. left; auto.
        -- apply B2. right; left; auto.
        -- apply B2. right; right; left; auto.
        -- apply in_seq in Hin. lia.
      * intros rs [= <-]. unfold nlab. cbn [ch_labels]. rewrite seq_length, block_apps by auto. split; auto.
        intros r Hr. apply (in_map (block (h ++ m))) in Hr. rewrite block_rows in Hr. apply L2. auto.
      * intros s Hs. unfold nlab. cbn [ch_labels]. rewrite block_apps by auto. apply I4. auto.
    + split; [rewrite app_length; lia|]. split; [|split; [reflexivity|intros rs Hrs; rewrite EM in Hrs; discriminate]].
      intros b Hb Ht. split; [apply block_apps; auto|exact Ht].
Qed.
Lemma buffer_spec h o n h' s : buffer h o n = (h', s) -> (0 < n)%nat ->
  (exists m, h' = h ++ m) /\ sl_len s = n /\ ((o = Some s /\ h' = h) \/ (length h <= sl_blk s)%nat) /\
  ((forall s0, o = Some s0 -> (sl_blk s0 < length h)%nat) -> (sl_blk s < length h')%nat).
Proof.
  unfold buffer, alloc. intros H Hn.
  assert (HA : forall h' s, (h ++ [repeat 0 n], MkSl (length h) (length (repeat 0 n))) = (h', s) -> (exists m, h' = h ++ m) /\ sl_len s = n /\ ((o = Some s /\ h' = h) \/ (length h <= sl_blk s)%nat) /\
    ((forall s0, o = Some s0 -> (sl_blk s0 < length h)%nat) -> (sl_blk s < length h')%nat)).
  { intros h1 s1 [= <- <-]. cbn [sl_blk sl_len]. rewrite repeat_length, app_length. cbn [length]. split; [eauto|]. split; auto. split; [right; lia|lia]. }
  destruct o as [s0|].
  - destruct (Nat.eqb_spec (sl_len s0) n) as [E|_]; [|apply HA; auto]. injection H as <- <-. split; [exists []; rewrite app_nil_r; auto|]. split; auto.
  - destruct n; [lia|]. apply HA; auto.
Qed.
Lemma TopN_keeps E h C N M dc r C2 h2 : hinv h C -> (exists rows, ch_matrix C = Some rows) -> TopNForLabelM E (valC h C) h N M dc = Ok (r, C2, h2) ->
  let C' := MkCH (ch_actual C) (ch_predicted C) (ch_labels C) (ch_matrix C) (cf_tmpvals C2) (cf_tmpindx C2) (ch_m C) in hinv h2 C' /\ hkeeps h C h2 C'.
Proof.
  intros HI (rows & HR) H C'. unfold TopNForLabelM, Matrix in H.
  assert (HMt : cf_matrix (valC h C) = Some (map (block h) rows)) by (unfold valC; cbn [cf_matrix]; rewrite HR; auto). rewrite HMt in H. cbn [bind] in H.
  destruct (sliceIndex (cf_labels (valC h C)) M <? 0) eqn:EI.
  { injection H as <- <- <-. subst C'. unfold valC. cbn [cf_tmpvals cf_tmpindx]. destruct C as [c1 c2 c3 c4 c5 c6 c7]; cbn [ch_actual ch_predicted ch_labels ch_matrix ch_tmpvals ch_tmpindx ch_m] in *.
    split; [exact HI|]. split; auto. }
  apply bind_Ok in H as (om & Hom & H).
  assert (HN : length om = nlab h C).
  { apply idx_Ok in Hom as [_ Hom]. rewrite nth_error_map in Hom. destruct (nth_error rows (Z.to_nat (sliceIndex (cf_labels (valC h C)) M))) as [p|] eqn:EP; [|discriminate].
    injection Hom as <-. apply (hi_rows h C HI rows HR). eapply nth_error_In; eauto. }
  assert (HP : (0 < nlab h C)%nat).
  { unfold nlab. change (cf_labels (valC h C)) with (block h (ch_labels C)) in EI. destruct (block h (ch_labels C)); [discriminate EI|cbn; lia]. }
  change (cf_tmpvals (valC h C)) with (ch_tmpvals C) in H. change (cf_tmpindx (valC h C)) with (ch_tmpindx C) in H. rewrite HN in H.
  destruct (buffer h (ch_tmpvals C) (nlab h C)) as [h1 tv] eqn:E1. destruct (buffer h1 (ch_tmpindx C) (nlab h C)) as [h3 ti] eqn:E2.
  destruct (memIntSort E om) as [si sv]. cbv zeta in H.
  destruct (buffer_spec _ _ _ _ _ E1 HP) as ((m1 & ->) & L1 & A1 & B1). destruct (buffer_spec _ _ _ _ _ E2 HP) as ((m2 & ->) & L2 & A2 & B2).
  assert (T1 : forall s0, ch_tmpvals C = Some s0 -> (sl_blk s0 < length h)%nat) by (intros s0 Hs; apply (hi_tmp h C HI); left; eauto).
  assert (T2 : forall s0, ch_tmpindx C = Some s0 -> (sl_blk s0 < length h)%nat) by (intros s0 Hs; apply (hi_tmp h C HI); right; eauto).
  specialize (B1 T1). assert (T2' : forall s0, ch_tmpindx C = Some s0 -> (sl_blk s0 < length (h ++ m1))%nat) by (intros s0 Hs; specialize (T2 s0 Hs); rewrite app_length; lia). specialize (B2 T2').
  set (h4 := write (write ((h ++ m1) ++ m2) (sl_blk ti) (rev si)) (sl_blk tv) (rev sv)) in *.
  assert (L4 : length h4 = length ((h ++ m1) ++ m2)) by (unfold h4; rewrite !write_length; auto).
  assert (NV : forall b, (b < length h)%nat -> ~ isTmp C b -> b <> sl_blk tv /\ b <> sl_blk ti).
  { intros b Hb Ht. split; intros ->.
    - destruct A1 as [[HA _]|HA]; [apply Ht; left; eauto|lia].
    - destruct A2 as [[HA _]|HA]; [apply Ht; right; eauto|rewrite app_length in HA; lia]. }
  assert (K4 : forall b, (b < length h)%nat -> ~ isTmp C b -> block h4 b = block h b).
  { intros b Hb Ht. destruct (NV b Hb Ht). unfold h4. rewrite !block_write_other by auto. rewrite <- app_assoc. apply block_apps. auto. }
  assert (H5 : exists m3, h2 = h4 ++ m3 /\ cf_tmpvals C2 = Some tv /\ cf_tmpindx C2 = Some ti).
  { destruct dc; cbn [alloc] in H; apply bind_Ok in H as (ri & _ & H); apply bind_Ok in H as (rv & _ & H); injection H as _ <- <-.
    - unfold alloc. eexists. split; [rewrite <- app_assoc; reflexivity|]. auto.
    - exists []. rewrite app_nil_r. auto. }
  destruct H5 as (m3 & -> & V1 & V2). subst C'. rewrite V1, V2.
  assert (K5 : forall b, (b < length h)%nat -> ~ isTmp C b -> block (h4 ++ m3) b = block h b).
  { intros b Hb Ht. rewrite block_apps by (rewrite L4, !app_length; lia). auto. }
  assert (IN : forall b, inner (MkCH (ch_actual C) (ch_predicted C) (ch_labels C) (ch_matrix C) (Some tv) (Some ti) (ch_m C)) b <-> inner C b) by (intros b; reflexivity).
  assert (NI : forall b, inner C b -> (b < length h)%nat /\ ~ isTmp C b).
  { intros b Hb. split; [apply (hi_in h C HI); auto|]. intros Ht. apply (hi_tmp h C HI) in Ht. tauto. }
  assert (EL : nlab (h4 ++ m3) (MkCH (ch_actual C) (ch_predicted C) (ch_labels C) (ch_matrix C) (Some tv) (Some ti) (ch_m C)) = nlab h C).
  { unfold nlab. cbn [ch_labels]. destruct (NI (ch_labels C)) as [N1 N2]; [unfold inner; auto|]. rewrite K5; auto. }
  split.
  - split.
    + intros b Hb. apply IN in Hb. apply NI in Hb as [Hb _]. rewrite app_length, L4, !app_length. lia.
    + intros b [(s & [= <-] & <-)|(s & [= <-] & <-)].
      * split; [rewrite app_length, L4, !app_length in *; lia|]. intros Hb. apply IN in Hb. destruct (NI _ Hb) as [N1 N2]. destruct (NV _ N1 N2). auto.
      * split; [rewrite app_length, L4 in *; lia|]. intros Hb. apply IN in Hb. destruct (NI _ Hb) as [N1 N2]. destruct (NV _ N1 N2). auto.
    + intros rs Hrs. rewrite EL. cbn [ch_matrix] in Hrs. destruct (hi_rows h C HI rs Hrs) as [R1 R2]. split; auto. intros r0 Hr0.
      destruct (NI r0) as [N1 N2]; [right; right; right; eauto|]. rewrite K5; auto.
    + intros s Hs. rewrite EL. cbn [ch_tmpvals ch_tmpindx] in Hs. destruct Hs as [[= <-]|[= <-]]; auto.
  - split; [rewrite app_length, L4, !app_length; lia|]. split; [|split; [reflexivity|auto]].
    intros b Hb Ht. split; auto. destruct (NV b Hb Ht). intros [(s & [= <-] & HE)|(s & [= <-] & HE)]; congruence.
Qed.
Lemma hkeeps_trans h C h1 C1 h2 C2 : hkeeps h C h1 C1 -> hkeeps h1 C1 h2 C2 -> hkeeps h C h2 C2.
Proof.
  intros (A1 & A2 & A3 & A4) (B1 & B2 & B3 & B4). split; [lia|]. split; [|split; [congruence|auto]].
  intros b Hb Ht. destruct (A2 b Hb Ht) as [E1 Ht1]. destruct (B2 b ltac:(lia) Ht1) as [E2 Ht2]. split; auto. congruence.
Qed.
Lemma hcall_keeps E h C h' C' : hinv h C -> hcall E (h, C) (h', C') -> hinv h' C' /\ hkeeps h C h' C' /\ exists rows, ch_matrix C' = Some rows.
Proof.
  intros HI H. inversion H as [? ? ? rows ? HM|? ? N M dc r ? ? HT]; subst.
  - destruct (MatrixH_keeps _ _ _ _ _ HI HM) as (H1 & H2 & H3 & _). eauto.
  - unfold TopNH in HT. apply bind_Ok in HT as ([[h1 rows] C1] & HM & HT). destruct (MatrixH_keeps _ _ _ _ _ HI HM) as (H1 & H2 & H3 & _).
    apply bind_Ok in HT as ([[r2 C2] h2] & HT & HE). injection HE as -> <- <-. destruct (TopN_keeps _ _ _ _ _ _ _ _ _ H1 (ex_intro _ _ H3) HT) as [K1 K2].
    split; auto. split; [eapply hkeeps_trans; eauto|]. eauto.
Qed.
Lemma hinv_write h C b l : hinv h C -> length l = length (block h b) -> hinv (write h b l) C.
Proof.
  intros [I1 I2 I3 I4] HL. split; unfold nlab in *; intros; rewrite ?write_length, ?write_block_len in *; auto.
  destruct (I3 rows H) as [R1 R2]. split; auto. intros r Hr. rewrite write_block_len; auto.
Qed.
Lemma hinv_alloc h C l : hinv h C -> hinv (h ++ [l]) C.
Proof.
  intros [I1 I2 I3 I4]. assert (HL : (ch_labels C < length h)%nat) by (apply I1; unfold inner; auto).
  split; unfold nlab in *; intros; rewrite ?app_length in *; rewrite ?(block_apps h [l] (ch_labels C)) by auto; auto.
  - specialize (I1 b H). lia.
  - destruct (I2 b H). split; auto. lia.
  - destruct (I3 rows H) as [R1 R2]. split; auto. intros r Hr. rewrite block_apps; auto. apply I1. right; right; right; eauto.
Qed.
(** calls and writes that leave the arrays [ps] alone *)
Lemma hreach_keeps E may h C h' C' : hinv h C -> hreach E may (h, C) (h', C') ->
  hinv h' C' /\ (length h <= length h')%nat /\ (ch_actual C', ch_predicted C', ch_labels C', ch_m C') = (ch_actual C, ch_predicted C, ch_labels C, ch_m C) /\
  (forall rows, ch_matrix C = Some rows -> ch_matrix C' = Some rows) /\
  (forall b, (b < length h)%nat -> length (block h' b) = length (block h b) \/ isTmp C b) /\
  (forall b, (b < length h)%nat -> ~ isTmp C b -> ~ isTmp C' b /\ length (block h' b) = length (block h b) /\ (~ may b -> block h' b = block h b)).
Proof.
  intros HI H. remember (h, C) as s1 eqn:E1. remember (h', C') as s2 eqn:E2. revert h' C' E2. induction H as [s|s1 [h2 C2] s3 H IH HC|s1 h2 C2 l H IH|s1 h2 C2 b l H IH HM HL]; intros h' C' E2; subst.
  - injection E2 as <- <-. split; [exact HI|]. repeat split; auto.
  - destruct (IH eq_refl _ _ eq_refl) as (K1 & K2 & K3 & K4 & K5 & K6). destruct (hcall_keeps _ _ _ _ _ K1 HC) as (J1 & (J2 & J3 & J4 & J5) & _).
    split; auto. split; [lia|]. split; [congruence|]. split; [auto|].
    assert (G : forall b, (b < length h)%nat -> ~ isTmp C b -> ~ isTmp C' b /\ length (block h' b) = length (block h b) /\ (~ may b -> block h' b = block h b)).
    { intros b Hb Ht. destruct (K6 b Hb Ht) as (T2 & T3 & T4). destruct (J3 b ltac:(lia) T2) as [U1 U2]. rewrite U1. auto. }
    split; [|exact G]. intros b Hb.
    assert (HD : isTmp C b \/ ~ isTmp C b).
    { unfold isTmp. destruct (ch_tmpvals C) as [s|], (ch_tmpindx C) as [s'|].
      - destruct (Nat.eq_dec (sl_blk s) b); [left; left; eauto|]. destruct (Nat.eq_dec (sl_blk s') b); [left; right; eauto|].
        right. intros [(x & [= <-] & HE)|(x & [= <-] & HE)]; auto.
      - destruct (Nat.eq_dec (sl_blk s) b); [left; left; eauto|]. right. intros [(x & [= <-] & HE)|(x & [=] & HE)]; auto.
      - destruct (Nat.eq_dec (sl_blk s') b); [left; right; eauto|]. right. intros [(x & [=] & HE)|(x & [= <-] & HE)]; auto.
      - right. intros [(x & [=] & HE)|(x & [=] & HE)]. }
    destruct HD as [HD|HD]; [auto|left; apply G; auto].
  - injection E2 as <- <-. destruct (IH eq_refl _ _ eq_refl) as (K1 & K2 & K3 & K4 & K5 & K6). split; [apply hinv_alloc; auto|]. rewrite app_length. split; [lia|]. split; auto. split; auto.
    split; intros b Hb; rewrite !(block_apps h2 [l] b) by lia; auto.
  - injection E2 as <- <-. destruct (IH eq_refl _ _ eq_refl) as (K1 & K2 & K3 & K4 & K5 & K6). split; [apply hinv_write; auto|]. rewrite write_length. split; auto. split; auto. split; auto.
    split.
    + intros b0 Hb. rewrite write_block_len; auto.
    + intros b0 Hb Ht. destruct (K6 b0 Hb Ht) as (T1 & T2 & T3). rewrite write_block_len by auto. split; auto. split; auto. intros HN.
      rewrite block_write_other; auto. intros ->. auto.
Qed.

(** ** the start *)
Lemma startH {K} h M (D : DataBunch K) p h0 C0 : (p < length h)%nat -> MCConfusionsH h M D p = Ok (h0, C0) ->
  exists preds, Forall2 (predictsLabel M) (Data D) preds /\ h0 = h ++ [ClassLabels M; preds] /\
    C0 = MkCH p (S (length h)) (length h) None None None (fillMap (ClassLabels M) 0 []) /\ hinv h0 C0.
Proof.
  intros Hp H. unfold MCConfusionsH in H. apply bind_Ok in H as (C & HC & H). injection H as <- <-.
  apply MCConfusions_inv in HC as (_ & H2 & H3 & _ & _ & _ & H7). exists (cf_predicted C). cbn [Data] in H3. rewrite H2, H7. split; auto. split; auto. split; auto.
  split.
  - intros b [->|[->|[->|(rows & [=] & _)]]]; cbn [ch_actual ch_predicted ch_labels]; rewrite app_length; cbn [length]; lia.
  - intros b [(s & [=] & _)|(s & [=] & _)].
  - intros rows [=].
  - intros s [[=]|[=]].
Qed.

(** ** theorems *)
Section T.
Context {K : Type} (E : Env) (M : MultiClass) (D : DataBunch K) (h h0 : heap) (p : nat) (C0 : ConfH).
Hypothesis Hp : (p < length h)%nat.
Hypothesis H0 : MCConfusionsH h M D p = Ok (h0, C0).

(** the library leaves every array alone but its two buffers *)
Lemma calls_keep h1 C1 h2 C2 : hreach E anywhere (h0, C0) (h1, C1) -> hcall E (h1, C1) (h2, C2) ->
  forall b, (b < length h1)%nat -> ~ isTmp C1 b -> block h2 b = block h1 b.
Proof.
  intros HR HC b Hb Ht. destruct (startH _ _ _ _ _ _ Hp H0) as (preds & _ & _ & _ & HI). destruct (hreach_keeps _ _ _ _ _ _ HI HR) as (K1 & _).
  destruct (hcall_keeps _ _ _ _ _ K1 HC) as (_ & (_ & J & _) & _). apply J; auto.
Qed.
(** the caller's memory never becomes a buffer *)
Lemma own_memory may h1 C1 b : hreach E may (h0, C0) (h1, C1) -> (b < length h)%nat -> ~ isTmp C1 b /\ (~ may b -> block h1 b = block h b).
Proof.
  intros HR Hb. destruct (startH _ _ _ _ _ _ Hp H0) as (preds & _ & EH & EC & HI). destruct (hreach_keeps _ _ _ _ _ _ HI HR) as (_ & _ & _ & _ & _ & KK).
  destruct (KK b) as (T1 & _ & T3); [subst h0; rewrite app_length; lia|subst C0; intros [(s & [=] & _)|(s & [=] & _)]|]. split; auto. intros Hm. rewrite T3 by auto. subst h0. apply block_apps. auto.
Qed.
(** the first call counts what is there at that time *)
Lemma first_call h1 C1 : hreach E anywhere (h0, C0) (h1, C1) -> ch_matrix C1 = None -> NoDup (ClassLabels M) -> (length (block h p) <= length (Data D))%nat ->
  block h1 (ch_labels C0) = block h0 (ch_labels C0) -> block h1 (ch_predicted C0) = block h0 (ch_predicted C0) ->
  exists preds h2 rows C2, Forall2 (predictsLabel M) (Data D) preds /\ MatrixH h1 C1 = Ok (h2, rows, C2) /\
    map (block h2) rows = map (fun a => map (countPairs (block h1 p) preds a) (ClassLabels M)) (ClassLabels M).
Proof.
  intros HR HN HD HL EL EP. destruct (startH _ _ _ _ _ _ Hp H0) as (preds & HF & EH & EC & HI). destruct (hreach_keeps _ _ _ _ _ _ HI HR) as (K1 & K2 & K3 & K4 & K5 & K6).
  rewrite EC in K3, EL, EP. cbn [ch_actual ch_predicted ch_labels ch_m] in K3, EL, EP. injection K3 as E1 E2 E3 E4.
  assert (EL' : block h1 (length h) = ClassLabels M) by (rewrite EL, EH; unfold block; rewrite app_nth2 by lia; rewrite Nat.sub_diag; auto).
  assert (EP' : block h1 (S (length h)) = preds) by (rewrite EP, EH; unfold block; rewrite app_nth2 by lia; replace (S (length h) - length h)%nat with 1%nat by lia; auto).
  assert (LA : length (block h1 p) = length (block h p)).
  { destruct (K5 p) as [HE|HE]; [rewrite EH, app_length; lia| |rewrite EC in HE; destruct HE as [(s & [=] & _)|(s & [=] & _)]]. rewrite HE, EH, block_apps; auto. }
  exists preds. unfold MatrixH. rewrite HN.
  assert (HM : made (valC h1 C1)).
  { split; unfold valC; cbn [cf_labels cf_m cf_predicted cf_actual]; rewrite ?E1, ?E2, ?E3, ?E4, ?EL', ?EP'.
    - intros q l Hq. rewrite (fillMap_get _ HD 0 [] q l Hq). lia.
    - exact HD.
    - intros x Hx. eapply known_preds; eauto.
    - intros i l Hi _. rewrite <- (F2_len _ _ _ HF). assert (i < length (block h1 p))%nat by (apply nth_error_Some; congruence). lia. }
  unfold Matrix. replace (cf_matrix (valC h1 C1)) with (@None (list (list Z))) by (unfold valC; cbn [cf_matrix]; rewrite HN; auto).
  rewrite rows_ok by auto. cbn [bind]. eexists _, _, _. split; [exact HF|]. split; [reflexivity|]. rewrite block_rows.
  unfold matrixOf, countsFor, valC. cbn [cf_labels cf_actual cf_predicted]. rewrite E1, E2, E3, EL', EP'. reflexivity.
Qed.
(** afterwards the matrix is what it was, but for writes to the returned rows *)
Lemma cached may h1 C1 h2 rows C2 h3 C3 : hreach E anywhere (h0, C0) (h1, C1) -> MatrixH h1 C1 = Ok (h2, rows, C2) -> hreach E may (h2, C2) (h3, C3) ->
  MatrixH h3 C3 = Ok (h3, rows, C3) /\ (forall r, In r rows -> ~ may r -> block h3 r = block h2 r).
Proof.
  intros HR HM HR2. destruct (startH _ _ _ _ _ _ Hp H0) as (preds & _ & _ & _ & HI). destruct (hreach_keeps _ _ _ _ _ _ HI HR) as (K1 & _).
  destruct (MatrixH_keeps _ _ _ _ _ K1 HM) as (J1 & _ & J3 & _). destruct (hreach_keeps _ _ _ _ _ _ J1 HR2) as (_ & _ & _ & L4 & _ & L6).
  split; [unfold MatrixH; rewrite (L4 rows J3); auto|]. intros r Hr Hm.
  assert (IN : inner C2 r) by (right; right; right; eauto). destruct (L6 r) as (_ & _ & HE); auto.
  - apply (hi_in h2 C2 J1); auto.
  - intros Ht. apply (hi_tmp h2 C2 J1) in Ht. tauto.
Qed.
End T.
