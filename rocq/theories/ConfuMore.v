(** Confusion matrices: the calls of a program, aliasing of the returned slices, printing. *)
From Coq Require Import Ascii String.
From Verif Require Import Base F64 Env EnvLemmas Utils Tree Options Train Spec SpecTrain Text Confu SpecConfu ConfuProofs.
From Coq Require Import List.
Open Scope Z_scope.

(** ** heaps *)
Lemma block_app h l b : (b < length h)%nat -> block (h ++ [l]) b = block h b.
Proof. intros H. unfold block. apply app_nth1. auto. Qed.
Lemma block_new h l : block (h ++ [l]) (length h) = l.
Proof. unfold block. rewrite app_nth2 by lia. rewrite Nat.sub_diag. auto. Qed.
Lemma block_write h b l : (b < length h)%nat -> block (write h b l) b = l.
Proof.
  intros H. unfold block, write. apply nth_error_nth. rewrite upd_nat_nth, Nat.eqb_refl.
  assert (E : Nat.ltb b (length h) = true) by (apply Nat.ltb_lt; auto). rewrite E. auto.
Qed.
Lemma block_write_other h b l b' : b' <> b -> block (write h b l) b' = block h b'.
Proof.
  intros H. unfold block, write. destruct (nth_error h b') as [x|] eqn:E.
  - rewrite (nth_error_nth h b' [] E). apply nth_error_nth. rewrite upd_nat_nth. apply Nat.eqb_neq in H. rewrite H. auto.
  - apply nth_error_None in E. rewrite !nth_overflow; auto. rewrite upd_nat_length. auto.
Qed.
Lemma write_length h b l : length (write h b l) = length h.
Proof. apply upd_nat_length. Qed.

(** ** the state of a Confusions made by MCConfusions *)
Definition base (C : Confusions) := (cf_actual C, cf_predicted C, cf_labels C, cf_m C).
Definition okTmp (n : nat) (h : heap) (o : option slice) : Prop :=
  match o with None => True | Some s => (sl_blk s < length h)%nat /\ sl_len s = n /\ length (block h (sl_blk s)) = n end.
Definition bothTmp (C : Confusions) : Prop :=
  (cf_tmpvals C = None /\ cf_tmpindx C = None) \/ exists v i, cf_tmpvals C = Some v /\ cf_tmpindx C = Some i /\ sl_blk v <> sl_blk i.
Record inv (C0 C : Confusions) (h : heap) : Prop := {
  iv_base : base C = base C0;
  iv_mat : cf_matrix C = None \/ cf_matrix C = Some (matrixOf C0);
  iv_v : okTmp (length (cf_labels C0)) h (cf_tmpvals C);
  iv_i : okTmp (length (cf_labels C0)) h (cf_tmpindx C);
  iv_both : bothTmp C
}.
(** array [b] is in use and is not one of the buffers *)
Definition safe (C : Confusions) (h : heap) (b : nat) : Prop :=
  (b < length h)%nat /\ (forall s, cf_tmpvals C = Some s -> sl_blk s <> b) /\ (forall s, cf_tmpindx C = Some s -> sl_blk s <> b).
(** what every call preserves: the invariant, arrays that are not buffers, and the buffers once allocated *)
Record keeps (C0 C : Confusions) (h : heap) (C' : Confusions) (h' : heap) : Prop := {
  kp_inv : inv C0 C' h';
  kp_len : (length h <= length h')%nat;
  kp_safe : forall b, safe C h b -> safe C' h' b /\ block h' b = block h b;
  kp_v : forall s, cf_tmpvals C = Some s -> cf_tmpvals C' = Some s;
  kp_i : forall s, cf_tmpindx C = Some s -> cf_tmpindx C' = Some s
}.
Lemma keeps_refl C0 C h : inv C0 C h -> keeps C0 C h C h.
Proof. intros H. split; auto. Qed.
Lemma keeps_trans C0 C h C1 h1 C2 h2 : keeps C0 C h C1 h1 -> keeps C0 C1 h1 C2 h2 -> keeps C0 C h C2 h2.
Proof.
  intros [A1 A2 A3 A4 A5] [B1 B2 B3 B4 B5]. split; auto; [lia|]. intros b Hb. destruct (A3 b Hb) as [Hb1 E1]. destruct (B3 b Hb1) as [Hb2 E2].
  split; auto. congruence.
Qed.
Lemma base_inv C C0 : base C = base C0 -> cf_actual C = cf_actual C0 /\ cf_predicted C = cf_predicted C0 /\ cf_labels C = cf_labels C0 /\ cf_m C = cf_m C0.
Proof. unfold base. intros [= A B D E]. auto. Qed.
Lemma made_base C C0 : base C = base C0 -> made C0 -> made C.
Proof. intros H [A B D E]. apply base_inv in H as (H1 & H2 & H3 & H4). split; rewrite ?H1, ?H2, ?H3, ?H4; auto. Qed.
Lemma matrixOf_base C C0 : base C = base C0 -> matrixOf C = matrixOf C0.
Proof. intros H. apply base_inv in H as (H1 & H2 & H3 & H4). unfold matrixOf. rewrite H1, H2, H3. auto. Qed.
Lemma Matrix_inv C0 C h : made C0 -> inv C0 C h -> exists C', Matrix C = Ok (matrixOf C0, C') /\ keeps C0 C h C' h /\
  cf_tmpvals C' = cf_tmpvals C /\ cf_tmpindx C' = cf_tmpindx C.
Proof.
  intros HM [A B D E F]. unfold Matrix. destruct B as [->|HS].
  - rewrite rows_ok by (eapply made_base; eauto). cbn [bind]. rewrite (matrixOf_base C C0 A). eexists. split; [reflexivity|]. split; [|auto]. split; [split; auto|auto|intros b Hb; split; [exact Hb|auto]|auto|auto].
  - rewrite HS. exists C. split; auto. split; [|auto]. apply keeps_refl. split; auto.
Qed.

(** ** TopNForLabelM *)
Lemma memIntSort_len E row : EnvOk E -> let '(si, sv) := memIntSort E row in length si = length row /\ length sv = length row.
Proof.
  intros HE. unfold memIntSort. rewrite !map_length. rewrite <- (Permutation_length (ok_sort_perm E HE _ idxLess (combine (iota (length row)) row))).
  rewrite combine_length. unfold iota. rewrite map_length, seq_length. lia.
Qed.
Lemma cut_ok N s : 0 <= N -> cut N s = Ok (MkSl (sl_blk s) (Nat.min (Z.to_nat N) (sl_len s))).
Proof.
  intros H. unfold cut. destruct (Z.leb_spec (Z.of_nat (sl_len s)) N); [f_equal; destruct s; simpl in *; f_equal; lia|].
  destruct (Z.ltb_spec N 0); [lia|]. f_equal. f_equal. lia.
Qed.
Lemma cut_panic N s : N < 0 -> cut N s = Panic.
Proof. intros H. unfold cut. destruct (Z.leb_spec (Z.of_nat (sl_len s)) N); [lia|]. destruct (Z.ltb_spec N 0); [auto|lia]. Qed.
Lemma firstn_min {A} n (l : list A) : firstn (Nat.min n (length l)) l = firstn n l.
Proof.
  destruct (Nat.le_ge_cases n (length l)) as [H|H]; [rewrite Nat.min_l by auto; auto|].
  rewrite Nat.min_r by auto. rewrite firstn_all, firstn_all2 by auto. auto.
Qed.
Lemma sread_cut h s n l : block h (sl_blk s) = l -> length l = sl_len s -> sread h (MkSl (sl_blk s) (Nat.min n (sl_len s))) = firstn n l.
Proof. intros H HL. unfold sread. cbn [sl_len sl_blk]. rewrite H, <- HL. apply firstn_min. Qed.
Lemma sread_all h s l : block h (sl_blk s) = l -> length l = sl_len s -> sread h s = l.
Proof. intros H HL. unfold sread. rewrite H, <- HL. apply firstn_all. Qed.

(** what one call returns: the result slices, with and without copies *)
Definition topRes (C : Confusions) (h : heap) (C' : Confusions) (h' : heap) (n : nat) (docopy : bool) (si sv : list Z) (ri rv : slice) : Prop :=
  sread h' ri = firstn n (rev si) /\ sread h' rv = firstn n (rev sv) /\
  (if docopy then safe C' h' (sl_blk ri) /\ safe C' h' (sl_blk rv)
   else exists ti tv, cf_tmpindx C' = Some ti /\ cf_tmpvals C' = Some tv /\
          ri = MkSl (sl_blk ti) (Nat.min n (sl_len ti)) /\ rv = MkSl (sl_blk tv) (Nat.min n (sl_len tv))).

Section Finish.
Context (C0 C1 : Confusions) (h : heap) (tv ti : slice) (si sv : list Z).
Hypothesis HB : base C1 = base C0.
Hypothesis HMx : cf_matrix C1 = None \/ cf_matrix C1 = Some (matrixOf C0).
Hypothesis Hv : okTmp (length (cf_labels C0)) h (Some tv).
Hypothesis Hi : okTmp (length (cf_labels C0)) h (Some ti).
Hypothesis Hne : sl_blk tv <> sl_blk ti.
Hypothesis Hsi : length si = length (cf_labels C0).
Hypothesis Hsv : length sv = length (cf_labels C0).
Let C2 := setTmp C1 tv ti.
Let h3 := write (write h (sl_blk ti) (rev si)) (sl_blk tv) (rev sv).
Lemma h3_len : length h3 = length h.
Proof. unfold h3. rewrite !write_length. auto. Qed.
Lemma h3_i : block h3 (sl_blk ti) = rev si.
Proof. unfold h3. rewrite block_write_other by auto. apply block_write. apply Hi. Qed.
Lemma h3_v : block h3 (sl_blk tv) = rev sv.
Proof. unfold h3. apply block_write. rewrite write_length. apply Hv. Qed.
Lemma h3_other b : b <> sl_blk ti -> b <> sl_blk tv -> block h3 b = block h b.
Proof. intros H1 H2. unfold h3. rewrite !block_write_other; auto. Qed.
Lemma inv3 h' : (length h <= length h')%nat -> block h' (sl_blk ti) = rev si -> block h' (sl_blk tv) = rev sv -> inv C0 C2 h'.
Proof.
  intros HL H1 H2. destruct Hv as (V1 & V2 & V3), Hi as (I1 & I2 & I3). split; cbn [C2 setTmp base cf_matrix cf_tmpvals cf_tmpindx]; auto.
  - cbn [okTmp]. rewrite H2, rev_length. split; [lia|]. auto.
  - cbn [okTmp]. rewrite H1, rev_length. split; [lia|]. auto.
  - right. exists tv, ti. auto.
Qed.
Lemma finish (docopy : bool) N : 0 <= N -> exists h' ri rv,
  (let '(h5, ci, cv) :=
      if docopy then let '(h4, cv) := alloc h3 (sread h3 tv) in let '(h5, ci) := alloc h4 (sread h4 ti) in (h5, ci, cv)
      else (h3, ti, tv) in
    ri <- cut N ci ;; rv <- cut N cv ;; Ok (Some (ri, rv), C2, h5)) = Ok (Some (ri, rv), C2, h') /\
  inv C0 C2 h' /\ (length h <= length h')%nat /\ (forall b, b <> sl_blk ti -> b <> sl_blk tv -> (b < length h)%nat -> block h' b = block h b) /\
  topRes C1 h C2 h' (Z.to_nat N) docopy si sv ri rv.
Proof.
  intros HN. destruct Hv as (V1 & V2 & V3), Hi as (I1 & I2 & I3). destruct docopy.
  - assert (RV : sread h3 tv = rev sv) by (apply sread_all; [apply h3_v|rewrite rev_length; congruence]).
    unfold alloc. cbv beta iota zeta. rewrite RV.
    assert (RI : sread (h3 ++ [rev sv]) ti = rev si).
    { apply sread_all; [|rewrite rev_length; congruence]. rewrite block_app by (rewrite h3_len; lia). apply h3_i. }
    rewrite RI. rewrite !cut_ok by auto. cbn [bind sl_blk sl_len].
    eexists; eexists; eexists; split; [reflexivity|]. set (h' := (h3 ++ [rev sv]) ++ [rev si]).
    assert (HL : length h' = S (S (length h))) by (unfold h'; rewrite !app_length, h3_len; simpl; lia).
    assert (HO : forall b, (b < length h)%nat -> block h' b = block h3 b).
    { intros b Hb. unfold h'. rewrite !block_app; auto; rewrite ?app_length, h3_len; simpl; lia. }
    assert (Bi : block h' (length (h3 ++ [rev sv])) = rev si) by apply block_new.
    assert (Bv : block h' (length h3) = rev sv).
    { unfold h'. rewrite block_app by (rewrite app_length; simpl; lia). apply block_new. }
    split; [apply inv3; [lia|rewrite HO by auto; apply h3_i|rewrite HO by auto; apply h3_v]|]. split; [lia|]. split.
    + intros b H1 H2 Hb. rewrite HO by auto. apply h3_other; auto.
    + split; [|split; [|split]].
      * exact (sread_cut h' (MkSl (length (h3 ++ [rev sv])) (length (rev si))) (Z.to_nat N) (rev si) Bi eq_refl).
      * exact (sread_cut h' (MkSl (length h3) (length (rev sv))) (Z.to_nat N) (rev sv) Bv eq_refl).
      * cbn [sl_blk C2 setTmp cf_tmpvals cf_tmpindx]. split; [rewrite HL, app_length, h3_len; simpl; lia|]. cbn [cf_tmpvals cf_tmpindx C2 setTmp].
        split; intros s [= <-]; rewrite app_length, h3_len; simpl; lia.
      * cbn [sl_blk]. split; [rewrite HL, h3_len; simpl; lia|]. cbn [cf_tmpvals cf_tmpindx C2 setTmp]. split; intros s [= <-]; rewrite h3_len; lia.
  - cbv beta iota zeta. rewrite !cut_ok by auto. cbn [bind]. eexists; eexists; eexists; split; [reflexivity|].
    split; [apply inv3; [rewrite h3_len; lia|apply h3_i|apply h3_v]|]. split; [rewrite h3_len; lia|]. split; [intros; apply h3_other; auto|].
    split; [|split].
    + apply sread_cut; [apply h3_i|rewrite rev_length; congruence].
    + apply sread_cut; [apply h3_v|rewrite rev_length; congruence].
    + exists ti, tv. cbn [cf_tmpvals cf_tmpindx C2 setTmp]. auto.
Qed.
Lemma finish_neg (docopy : bool) N : N < 0 ->
  (let '(h5, ci, cv) :=
      if docopy then let '(h4, cv) := alloc h3 (sread h3 tv) in let '(h5, ci) := alloc h4 (sread h4 ti) in (h5, ci, cv)
      else (h3, ti, tv) in
    ri <- cut N ci ;; rv <- cut N cv ;; Ok (Some (ri, rv), C2, h5)) = Panic.
Proof. intros HN. destruct docopy; unfold alloc; cbv beta iota zeta; rewrite (cut_panic N) by auto; auto. Qed.
End Finish.

Lemma sliceIndex_spec l v : (0 <= sliceIndex l v /\ idx l (sliceIndex l v) = Ok v) \/ (sliceIndex l v = -1 /\ ~ In v l).
Proof.
  unfold sliceIndex. assert (H : forall l k, 0 <= k -> (k <= sliceIndexFrom l v k /\ nth_error l (Z.to_nat (sliceIndexFrom l v k - k)) = Some v) \/ (sliceIndexFrom l v k = -1 /\ ~ In v l)).
  { induction l0 as [|x t IH]; intros k Hk; cbn [sliceIndexFrom]; [right; auto|]. destruct (Z.eqb_spec x v) as [->|Hne].
    - left. rewrite Z.sub_diag. simpl. split; [lia|auto].
    - destruct (IH (k + 1)) as [[H1 H2]|[H1 H2]]; [lia| |].
      + left. split; [lia|]. replace (Z.to_nat (sliceIndexFrom t v (k + 1) - k)) with (S (Z.to_nat (sliceIndexFrom t v (k + 1) - (k + 1)))) by lia. auto.
      + right. split; auto. intros [H|H]; auto. }
  destruct (H l 0) as [[H1 H2]|H1]; [lia| |right; auto]. left. rewrite Z.sub_0_r in H2. split; auto. apply idx_Ok. auto.
Qed.
Lemma matrixOf_idx C0 k v : idx (cf_labels C0) k = Ok v -> idx (matrixOf C0) k = Ok (countsFor (cf_labels C0) (cf_actual C0) (cf_predicted C0) v).
Proof. intros H. apply idx_Ok in H as [H1 H2]. apply idx_Ok. split; auto. unfold matrixOf. rewrite nth_error_map, H2. auto. Qed.

Section Top.
Context (E : Env) (HE : EnvOk E) (C0 : Confusions) (HM : made C0).
Notation row M := (countsFor (cf_labels C0) (cf_actual C0) (cf_predicted C0) M).

Lemma top_unknown C h N M dc : inv C0 C h -> ~ In M (cf_labels C0) -> exists C', TopNForLabelM E C h N M dc = Ok (None, C', h) /\ keeps C0 C h C' h.
Proof.
  intros HI HN. destruct (Matrix_inv C0 C h HM HI) as (C1 & HMx & HK & _). exists C1. split; auto. unfold TopNForLabelM. rewrite HMx. cbn [bind].
  destruct (base_inv _ _ (iv_base _ _ _ (kp_inv _ _ _ _ _ HK))) as (_ & _ & -> & _).
  destruct (sliceIndex_spec (cf_labels C0) M) as [[_ H]|[H _]]; [exfalso; apply HN; apply idx_Ok in H as [_ H]; eapply nth_error_In; eauto|].
  rewrite H. auto.
Qed.
Lemma top_known C h N M dc : inv C0 C h -> In M (cf_labels C0) ->
  if 0 <=? N then exists C' h' ri rv, TopNForLabelM E C h N M dc = Ok (Some (ri, rv), C', h') /\ keeps C0 C h C' h' /\
    topRes C h C' h' (Z.to_nat N) dc (fst (memIntSort E (row M))) (snd (memIntSort E (row M))) ri rv
  else TopNForLabelM E C h N M dc = Panic.
Proof.
  intros HI HIn. destruct (Matrix_inv C0 C h HM HI) as (C1 & HMx & HK & Ev & Ei).
  pose proof (kp_inv _ _ _ _ _ HK) as HI1. destruct (base_inv _ _ (iv_base _ _ _ HI1)) as (_ & _ & EL & _).
  destruct (sliceIndex_spec (cf_labels C0) M) as [[Hge Hk]|[_ Hn]]; [|contradiction].
  pose proof (matrixOf_idx C0 _ M Hk) as Hrow. pose proof (memIntSort_len E (row M) HE) as HSL. destruct (memIntSort E (row M)) as [si sv] eqn:Es. cbn [fst snd].
  assert (HRL : length (row M) = length (cf_labels C0)) by (unfold countsFor; apply map_length). destruct HSL as [Lsi Lsv]. rewrite HRL in Lsi, Lsv.
  assert (Hpos : (0 < length (cf_labels C0))%nat) by (destruct (cf_labels C0); [destruct HIn|simpl; lia]).
  assert (EX : exists h2 tv ti, (forall dcopy : bool, TopNForLabelM E C h N M dcopy =
     (let '(h5, ci, cv) :=
      if dcopy then let '(h4, cv) := alloc (write (write h2 (sl_blk ti) (rev si)) (sl_blk tv) (rev sv)) (sread (write (write h2 (sl_blk ti) (rev si)) (sl_blk tv) (rev sv)) tv) in
                     let '(h5, ci) := alloc h4 (sread h4 ti) in (h5, ci, cv)
      else (write (write h2 (sl_blk ti) (rev si)) (sl_blk tv) (rev sv), ti, tv) in
      ri <- cut N ci ;; rv <- cut N cv ;; Ok (Some (ri, rv), setTmp C1 tv ti, h5))) /\
     okTmp (length (cf_labels C0)) h2 (Some tv) /\ okTmp (length (cf_labels C0)) h2 (Some ti) /\ sl_blk tv <> sl_blk ti /\ (length h <= length h2)%nat /\
     (forall b, (b < length h)%nat -> block h2 b = block h b) /\
     (forall s, cf_tmpvals C = Some s -> tv = s) /\ (forall s, cf_tmpindx C = Some s -> ti = s) /\
     (cf_tmpvals C = None -> (length h <= sl_blk tv)%nat) /\ (cf_tmpindx C = None -> (length h <= sl_blk ti)%nat)).
  { destruct (iv_both _ _ _ HI1) as [[Nv Ni]|(v & i & Sv & Si & Hne)].
    - exists ((h ++ [repeat 0 (length (row M))]) ++ [repeat 0 (length (row M))]), (MkSl (length h) (length (row M))), (MkSl (S (length h)) (length (row M))).
      split; [|split; [|split; [|split; [|split; [|split; [|split; [|split; [|split]]]]]]]].
      + intros dcopy. unfold TopNForLabelM. rewrite HMx. cbn [bind]. rewrite EL. destruct (Z.ltb_spec (sliceIndex (cf_labels C0) M) 0); [lia|].
        rewrite Hrow. cbn [bind]. rewrite Nv, Ni. unfold buffer. rewrite HRL. destruct (length (cf_labels C0)) as [|n] eqn:En; [lia|]. cbn [Nat.eqb]. unfold alloc at 1 2.
        cbv beta iota zeta. rewrite Es. rewrite !repeat_length. rewrite app_length. cbn [length]. rewrite (Nat.add_1_r (length h)). reflexivity.
      + cbn [okTmp sl_blk sl_len]. rewrite !app_length. cbn [length]. split; [lia|]. split; [auto|]. rewrite block_app by (rewrite app_length; simpl; lia).
        rewrite block_new, repeat_length. auto.
      + cbn [okTmp sl_blk sl_len]. rewrite !app_length. cbn [length]. split; [lia|]. split; [auto|].
        assert (EQ : S (length h) = length (h ++ [repeat 0 (length (row M))])) by (rewrite app_length; simpl; lia). rewrite EQ.
        rewrite block_new, repeat_length. auto.
      + cbn [sl_blk]. lia.
      + rewrite !app_length. simpl. lia.
      + intros b Hb. rewrite !block_app; auto. rewrite app_length. simpl. lia.
      + intros s Hs. congruence.
      + intros s Hs. congruence.
      + cbn [sl_blk]. lia.
      + cbn [sl_blk]. lia.
    - exists h, v, i. pose proof (iv_v _ _ _ HI1) as Kv. pose proof (iv_i _ _ _ HI1) as Ki. rewrite Sv in Kv. rewrite Si in Ki.
      split; [|split; [|split; [|split; [|split; [|split; [|split; [|split; [|split]]]]]]]]; auto.
      + intros dcopy. unfold TopNForLabelM. rewrite HMx. cbn [bind]. rewrite EL. destruct (Z.ltb_spec (sliceIndex (cf_labels C0) M) 0); [lia|].
        rewrite Hrow. cbn [bind]. rewrite Sv, Si. unfold buffer. destruct Kv as (_ & -> & _), Ki as (_ & -> & _). rewrite HRL, Nat.eqb_refl. rewrite Es. reflexivity.
      + intros s Hs. congruence.
      + intros s Hs. congruence.
      + intros Hs. congruence.
      + intros Hs. congruence. }
  destruct EX as (h2 & tv & ti & HT & Kv & Ki & Hne & HL2 & HBk & Sv & Si & Nv & Ni). rewrite HT.
  destruct (Z.leb_spec 0 N) as [HN|HN]; [|apply finish_neg; auto].
  destruct (finish C0 C1 h2 tv ti si sv (iv_base _ _ _ HI1) (iv_mat _ _ _ HI1) Kv Ki Hne Lsi Lsv dc N HN) as (h' & ri & rv & HF & Hinv & HL & HO & HR).
  exists (setTmp C1 tv ti), h', ri, rv. split; [exact HF|]. split.
  - split; auto; [lia| | |].
    + intros b (Hb & B1 & B2). assert (b <> sl_blk tv).
      { destruct (cf_tmpvals C) as [s|]; [|specialize (Nv eq_refl); lia]. rewrite (Sv s eq_refl). intros ->. apply (B1 s); auto. }
      assert (b <> sl_blk ti).
      { destruct (cf_tmpindx C) as [s|]; [|specialize (Ni eq_refl); lia]. rewrite (Si s eq_refl). intros ->. apply (B2 s); auto. }
      split; [|rewrite HO by (auto; lia); auto]. split; [lia|]. cbn [setTmp cf_tmpvals cf_tmpindx]. split; intros s [= <-]; auto.
    + intros s Hs. cbn [setTmp cf_tmpvals]. rewrite (Sv s Hs). auto.
    + intros s Hs. cbn [setTmp cf_tmpindx]. rewrite (Si s Hs). auto.
  - destruct HR as (R1 & R2 & R3). split; [auto|]. split; [auto|]. exact R3.
Qed.

Lemma top_call C h N M dc r C' h' : inv C0 C h -> TopNForLabelM E C h N M dc = Ok (r, C', h') ->
  keeps C0 C h C' h' /\ match r with
  | None => ~ In M (cf_labels C0)
  | Some (ri, rv) => In M (cf_labels C0) /\ 0 <= N /\ topRes C h C' h' (Z.to_nat N) dc (fst (memIntSort E (row M))) (snd (memIntSort E (row M))) ri rv
  end.
Proof.
  intros HI HT. destruct (in_dec Z.eq_dec M (cf_labels C0)) as [H|H].
  - pose proof (top_known C h N M dc HI H) as HK. destruct (Z.leb_spec 0 N); [|congruence]. destruct HK as (C2 & h2 & ri & rv & HT2 & HK & HR).
    rewrite HT in HT2. injection HT2 as -> -> ->. auto.
  - destruct (top_unknown C h N M dc HI H) as (C2 & HT2 & HK). rewrite HT in HT2. injection HT2 as -> -> ->. auto.
Qed.

(** ** all labels *)
Definition perTop (N : Z) (h : heap) (M : Z) (ri rf : option slice) : Prop :=
  exists i f, ri = Some i /\ rf = Some f /\ sread h i = firstn (Z.to_nat N) (rev (fst (memIntSort E (row M)))) /\
    sread h f = firstn (Z.to_nat N) (rev (snd (memIntSort E (row M)))).
Inductive Forall3 {A B D : Type} (R : A -> B -> D -> Prop) : list A -> list B -> list D -> Prop :=
| F3_nil : Forall3 R [] [] []
| F3_cons a b d la lb ld : R a b d -> Forall3 R la lb ld -> Forall3 R (a :: la) (b :: lb) (d :: ld).
Lemma topLoop_keeps N : forall labels C h ri rf C' h', inv C0 C h -> topLoop E labels C h N = Ok (ri, rf, C', h') -> keeps C0 C h C' h'.
Proof.
  induction labels as [|M t IH]; intros C h ri rf C' h' HI; cbn [topLoop]; intros HT.
  - injection HT as <- <- <- <-. apply keeps_refl; auto.
  - apply bind_Ok in HT as (((r & C1) & h1) & H1 & HT). apply bind_Ok in HT as ((((ri2 & rf2) & C2) & h2) & H2 & HT). injection HT as <- <- <- <-.
    destruct (top_call C h N M true r C1 h1 HI H1) as [K1 _]. eapply keeps_trans; [exact K1|]. eapply IH; eauto. apply K1.
Qed.
Lemma topLoop_total N : 0 <= N -> forall labels C h, inv C0 C h -> (forall M, In M labels -> In M (cf_labels C0)) ->
  exists ri rf C' h', topLoop E labels C h N = Ok (ri, rf, C', h') /\ keeps C0 C h C' h' /\
    Forall3 (perTop N h') labels ri rf /\
    (forall s, In (Some s) ri \/ In (Some s) rf -> safe C' h' (sl_blk s)).
Proof.
  intros HN. induction labels as [|M t IH]; intros C h HI HL; cbn [topLoop].
  - exists [], [], C, h. split; [auto|]. split; [apply keeps_refl; auto|]. split; [constructor|]. intros s [[]|[]].
  - pose proof (top_known C h N M true HI (HL M (or_introl eq_refl))) as HK. destruct (Z.leb_spec 0 N); [|lia].
    destruct HK as (C1 & h1 & i & f & HT & K1 & Ri & Rf & Si & Sf). rewrite HT. cbn [bind].
    destruct (IH C1 h1 (kp_inv _ _ _ _ _ K1)) as (ri & rf & C2 & h2 & HT2 & K2 & HF & HS); [intros; apply HL; right; auto|]. rewrite HT2. cbn [bind option_map].
    eexists; eexists; eexists; eexists. split; [reflexivity|]. split; [eapply keeps_trans; eauto|].
    destruct (kp_safe _ _ _ _ _ K2 _ Si) as [Si2 Ei2]. destruct (kp_safe _ _ _ _ _ K2 _ Sf) as [Sf2 Ef2]. split.
    + constructor; [|exact HF]. exists i, f. split; [auto|]. split; [auto|]. unfold sread in *. rewrite Ei2, Ef2. auto.
    + intros s [[H0|H0]|[H0|H0]]; [injection H0 as <-; auto|apply HS; auto|injection H0 as <-; auto|apply HS; auto].
Qed.
Lemma step_keeps s s' : inv C0 (fst s) (snd s) -> cstep E s s' -> keeps C0 (fst s) (snd s) (fst s') (snd s').
Proof.
  intros HI HS. destruct HS as [C h m C' H|C h N M dc r C' h' H|C h N ri rf C' h' H|C h N names out C' h' H|C h l]; cbn [fst snd] in *.
  - destruct (Matrix_inv C0 C h HM HI) as (C1 & H1 & K1 & _). rewrite H in H1. injection H1 as -> ->. exact K1.
  - apply (top_call C h N M dc r C' h' HI H).
  - eapply topLoop_keeps; eauto.
  - unfold PrintTopN in H. apply bind_Ok in H as ((((ri & rf) & C1) & h1) & H1 & H). apply bind_Ok in H as (ls & _ & H). injection H as _ <- <-. eapply topLoop_keeps; eauto.
  - assert (HO : forall o, okTmp (length (cf_labels C0)) h o -> okTmp (length (cf_labels C0)) (h ++ [l]) o).
    { intros [s|]; [|auto]. cbn [okTmp]. intros (A & B & D). rewrite app_length, block_app by auto. simpl. split; [lia|auto]. }
    destruct HI as [A B D F G]. split; auto.
    + split; auto.
    + rewrite app_length. lia.
    + intros b (B1 & B2). split; [|apply block_app; auto]. split; [rewrite app_length; lia|auto].
Qed.
Lemma calls_keeps s s' : inv C0 (fst s) (snd s) -> ccalls E s s' -> keeps C0 (fst s) (snd s) (fst s') (snd s').
Proof. intros HI HC. induction HC as [s|s1 s2 s3 HC IH HS]; [apply keeps_refl; auto|]. specialize (IH HI). eapply keeps_trans; [exact IH|]. apply step_keeps; [apply IH|auto]. Qed.
Lemma reach_inv h0 s : inv C0 C0 h0 -> creach E (C0, h0) s -> inv C0 (fst s) (snd s).
Proof.
  intros HI HR. induction HR as [|s2 s3 HR IH HS|C h b l HR IH HL]; cbn [fst snd] in *; auto.
  - apply (step_keeps s2 s3 IH HS).
  - assert (HO : forall o, okTmp (length (cf_labels C0)) h o -> okTmp (length (cf_labels C0)) (write h b l) o).
    { intros [s|]; [|auto]. cbn [okTmp]. rewrite write_length. intros (A & B & D). split; auto. split; auto. destruct (Nat.eq_dec (sl_blk s) b) as [Eb|Hne]; [subst b|].
      - rewrite block_write by auto. rewrite HL. exact D.
      - rewrite block_write_other; auto. }
    destruct IH as [A B D F G]. split; auto.
Qed.
Lemma inv_start h : cf_matrix C0 = None -> cf_tmpvals C0 = None -> cf_tmpindx C0 = None -> inv C0 C0 h.
Proof. intros H1 H2 H3. split; rewrite ?H1, ?H2, ?H3; cbn; auto. left; auto. Qed.
End Top.

(** ** printing *)
Lemma fold_left_sum l a : fold_left Z.add l a = a + sumZ l.
Proof. revert a; induction l as [|x l IH]; intros a; simpl; [unfold sumZ; simpl; lia|]. rewrite IH. unfold sumZ. simpl. lia. Qed.
Lemma sumZ_zero_iff l : (forall x, In x l -> 0 <= x) -> (sumZ l = 0 <-> forall x, In x l -> x = 0).
Proof.
  unfold sumZ. induction l as [|x l IH]; intros H; simpl; [split; [intros _ _ []|auto]|].
  assert (H0 : 0 <= x) by (apply H; left; auto). assert (H1 : forall y, In y l -> 0 <= y) by (intros; apply H; right; auto).
  assert (H2 : 0 <= fold_right Z.add 0 l). { clear -H1. induction l as [|y l IH]; simpl; [lia|]. assert (0 <= y) by (apply H1; left; auto). assert (0 <= fold_right Z.add 0 l) by (apply IH; intros; apply H1; right; auto). lia. }
  specialize (IH H1). split.
  - intros HS y [<-|Hy]; [lia|]. apply IH; auto. lia.
  - intros HA. rewrite (HA x (or_introl eq_refl)). rewrite (proj2 IH); auto.
Qed.
Lemma F2_in_l {A B} (R : A -> B -> Prop) l l' a : Forall2 R l l' -> In a l -> exists b, In b l' /\ R a b.
Proof. induction 1 as [|x y l l' H HF IH]; intros Hb; [destruct Hb|]. destruct Hb as [<-|Hb]; [exists y; simpl; auto|]. destruct (IH Hb) as (b & Hb1 & HR). exists b. simpl. auto. Qed.
Lemma idx_In {A} (l : list A) i a : idx l i = Ok a -> In a l.
Proof. intros H. apply idx_Ok in H as [_ H]. eapply nth_error_In; eauto. Qed.
Lemma top_sum row n ps cs : topOf row (S n) ps cs -> (forall x, In x row -> 0 <= x) -> row <> [] -> (sumZ cs = 0 <-> sumZ row = 0).
Proof.
  intros (HL & _ & HF & _ & HO) HP HN.
  assert (Hcs : forall c, In c cs -> In c row) by (intros c Hc; destruct (F2_in _ _ _ _ HF Hc) as (p & _ & Hp); eapply idx_In; eauto).
  rewrite !sumZ_zero_iff by auto. split; [|auto]. intros HZ x Hx. apply In_nth_error in Hx as [q Hq].
  assert (Hix : idx row (Z.of_nat q) = Ok x) by (apply idx_of_nat; auto).
  destruct (in_dec Z.eq_dec (Z.of_nat q) ps) as [Hp|Hp].
  - destruct (F2_in_l _ _ _ _ HF Hp) as (c & Hc & Hqc). assert (c = x) by congruence. subst c. auto.
  - destruct cs as [|c cs].
    + pose proof (F2_len _ _ _ HF) as HL2. rewrite HL in HL2. destruct row; [congruence|]. simpl in HL2. discriminate HL2.
    + assert (x <= c) by (eapply HO; eauto; left; auto). assert (c = 0) by (apply HZ; left; auto). assert (0 <= x) by (apply HP; eapply nth_error_In; eauto). lia.
Qed.
Lemma skipn_S {A} j (l : list A) : skipn (S j) l = tl (skipn j l).
Proof. revert l; induction j as [|j IH]; intros [|x l]; auto. cbn [skipn] in *. rewrite IH. destruct l; auto. Qed.
Lemma entries_ok C names v rf : forall n j, length rf = length v -> (j + n = length v)%nat -> (forall p, In p v -> exists l, idx (cf_labels C) p = Ok l) ->
  entries C names v rf j n = Ok (map (fun x => names (nth (Z.to_nat (fst x)) (cf_labels C) 0) ++ tx ":" ++ decZ (snd x))
             (filter (fun x => negb (snd x =? 0)) (skipn j (combine v rf)))).
Proof.
  induction n as [|n IH]; intros j HL Hj HV; cbn [entries].
  - rewrite skipn_all2 by (rewrite combine_length; lia). auto.
  - destruct (nth_error rf j) as [c|] eqn:Ec; [|apply nth_error_None in Ec; lia]. destruct (nth_error v j) as [p|] eqn:Ep; [|apply nth_error_None in Ep; lia].
    rewrite (proj2 (idx_of_nat rf j c) Ec). cbn [bind].
    assert (HS : skipn j (combine v rf) = (p, c) :: skipn (S j) (combine v rf)).
    { rewrite skipn_S. clear -Ec Ep. revert rf j Ec Ep. induction v as [|a v IH]; intros [|b rf] [|j] Ec Ep; try discriminate; cbn [combine skipn nth_error] in *.
      - injection Ec as ->. injection Ep as ->. auto.
      - apply IH; auto. }
    rewrite HS. cbn [filter snd map]. destruct (Z.eqb_spec c 0) as [->|Hc]; cbn [negb].
    + apply IH; auto. lia.
    + rewrite (proj2 (idx_of_nat v j p) Ep). cbn [bind]. destruct (HV p) as (l & Hl); [eapply nth_error_In; eauto|]. rewrite Hl. cbn [bind].
      rewrite IH by (auto; lia). cbn [bind map fst snd]. apply idx_Ok in Hl as [_ Hl]. rewrite (nth_error_nth _ _ 0 Hl). auto.
Qed.
Section Print.
Context (E : Env) (HE : EnvOk E) (C0 C : Confusions) (HM : made C0) (HB : base C = base C0) (names : Z -> text) (N : Z) (HN : 1 <= N).
Notation row M := (countsFor (cf_labels C0) (cf_actual C0) (cf_predicted C0) M).
Notation tops M := (firstn (Z.to_nat N) (rev (fst (memIntSort E (row M)))), firstn (Z.to_nat N) (rev (snd (memIntSort E (row M))))).
Lemma tops_top M : topOf (row M) (Z.to_nat N) (fst (tops M)) (snd (tops M)).
Proof. pose proof (top_sorted E (row M) (Z.to_nat N) HE) as H. destruct (memIntSort E (row M)) as [si sv]. exact H. Qed.
Lemma counts_pos M x : In x (row M) -> 0 <= x.
Proof. unfold countsFor. intros H. apply in_map_iff in H as (l & <- & _). unfold countPairs. lia. Qed.
Lemma row_count M : In M (cf_labels C0) -> sumZ (row M) = count (cf_actual C0) M.
Proof.
  intros H. rewrite row_sum; [|apply HM|exact (md_pred _ HM)]. apply filter_count. intros i Hi. apply (md_rows _ HM i M); auto.
Qed.
Lemma topLines_ok h : forall labs i ri rf, Forall3 (perTop E C0 N h) labs ri rf -> 0 <= i ->
  (forall k, nth_error labs k = nth_error (cf_labels C0) (Z.to_nat i + k)) ->
  topLines C names N i (map (oread h) ri) (map (oread h) rf) =
  Ok (map (fun M => topLine names (cf_labels C0) M (fst (tops M)) (snd (tops M))) (filter (fun M => negb (count (cf_actual C0) M =? 0)) labs)).
Proof.
  destruct (base_inv _ _ HB) as (_ & _ & EL & _).
  induction labs as [|M labs IH]; intros i ri rf HF Hi Hk; inversion HF; subst; cbn [map topLines]; [auto|].
  match goal with H : perTop _ _ _ _ _ _ _ |- _ => destruct H as (si & sf & -> & -> & R1 & R2) end. cbn [oread]. rewrite R1, R2.
  destruct (Z.ltb_spec N 1); [lia|]. cbn [idx Z.ltb tl]. unfold idx at 1. cbn [Z.ltb Z.to_nat nth_error Z.compare]. cbn [bind].
  assert (HMi : nth_error (cf_labels C0) (Z.to_nat i) = Some M) by (specialize (Hk O); rewrite Nat.add_0_r in Hk; symmetry; exact Hk).
  assert (HMin : In M (cf_labels C0)) by (eapply nth_error_In; eauto).
  assert (HIH := IH (i + 1) _ _ ltac:(eassumption) ltac:(lia) ltac:(intros k; specialize (Hk (S k)); replace (Z.to_nat (i + 1) + k)%nat with (Z.to_nat i + S k)%nat by lia; exact Hk)).
  rewrite HIH. pose proof (tops_top M) as HT. cbn [fst snd] in HT. rewrite fold_left_sum, Z.add_0_l.
  assert (HZ : sumZ (firstn (Z.to_nat N) (rev (snd (memIntSort E (row M))))) = 0 <-> count (cf_actual C0) M = 0).
  { rewrite <- row_count by auto. replace (Z.to_nat N) with (S (Z.to_nat (N - 1))) in * by lia. eapply top_sum; [exact HT|apply counts_pos|].
    unfold countsFor. destruct (cf_labels C0); [destruct HMin|discriminate]. }
  cbn [filter]. destruct (Z.eqb_spec (count (cf_actual C0) M) 0) as [H0|H0]; cbn [negb].
  - assert (EZ : sumZ (firstn (Z.to_nat N) (rev (snd (memIntSort E (row M))))) =? 0 = true) by (apply Z.eqb_eq; apply HZ; auto). rewrite EZ. auto.
  - assert (EZ : sumZ (firstn (Z.to_nat N) (rev (snd (memIntSort E (row M))))) =? 0 = false) by (apply Z.eqb_neq; tauto). rewrite EZ. rewrite EL.
    assert (Hid : idx (cf_labels C0) i = Ok M) by (apply idx_Ok; auto). rewrite Hid. cbn [bind].
    destruct HT as (TL & _ & TF & _).
    set (ps := firstn (Z.to_nat N) (rev (fst (memIntSort E (row M))))) in *. set (cs := firstn (Z.to_nat N) (rev (snd (memIntSort E (row M))))) in *.
    assert (Hn : Z.to_nat (if Z.of_nat (length ps) <? N then Z.of_nat (length ps) else N) = length ps).
    { assert (length ps <= Z.to_nat N)%nat by (rewrite TL; lia). destruct (Z.ltb_spec (Z.of_nat (length ps)) N); lia. }
    rewrite Hn. rewrite entries_ok.
    + cbn [bind skipn map]. rewrite EL. reflexivity.
    + symmetry. eapply F2_len; eauto.
    + auto.
    + intros p Hp. destruct (F2_in_l _ _ _ _ TF Hp) as (c & _ & Hc). rewrite EL. apply idx_Ok in Hc as [Hc1 Hc2].
      unfold countsFor in Hc2. rewrite nth_error_map in Hc2. destruct (nth_error (cf_labels C0) (Z.to_nat p)) as [l|] eqn:El; [|discriminate Hc2].
      exists l. apply idx_Ok. auto.
Qed.
End Print.

(** ** the theorems *)
Section Thms.
Context {K : Type} (E : Env) (HE : EnvOk E) (M : MultiClass) (D : DataBunch K) (C0 : Confusions) (h0 : heap).
Hypothesis HC : MCConfusions M D = Ok C0.
Hypothesis HN : NoDup (ClassLabels M).
Hypothesis HK : ~ knownBeyond M D.
Lemma mc_inv C h : creach E (C0, h0) (C, h) -> inv C0 C h.
Proof.
  intros H. pose proof (MC_made M D C0 HC HN HK) as HM. destruct (MCConfusions_inv M D C0 HC) as (_ & _ & _ & A & B & F & _).
  exact (reach_inv E HE C0 HM h0 (C, h) (inv_start C0 h0 A B F) H).
Qed.
Theorem matrix_same C h : creach E (C0, h0) (C, h) -> exists preds C', Forall2 (predictsLabel M) (Data D) preds /\
  Matrix C = Ok (map (countsFor (ClassLabels M) (Labels D) preds) (ClassLabels M), C').
Proof.
  intros H. pose proof (MC_made M D C0 HC HN HK) as HM. destruct (Matrix_inv C0 C h HM (mc_inv C h H)) as (C' & HMx & _).
  destruct (MCConfusions_inv M D C0 HC) as (A & B & F & _). exists (cf_predicted C0), C'. split; [exact F|]. rewrite HMx. unfold matrixOf. rewrite A, B. auto.
Qed.
Theorem top_n C h N m dc : creach E (C0, h0) (C, h) ->
  (~ In m (ClassLabels M) -> exists C', TopNForLabelM E C h N m dc = Ok (None, C', h)) /\
  (In m (ClassLabels M) -> N < 0 -> TopNForLabelM E C h N m dc = Panic) /\
  (In m (ClassLabels M) -> 0 <= N -> exists preds ri rv C' h', Forall2 (predictsLabel M) (Data D) preds /\
     TopNForLabelM E C h N m dc = Ok (Some (ri, rv), C', h') /\
     topOf (countsFor (ClassLabels M) (Labels D) preds m) (Z.to_nat N) (sread h' ri) (sread h' rv)).
Proof.
  intros H. pose proof (MC_made M D C0 HC HN HK) as HM. pose proof (mc_inv C h H) as HI. destruct (MCConfusions_inv M D C0 HC) as (A & B & F & _).
  rewrite <- B. split; [|split].
  - intros Hm. destruct (top_unknown E C0 HM C h N m dc HI Hm) as (C' & HT & _). eauto.
  - intros Hm HNeg. pose proof (top_known E HE C0 HM C h N m dc HI Hm) as HT. destruct (Z.leb_spec 0 N); [lia|]. exact HT.
  - intros Hm HPos. pose proof (top_known E HE C0 HM C h N m dc HI Hm) as HT. destruct (Z.leb_spec 0 N); [|lia].
    destruct HT as (C' & h' & ri & rv & HT & _ & R1 & R2 & _). exists (cf_predicted C0), ri, rv, C', h'. split; [exact F|]. split; [exact HT|].
    rewrite R1, R2, <- A. pose proof (top_sorted E (countsFor (cf_labels C0) (cf_actual C0) (cf_predicted C0) m) (Z.to_nat N) HE) as HS.
    destruct (memIntSort E _) as [si sv]. exact HS.
Qed.
Theorem top_copy_kept C h N m ri rv C1 h1 C2 h2 : creach E (C0, h0) (C, h) -> TopNForLabelM E C h N m true = Ok (Some (ri, rv), C1, h1) ->
  ccalls E (C1, h1) (C2, h2) -> sread h2 ri = sread h1 ri /\ sread h2 rv = sread h1 rv.
Proof.
  intros H HT HCs. pose proof (MC_made M D C0 HC HN HK) as HM. destruct (top_call E HE C0 HM C h N m true _ C1 h1 (mc_inv C h H) HT) as (K1 & _ & _ & _ & _ & S1 & S2).
  pose proof (calls_keeps E HE C0 HM (C1, h1) (C2, h2) (kp_inv _ _ _ _ _ K1) HCs) as K2. cbn [fst snd] in K2.
  destruct (kp_safe _ _ _ _ _ K2 _ S1) as [_ E1]. destruct (kp_safe _ _ _ _ _ K2 _ S2) as [_ E2]. unfold sread. rewrite E1, E2. auto.
Qed.
Theorem top_shared C h N m ri rv C1 h1 C2 h2 m' ri' rv' C3 h3 : creach E (C0, h0) (C, h) -> TopNForLabelM E C h N m false = Ok (Some (ri, rv), C1, h1) ->
  ccalls E (C1, h1) (C2, h2) -> TopNForLabelM E C2 h2 N m' false = Ok (Some (ri', rv'), C3, h3) -> ri' = ri /\ rv' = rv.
Proof.
  intros H HT HCs HT2. pose proof (MC_made M D C0 HC HN HK) as HM.
  destruct (top_call E HE C0 HM C h N m false _ C1 h1 (mc_inv C h H) HT) as (K1 & _ & _ & _ & _ & ti & tv & T1 & T2 & -> & ->).
  pose proof (calls_keeps E HE C0 HM (C1, h1) (C2, h2) (kp_inv _ _ _ _ _ K1) HCs) as K2. cbn [fst snd] in K2.
  destruct (top_call E HE C0 HM C2 h2 N m' false _ C3 h3 (kp_inv _ _ _ _ _ K2) HT2) as (K3 & _ & _ & _ & _ & ti' & tv' & T1' & T2' & -> & ->).
  pose proof (kp_i _ _ _ _ _ K3 ti (kp_i _ _ _ _ _ K2 ti T1)) as Ei. pose proof (kp_v _ _ _ _ _ K3 tv (kp_v _ _ _ _ _ K2 tv T2)) as Ev.
  rewrite T1' in Ei. injection Ei as ->. rewrite T2' in Ev. injection Ev as ->. auto.
Qed.
Theorem print_top C h N names : creach E (C0, h0) (C, h) ->
  (N < 1 -> ClassLabels M <> [] -> PrintTopN E C h N names = Panic) /\
  (1 <= N -> exists preds tops C' h', Forall2 (predictsLabel M) (Data D) preds /\
    (forall m, In m (ClassLabels M) -> topOf (countsFor (ClassLabels M) (Labels D) preds m) (Z.to_nat N) (fst (tops m)) (snd (tops m))) /\
    PrintTopN E C h N names = Ok (joinT (tx "Confusions:" :: map (fun m => topLine names (ClassLabels M) m (fst (tops m)) (snd (tops m)))
       (filter (fun m => negb (count (Labels D) m =? 0)) (ClassLabels M))) [NL], C', h')).
Proof.
  intros H. pose proof (MC_made M D C0 HC HN HK) as HM. pose proof (mc_inv C h H) as HI. destruct (MCConfusions_inv M D C0 HC) as (A & B & F & _).
  destruct (base_inv _ _ (iv_base _ _ _ HI)) as (_ & _ & EL & _). rewrite <- B. split.
  - intros HNn HL. unfold PrintTopN, TopNPerLabel. rewrite EL. destruct (Z.ltb_spec N 0) as [Hneg|Hpos].
    + destruct (cf_labels C0) as [|m t] eqn:El; [congruence|]. cbn [topLoop]. assert (Hin : In m (cf_labels C0)) by (rewrite El; left; auto).
      pose proof (top_known E HE C0 HM C h N m true HI Hin) as HT. destruct (Z.leb_spec 0 N); [lia|]. rewrite HT. auto.
    + destruct (topLoop_total E HE C0 HM N Hpos (cf_labels C0) C h HI) as (ri & rf & C' & h' & HT & _ & HF & _); [auto|]. rewrite HT. cbn [bind].
      destruct HF; [congruence|]. cbn [map topLines]. destruct (Z.ltb_spec N 1); [|lia]. auto.
  - intros HP. unfold PrintTopN, TopNPerLabel. rewrite EL. assert (Hpos : 0 <= N) by lia.
    destruct (topLoop_total E HE C0 HM N Hpos (cf_labels C0) C h HI) as (ri & rf & C' & h' & HT & HKp & HF & _); [auto|].
    exists (cf_predicted C0), (fun m => let row := countsFor (cf_labels C0) (cf_actual C0) (cf_predicted C0) m in
       (firstn (Z.to_nat N) (rev (fst (memIntSort E row))), firstn (Z.to_nat N) (rev (snd (memIntSort E row))))), C', h'.
    split; [exact F|]. split; [intros m Hm; rewrite <- A; apply (tops_top E HE C0 N m)|]. rewrite HT. cbn [bind].
    rewrite (topLines_ok E HE C0 C' HM (iv_base _ _ _ (kp_inv _ _ _ _ _ HKp)) names N HP h' (cf_labels C0) 0 ri rf HF); [|lia|auto]. cbn [bind]. rewrite A. auto.
Qed.
End Thms.
