(** Proofs for C156 (utils/loss_acti.go). *)
From Verif Require Import Base F64 Env Utils Spec UtilsProofs UtilsThms LossMem SpecLossMem.
From Coq Require Import Lia.
Open Scope Z_scope.

(** lists *)
Lemma firstn_skipn_ext {A} (l l' : list A) n : forall o, (forall k, (o <= k < o + n)%nat -> nth_error l k = nth_error l' k) -> firstn n (skipn o l) = firstn n (skipn o l').
Proof.
  induction n as [|n IH]; intros o H; [reflexivity|].
  assert (HS : forall (m : list A), skipn o m = match nth_error m o with Some x => x :: skipn (S o) m | None => [] end).
  { clear. induction o as [|o IH]; intros [|x m]; cbn [skipn nth_error]; auto. rewrite IH. destruct (nth_error m o); auto. }
  rewrite (HS l), (HS l'), (H o) by lia. destruct (nth_error l' o); [|reflexivity]. cbn [firstn]. f_equal. apply IH. intros k Hk. apply H. lia.
Qed.
Lemma skipn_cons {A} (l : list A) o x : nth_error l o = Some x -> skipn o l = x :: skipn (S o) l.
Proof. revert o; induction l as [|y l IH]; intros [|o] H; cbn in H; try discriminate; [injection H as ->; reflexivity|]. cbn [skipn]. rewrite (IH o H). reflexivity. Qed.
Lemma nth_ext_eq {A} (l l' : list A) : (forall k, nth_error l k = nth_error l' k) -> l = l'.
Proof.
  revert l'; induction l as [|x l IH]; intros [|y l'] H; auto; try (specialize (H O); discriminate). pose proof (H O) as H0. injection H0 as ->. f_equal. apply IH. intros k. exact (H (S k)).
Qed.
Definition zip2 (f : f64 -> f64 -> f64) (x y : list f64) : list f64 := map (fun p => f (fst p) (snd p)) (combine x y).

(** memory *)
Lemma arr_upd h r b r' : (r < length h)%nat -> arr (upd_nat h r b) r' = if Nat.eqb r' r then b else arr h r'.
Proof.
  intros H. unfold arr. destruct (Nat.eqb_spec r' r) as [->|HN].
  - apply nth_error_nth. rewrite upd_nat_nth. rewrite Nat.eqb_refl. apply Nat.ltb_lt in H. rewrite H. reflexivity.
  - destruct (Nat.lt_ge_cases r' (length h)) as [HL|HG].
    + apply nth_error_nth. rewrite upd_nat_nth. destruct (Nat.eqb_spec r' r); [congruence|]. apply nth_error_nth'. auto.
    + rewrite !nth_overflow; auto. rewrite upd_nat_length. auto.
Qed.
Lemma arr_in h r k : (k < length (arr h r))%nat -> (r < length h)%nat.
Proof. intros H. destruct (Nat.lt_ge_cases r (length h)); auto. unfold arr in H. rewrite nth_overflow in H by auto. cbn in H. lia. Qed.
Definition cell (h : mem) (a : addr) : option f64 := nth_error (arr h (fst a)) (snd a).
Lemma setC_ok h a v : (snd a < length (arr h (fst a)))%nat -> exists h', setC h a v = Ok h' /\ length h' = length h /\ (forall r, length (arr h' r) = length (arr h r)) /\
  cell h' a = Some v /\ forall r k, (r, k) <> a -> nth_error (arr h' r) k = nth_error (arr h r) k.
Proof.
  intros H. unfold setC. pose proof H as HB. apply Nat.ltb_lt in HB. rewrite HB. eexists. split; [reflexivity|]. destruct a as [r0 k0]. cbn [fst snd] in *. pose proof (arr_in _ _ _ H) as HR.
  split; [apply upd_nat_length|]. split; [intros r; rewrite arr_upd by auto; destruct (Nat.eqb_spec r r0) as [->|]; [apply upd_nat_length|reflexivity]|]. split.
  - unfold cell. cbn [fst snd]. rewrite arr_upd by auto. rewrite Nat.eqb_refl, upd_nat_nth, Nat.eqb_refl, HB. reflexivity.
  - intros r k HN. rewrite arr_upd by auto. destruct (Nat.eqb_spec r r0) as [->|]; [|reflexivity]. rewrite upd_nat_nth. destruct (Nat.eqb_spec k k0) as [->|]; [congruence|reflexivity].
Qed.
Lemma readS_cons h a n x : cell h a = Some x -> readS h (MkS a (S n)) = x :: readS h (MkS (next a) n).
Proof. unfold cell, readS. cbn [sl_at sl_len]. intros H. rewrite (skipn_cons _ _ _ H). reflexivity. Qed.
Lemma readS_ext h h' a n : (forall k, (snd a <= k < snd a + n)%nat -> nth_error (arr h' (fst a)) k = nth_error (arr h (fst a)) k) -> readS h' (MkS a n) = readS h (MkS a n).
Proof. intros H. unfold readS. cbn [sl_at sl_len]. apply firstn_skipn_ext. auto. Qed.
Lemma getC_ok h a : (snd a < length (arr h (fst a)))%nat -> exists x, getC h a = Ok x /\ cell h a = Some x.
Proof. intros H. unfold getC, cell. destruct (nth_error (arr h (fst a)) (snd a)) as [x|] eqn:E; [eauto|]. apply nth_error_None in E. lia. Qed.

Lemma loop2_spec f n : forall h d a b, inside h (MkS d n) -> inside h (MkS a n) -> inside h (MkS b n) -> apart (MkS a n) (MkS d n) -> apart (MkS b n) (MkS d n) ->
  exists h', loop2 f h d a b n = Ok h' /\ readS h' (MkS d n) = zip2 f (readS h (MkS a n)) (readS h (MkS b n)) /\ onlyFirst h h' (MkS d n) n.
Proof.
  induction n as [|n IH]; intros h d a b Hd Ha Hb Aa Ab.
  - exists h. split; [reflexivity|]. split; [reflexivity|]. split; [auto|]. split; auto.
  - unfold inside in Hd, Ha, Hb. cbn [sl_at sl_len] in *. destruct (getC_ok h a) as (x & Ex & Cx); [lia|]. destruct (getC_ok h b) as (y & Ey & Cy); [lia|].
    destruct (setC_ok h d (f x y)) as (h1 & E1 & L0 & L1 & C1 & K1); [lia|]. cbn [loop2]. rewrite Ex. cbn [bind]. rewrite Ey. cbn [bind]. rewrite E1. cbn [bind].
    destruct (IH h1 (next d) (next a) (next b)) as (h2 & E2 & R2 & L20 & L2 & K2).
    + unfold inside, next. cbn [sl_at sl_len fst snd]. rewrite L1. lia.
    + unfold inside, next. cbn [sl_at sl_len fst snd]. rewrite L1. lia.
    + unfold inside, next. cbn [sl_at sl_len fst snd]. rewrite L1. lia.
    + destruct Aa as [Aa|Aa]; cbn [sl_at] in Aa; [left|right]; cbn [sl_at]; [rewrite Aa; auto|exact Aa].
    + destruct Ab as [Ab|Ab]; cbn [sl_at] in Ab; [left|right]; cbn [sl_at]; [rewrite Ab; auto|exact Ab].
    + exists h2. split; [exact E2|]. cbn [sl_at sl_len] in *. 
      assert (HR : forall s, apart (MkS s (S n)) (MkS d (S n)) -> readS h1 (MkS (next s) n) = readS h (MkS (next s) n)).
      { intros s HS. apply readS_ext. intros k Hk. cbn [next fst snd] in *. apply K1. intros HX. destruct HS as [HS|HS]; cbn [sl_at] in HS; [subst s|]; pose proof (f_equal fst HX) as H1; pose proof (f_equal snd HX) as H2; cbn [fst snd] in *; [lia|congruence]. }
      split; [|split; [|split]].
      * rewrite (readS_cons h a n x Cx), (readS_cons h b n y Cy). rewrite (readS_cons h2 d n (f x y)) by (unfold cell in *; rewrite K2; [exact C1|cbn [next fst snd]; lia]).
       
        unfold zip2. cbn [combine map fst snd]. f_equal. rewrite R2. unfold zip2. rewrite (HR a Aa), (HR b Ab). reflexivity.
      * lia.
      * intros r. rewrite L2. apply L1.
      * intros r k HN. cbn [sl_at] in HN. rewrite K2 by (cbn [next fst snd]; intros [H1 H2]; apply HN; split; [auto|lia]). apply K1. intros HX. subst d. cbn [fst snd] in HN. apply HN. split; [auto|lia].
Qed.
Lemma zip2_same g l : zip2 (fun v _ => g v) l l = map g l.
Proof. unfold zip2. induction l as [|x l IH]; [reflexivity|]. cbn [combine map fst]. f_equal. exact IH. Qed.
Lemma readS_length h s : inside h s -> length (readS h s) = sl_len s.
Proof. intros H. unfold readS, inside in *. rewrite firstn_length, skipn_length. lia. Qed.
Lemma skipn_more {A} a n (l : list A) : skipn (a + n) l = skipn n (skipn a l).
Proof. revert l; induction a as [|a IH]; intros [|x l]; cbn [Nat.add skipn]; auto. destruct n; reflexivity. Qed.
Lemma readS_split h a n m : readS h (MkS a (n + m)) = readS h (MkS a n) ++ readS h (MkS (fst a, (snd a + n)%nat) m).
Proof.
  unfold readS. cbn [sl_at sl_len fst snd]. generalize (arr h (fst a)). intros l. rewrite (skipn_more (snd a) n l). generalize (skipn (snd a) l). clear. intros l. revert l. induction n as [|n IH]; intros [|x l]; cbn; auto; [rewrite firstn_nil; reflexivity|]. f_equal. apply IH.
Qed.
Lemma tail_kept h h' q n m : onlyFirst h h' (MkS q n) n -> readS h' (MkS (fst q, (snd q + n)%nat) m) = readS h (MkS (fst q, (snd q + n)%nat) m).
Proof. intros (_ & _ & H). apply readS_ext. cbn [fst snd]. intros k Hk. apply H. cbn [sl_at]. lia. Qed.
Lemma only_trans h h1 h2 q n : onlyFirst h h1 q n -> onlyFirst h1 h2 q n -> onlyFirst h h2 q n.
Proof. intros (A & B & C) (A' & B' & C'). split; [congruence|]. split; [intros r; rewrite B'; auto|]. intros r k HN. rewrite C' by auto. auto. Qed.
Lemma only_len h h' q q' n : sl_at q = sl_at q' -> onlyFirst h h' q n -> onlyFirst h h' q' n.
Proof. intros E H. unfold onlyFirst in *. rewrite <- E. exact H. Qed.

(** activations *)
Lemma softmax_mem E h p q : inside h p -> inside h q -> apart p q -> (sl_len p <= sl_len q)%nat ->
  exists h', SoftMaxM E h p q = Ok h' /\ SoftMax E (readS h p) (readS h q) = Ok (readS h' q) /\ onlyFirst h h' q (sl_len p).
Proof.
  destruct p as [pa n], q as [qa m]. intros Hp Hq HA HL. cbn [sl_len sl_at] in *. unfold SoftMaxM. cbn [sl_len sl_at].
  replace (Nat.ltb m n) with false by (symmetry; apply Nat.ltb_ge; auto). assert (Hq' : inside h (MkS qa n)) by (unfold inside in *; cbn [sl_at sl_len] in *; lia).
  destruct (loop2_spec (fun v _ => e_exp E v) n h qa pa pa Hq' Hp Hp HA HA) as (h1 & E1 & R1 & K1). rewrite E1. cbn [bind]. rewrite zip2_same in R1.
  assert (Hq1 : inside h1 (MkS qa n)) by (unfold inside in *; destruct K1 as (_ & K1 & _); rewrite K1; auto).
  destruct (loop2_spec (fun v _ => fdiv v (e_sum E (readS h1 (MkS qa m)))) n h1 qa qa qa Hq1 Hq1 Hq1 (or_introl eq_refl) (or_introl eq_refl)) as (h2 & E2 & R2 & K2). rewrite E2. exists h2. split; [reflexivity|].
  rewrite zip2_same in R2. pose proof (only_trans _ _ _ _ _ K1 K2) as K. split; [|apply (only_len h h2 (MkS qa n)); auto].
  unfold SoftMax. rewrite (readS_length h _ Hp), (readS_length h _ Hq). cbn [sl_len]. replace (Nat.ltb m n) with false by (symmetry; apply Nat.ltb_ge; auto).
  assert (HM : m = (n + (m - n))%nat) by lia. remember (m - n)%nat as t. clear Heqt. subst m. rewrite (readS_split h2), (readS_split h), R2, R1.
  rewrite (tail_kept h h2 qa n t K). rewrite (readS_split h1), R1, (tail_kept h h1 qa n t K1).
  assert (LQ : length (readS h (MkS qa n)) = n) by (apply (readS_length h (MkS qa n)); auto). assert (LP : length (map (e_exp E) (readS h (MkS pa n))) = n) by (rewrite map_length; apply (readS_length h (MkS pa n)); auto).
  rewrite !skipn_app, !firstn_app, LQ, LP, Nat.sub_diag, !skipn_O, firstn_O. rewrite (skipn_all2 (n := n) (readS h (MkS qa n))) by lia. rewrite (skipn_all2 (n := n) (map _ _)) by lia. rewrite (firstn_all2 (n := n) (map _ _)) by lia. rewrite app_nil_r. reflexivity.
Qed.
Lemma copySum_spec n : forall h d a s, inside h (MkS d n) -> inside h (MkS a n) -> apart (MkS a n) (MkS d n) ->
  exists h', copySum h d a n s = Ok (h', fold_left fadd (readS h (MkS a n)) s) /\ readS h' (MkS d n) = readS h (MkS a n) /\ onlyFirst h h' (MkS d n) n.
Proof.
  induction n as [|n IH]; intros h d a s Hd Ha Aa.
  - exists h. split; [reflexivity|]. split; [reflexivity|]. split; [auto|]. split; auto.
  - unfold inside in Hd, Ha. cbn [sl_at sl_len] in *. destruct (getC_ok h a) as (x & Ex & Cx); [lia|].
    destruct (setC_ok h d x) as (h1 & E1 & L0 & L1 & C1 & K1); [lia|]. cbn [copySum]. rewrite Ex. cbn [bind]. rewrite E1. cbn [bind].
    destruct (IH h1 (next d) (next a) (fadd s x)) as (h2 & E2 & R2 & L20 & L2 & K2).
    + unfold inside, next. cbn [sl_at sl_len fst snd]. rewrite L1. lia.
    + unfold inside, next. cbn [sl_at sl_len fst snd]. rewrite L1. lia.
    + destruct Aa as [Aa|Aa]; cbn [sl_at] in Aa; [left|right]; cbn [sl_at]; [rewrite Aa; auto|exact Aa].
    + exists h2. cbn [sl_at sl_len] in *.
      assert (HR : readS h1 (MkS (next a) n) = readS h (MkS (next a) n)).
      { apply readS_ext. intros k Hk. cbn [next fst snd] in *. apply K1. intros HX. destruct Aa as [HS|HS]; cbn [sl_at] in HS; [subst a|]; pose proof (f_equal fst HX) as H1; pose proof (f_equal snd HX) as H2; cbn [fst snd] in *; [lia|congruence]. }
      rewrite HR in E2, R2. rewrite (readS_cons h a n x Cx). cbn [fold_left]. split; [exact E2|]. split; [|split; [|split]].
      * rewrite (readS_cons h2 d n x) by (unfold cell in *; rewrite K2; [exact C1|cbn [next fst snd]; lia]). f_equal. exact R2.
      * lia.
      * intros r. rewrite L2. apply L1.
      * intros r k HN. cbn [sl_at] in HN. rewrite K2 by (cbn [next fst snd]; intros [H1 H2]; apply HN; split; [auto|lia]). apply K1. intros HX. subst d. cbn [fst snd] in HN. apply HN. split; [auto|lia].
Qed.
Lemma normalization_mem h p q : inside h p -> inside h q -> apart p q -> (sl_len p <= sl_len q)%nat ->
  exists h', NormalizationM h p q = Ok h' /\ Normalization (readS h p) (readS h q) = Ok (readS h' q) /\ onlyFirst h h' q (sl_len p).
Proof.
  destruct p as [pa n], q as [qa m]. intros Hp Hq HA HL. cbn [sl_len sl_at] in *. unfold NormalizationM. cbn [sl_len sl_at].
  replace (Nat.ltb m n) with false by (symmetry; apply Nat.ltb_ge; auto). assert (Hq' : inside h (MkS qa n)) by (unfold inside in *; cbn [sl_at sl_len] in *; lia).
  destruct (copySum_spec n h qa pa fzero Hq' Hp HA) as (h1 & E1 & R1 & K1). rewrite E1. cbn [bind].
  assert (Hq1 : inside h1 (MkS qa n)) by (unfold inside in *; destruct K1 as (_ & K1 & _); rewrite K1; auto).
  destruct (loop2_spec (fun v _ => fdiv v (fold_left fadd (readS h (MkS pa n)) fzero)) n h1 qa qa qa Hq1 Hq1 Hq1 (or_introl eq_refl) (or_introl eq_refl)) as (h2 & E2 & R2 & K2). rewrite E2. exists h2. split; [reflexivity|].
  rewrite zip2_same in R2. pose proof (only_trans _ _ _ _ _ K1 K2) as K. split; [|apply (only_len h h2 (MkS qa n)); auto].
  unfold Normalization. rewrite (readS_length h _ Hp), (readS_length h _ Hq). cbn [sl_len]. replace (Nat.ltb m n) with false by (symmetry; apply Nat.ltb_ge; auto).
  assert (HM : m = (n + (m - n))%nat) by lia. remember (m - n)%nat as t. clear Heqt. subst m. rewrite (readS_split h2), (readS_split h), R2, R1.
  rewrite (tail_kept h h2 qa n t K).
  assert (LQ : length (readS h (MkS qa n)) = n) by (apply (readS_length h (MkS qa n)); auto).
  rewrite !skipn_app, LQ, Nat.sub_diag, !skipn_O. rewrite (skipn_all2 (n := n) (readS h (MkS qa n))) by lia. unfold normalization. change (nofZ F 0) with fzero. reflexivity.
Qed.

(** matrices *)
Lemma read_full h m : stored h m -> readS h (MkS (start m) (entries m)) = arr h (m_at m).
Proof. intros [_ H]. unfold readS, start. cbn [sl_at sl_len fst snd skipn]. rewrite <- H. apply firstn_all. Qed.
Lemma start_apart a d n : apart (MkS (start a) n) (MkS (start d) n).
Proof. unfold apart, start. cbn [sl_at fst]. destruct (Nat.eq_dec (m_at a) (m_at d)) as [->|]; auto. Qed.
Lemma start_inside h m n : stored h m -> (n <= entries m)%nat -> inside h (MkS (start m) n).
Proof. intros [_ H] HL. unfold inside, start. cbn [sl_at sl_len fst snd]. lia. Qed.
Lemma others_kept h h' q n : onlyFirst h h' q n -> forall r, r <> fst (sl_at q) -> arr h' r = arr h r.
Proof. intros (_ & _ & H) r HN. apply nth_ext_eq. intros k. apply H. tauto. Qed.
Lemma shaped_entries a b : shaped a b -> entries a = entries b.
Proof. intros [H1 H2]. unfold entries. congruence. Qed.
Lemma sameShape_true a b : shaped a b -> sameShape a b = true.
Proof. intros [H1 H2]. unfold sameShape. rewrite H1, H2, !Nat.eqb_refl. reflexivity. Qed.
Lemma sameShape_false a b : ~ shaped a b -> sameShape a b = false.
Proof. intros H. unfold sameShape. destruct (Nat.eqb_spec (m_r a) (m_r b)); [|reflexivity]. destruct (Nat.eqb_spec (m_c a) (m_c b)); [|reflexivity]. exfalso; apply H; split; auto. Qed.
(** [h'] is [h] except for the array of [d] *)
Definition changed (h h' : mem) (d : matM) : Prop := length h' = length h /\ (forall r, length (arr h' r) = length (arr h r)) /\ forall r, r <> m_at d -> arr h' r = arr h r.
Lemma changed_stored h h' d m : changed h h' d -> stored h m -> stored h' m.
Proof. intros (A & B & _) [H1 H2]. split; [lia|rewrite B; auto]. Qed.
Lemma changed_trans h h1 h2 d : changed h h1 d -> changed h1 h2 d -> changed h h2 d.
Proof. intros (A & B & C) (A' & B' & C'). split; [congruence|]. split; [intros r; rewrite B'; auto|]. intros r HN. rewrite C' by auto. auto. Qed.
Lemma elemM_spec f h d a b : stored h d -> stored h a -> stored h b -> shaped a b -> shaped d a ->
  exists h', elemM f h d a b = Ok h' /\ arr h' (m_at d) = zip2 f (arr h (m_at a)) (arr h (m_at b)) /\ changed h h' d.
Proof.
  intros Hd Ha Hb Sab Sda. unfold elemM. rewrite (sameShape_true _ _ Sab), (sameShape_true _ _ Sda). cbn [andb].
  pose proof (shaped_entries _ _ Sab) as Eab. pose proof (shaped_entries _ _ Sda) as Eda.
  destruct (loop2_spec f (entries a) h (start d) (start a) (start b)) as (h' & E & R & K); try apply start_apart; try (apply start_inside; auto; lia).
  exists h'. split; [exact E|]. assert (HC : changed h h' d) by (split; [apply K|]; split; [apply K|]; intros r HN; apply (others_kept _ _ _ _ K); auto). split; [|exact HC].
  rewrite <- (read_full h' d) by (eapply changed_stored; eauto). rewrite Eda, R. rewrite (read_full h a Ha). rewrite Eab, (read_full h b Hb). reflexivity.
Qed.
Lemma elemM_panic f h d a b : ~ (shaped a b /\ shaped d a) -> elemM f h d a b = Panic.
Proof.
  intros H. unfold elemM. assert (D : shaped a b \/ ~ shaped a b) by (unfold shaped; lia). destruct D as [D|D]; [|rewrite (sameShape_false _ _ D); reflexivity].
  rewrite (sameShape_false d a) by tauto. rewrite Bool.andb_false_r. reflexivity.
Qed.
Lemma orNew_spec h like dst h0 d : orNew h like dst = (h0, d) -> (forall m, dst = Some m -> stored h m) ->
  stored h0 d /\ (forall m, stored h m -> stored h0 m) /\ (forall r, (r < length h)%nat -> arr h0 r = arr h r) /\
  match dst with Some m => h0 = h /\ d = m | None => m_at d = length h /\ length h0 = S (length h) /\ shaped d like end.
Proof.
  intros H HD. destruct dst as [m|]; cbn [orNew] in H.
  - injection H as <- <-. auto.
  - unfold newM in H. injection H as <- <-. assert (HA : forall r, (r < length h)%nat -> arr (h ++ [repeat fzero (m_r like * m_c like)]) r = arr h r) by (intros r Hr; unfold arr; rewrite app_nth1; auto).
    assert (HL : length (h ++ [repeat fzero (m_r like * m_c like)]) = S (length h)) by (rewrite app_length; cbn; lia).
    split; [|split; [|split; [exact HA|]]].
    + split; cbn [m_at]; [lia|]. unfold arr. rewrite app_nth2, Nat.sub_diag by lia. cbn [nth]. rewrite repeat_length. reflexivity.
    + intros m [H1 H2]. split; [lia|rewrite HA; auto].
    + cbn [m_at]. split; [reflexivity|]. split; [exact HL|]. split; reflexivity.
Qed.
Lemma returned_ok h h0 h' like dst d : match dst with Some m => h0 = h /\ d = m | None => m_at d = length h /\ length h0 = S (length h) /\ shaped d like end ->
  stored h0 d -> changed h0 h' d -> returned h h' like dst d.
Proof.
  intros H HS HC. split; [|eapply changed_stored; eauto]. destruct HC as (HL & _). destruct dst as [m|].
  - destruct H as [-> ->]. auto.
  - destruct H as (H1 & H2 & H3). split; [auto|]. split; [congruence|auto].
Qed.
Lemma kept_ok h h0 h' d : (forall r, (r < length h)%nat -> arr h0 r = arr h r) -> changed h0 h' d -> othersKept h h' d.
Proof. intros HA (_ & _ & HC) r Hr HN. rewrite HC by auto. auto. Qed.
Section Losses.
Variables (h : mem) (y pred : matM) (dst : option matM).
Hypothesis (Hy : stored h y) (Hp : stored h pred) (Hdst : forall m, dst = Some m -> stored h m).
Lemma dst_shape h0 d : match dst with Some m => h0 = h /\ d = m | None => m_at d = length h /\ length h0 = S (length h) /\ shaped d y end -> (forall m, dst = Some m -> shaped m y) -> shaped d y.
Proof. destruct dst as [m|]; intros H HS; [destruct H as [_ ->]; auto|tauto]. Qed.
Lemma neg_spec : shaped y pred -> (forall m, dst = Some m -> shaped m y) ->
  exists h' g, NegGradientsM h y pred dst = Ok (h', g) /\ returned h h' y dst g /\ shaped g y /\ arr h' (m_at g) = negGradients F (arr h (m_at y)) (arr h (m_at pred)) /\ othersKept h h' g.
Proof.
  intros HS HD. unfold NegGradientsM. destruct (orNew h y dst) as [h0 d] eqn:E0. destruct (orNew_spec _ _ _ _ _ E0 Hdst) as (S0 & SM & A0 & HR).
  pose proof (dst_shape h0 d HR HD) as Sd. destruct (elemM_spec fsub h0 d y pred) as (h1 & E1 & R1 & C1); auto. rewrite E1. exists h1, d. split; [reflexivity|].
  split; [eapply returned_ok; eauto|]. split; [exact Sd|]. split; [|eapply kept_ok; eauto]. rewrite R1, (A0 (m_at y)), (A0 (m_at pred)) by (apply Hy || apply Hp). reflexivity.
Qed.
Lemma grad_spec : shaped y pred -> (forall m, dst = Some m -> shaped m y) ->
  exists h' g, GradientsM h y pred dst = Ok (h', g) /\ returned h h' y dst g /\ arr h' (m_at g) = gradients F (arr h (m_at y)) (arr h (m_at pred)) /\ othersKept h h' g.
Proof.
  intros HS HD. destruct (neg_spec HS HD) as (h1 & g & E1 & [R1 S1] & SG & A1 & K1). unfold GradientsM. rewrite E1. cbn [bind].
  destruct (elemM_spec (fun v _ => fmul (fofZ (-1)) v) h1 g g g) as (h2 & E2 & R2 & C2); auto; try (split; reflexivity). rewrite E2. exists h2, g. split; [reflexivity|]. split; [|split].
  - split; [|eapply changed_stored; eauto]. destruct C2 as (CL & _). destruct dst; intuition congruence.
  - rewrite R2, zip2_same, A1. reflexivity.
  - destruct C2 as (_ & _ & CK). intros r Hr HN. rewrite CK by auto. apply K1; auto.
Qed.
Lemma loss_spec : shaped y pred -> (forall m, dst = Some m -> shaped m y) ->
  exists h' g, LossM h y pred dst = Ok (h', sqLoss F (arr h (m_at y)) (arr h (m_at pred))) /\ returned h h' y dst g /\ othersKept h h' g /\
    arr h' (m_at g) = map (fun p => fmul (fsub (fst p) (snd p)) (fsub (fst p) (snd p))) (combine (arr h (m_at y)) (arr h (m_at pred))).
Proof.
  intros HS HD. unfold LossM. destruct (orNew h y dst) as [h0 d] eqn:E0. destruct (orNew_spec _ _ _ _ _ E0 Hdst) as (S0 & SM & A0 & HR).
  pose proof (dst_shape h0 d HR HD) as Sd. destruct (elemM_spec fsub h0 d y pred) as (h1 & E1 & R1 & C1); auto. rewrite E1. cbn [bind].
  destruct (elemM_spec fmul h1 d d d) as (h2 & E2 & R2 & C2); try (eapply changed_stored; eauto); try (split; reflexivity). rewrite E2. cbn [bind].
  assert (HE : arr h2 (m_at d) = map (fun v => fmul v v) (map (fun p => fsub (fst p) (snd p)) (combine (arr h (m_at y)) (arr h (m_at pred))))).
  { rewrite R2, R1, (A0 (m_at y)), (A0 (m_at pred)) by (apply Hy || apply Hp). unfold zip2. generalize (map (fun p : f64 * f64 => fsub (fst p) (snd p)) (combine (arr h (m_at y)) (arr h (m_at pred)))). clear. intros l. induction l as [|x l IH]; [reflexivity|]. cbn [combine map fst snd]. f_equal. exact IH. }
  pose proof (changed_trans _ _ _ _ C1 C2) as C. exists h2, d. rewrite HE. split; [reflexivity|]. split; [eapply returned_ok; eauto|]. split; [eapply kept_ok; eauto|]. rewrite map_map. reflexivity.
Qed.
Lemma mismatch : ~ (shaped y pred /\ forall m, dst = Some m -> shaped m y) -> LossM h y pred dst = Panic /\ NegGradientsM h y pred dst = Panic /\ GradientsM h y pred dst = Panic.
Proof.
  clear Hy Hp Hdst. intros HN. unfold GradientsM, LossM, NegGradientsM. destruct (orNew h y dst) as [h0 d] eqn:E0. rewrite (elemM_panic fsub h0 d y pred); [auto|].
  intros [H1 H2]. apply HN. split; [auto|]. intros m ->. cbn [orNew] in E0. injection E0 as <- <-. auto.
Qed.
(** Hessians of the matrix [pred] *)
Lemma sq_hess_spec : exists h' g, SQHessianM h pred dst = Ok (h', g) /\ returned h h' pred dst g /\ arr h' (m_at g) = repeat fone (entries g) /\ othersKept h h' g.
Proof.
  clear Hy Hp. unfold SQHessianM. destruct (orNew h pred dst) as [h0 d] eqn:E0. destruct (orNew_spec _ _ _ _ _ E0 Hdst) as (S0 & SM & A0 & HR).
  assert (HI : inside h0 (MkS (start d) (entries d))) by (apply start_inside; auto). replace (length (arr h0 (m_at d))) with (entries d) by (symmetry; apply S0).
  destruct (loop2_spec (fun _ _ => fofZ 1) (entries d) h0 (start d) (start d) (start d) HI HI HI (or_introl eq_refl) (or_introl eq_refl)) as (h1 & E1 & R1 & K1). rewrite E1. exists h1, d. split; [reflexivity|].
  assert (HC : changed h0 h1 d) by (split; [apply K1|]; split; [apply K1|]; intros r HN; apply (others_kept _ _ _ _ K1); auto).
  split; [eapply returned_ok; eauto|]. split; [|eapply kept_ok; eauto]. rewrite <- (read_full h1 d) by (eapply changed_stored; eauto). rewrite R1. rewrite (zip2_same (fun _ => fofZ 1)).
  rewrite (read_full h0 d S0). destruct S0 as [_ <-]. change fone with Bone. replace (fofZ 1) with fone by (apply B2SF_inj; vm_compute; reflexivity). clear. induction (arr h0 (m_at d)) as [|x l IH]; [reflexivity|]. cbn [map repeat length]. f_equal. exact IH.
Qed.
Lemma mse_hess_spec : (forall m, dst = Some m -> (entries pred <= entries m)%nat) ->
  exists h' g, MSEHessianM h pred dst = Ok (h', g) /\ returned h h' pred dst g /\ othersKept h h' g /\
    firstn (entries pred) (arr h' (m_at g)) = mseHessian F (arr h (m_at pred)) /\
    (forall m, dst = Some m -> skipn (entries pred) (arr h' (m_at m)) = skipn (entries pred) (arr h (m_at m))).
Proof.
  intros HD. unfold MSEHessianM. destruct (orNew h pred dst) as [h0 d] eqn:E0. destruct (orNew_spec _ _ _ _ _ E0 Hdst) as (S0 & SM & A0 & HR).
  assert (HL : (entries pred <= entries d)%nat) by (destruct dst as [m|]; [destruct HR as [_ ->]; auto|destruct HR as (_ & _ & HR); rewrite (shaped_entries _ _ HR); auto]).
  pose proof (SM _ Hp) as Hp0. assert (HI : inside h0 (MkS (start d) (entries pred))) by (apply start_inside; auto). assert (HI' : inside h0 (MkS (start pred) (entries pred))) by (apply start_inside; auto).
  replace (length (arr h0 (m_at pred))) with (entries pred) by (symmetry; apply Hp0).
  destruct (loop2_spec (fun v _ => fmul (fsub (fofZ 1) v) v) (entries pred) h0 (start d) (start pred) (start pred) HI HI' HI' (start_apart _ _ _) (start_apart _ _ _)) as (h1 & E1 & R1 & K1). rewrite E1. exists h1, d. split; [reflexivity|].
  assert (HC : changed h0 h1 d) by (split; [apply K1|]; split; [apply K1|]; intros r HN; apply (others_kept _ _ _ _ K1); auto).
  split; [eapply returned_ok; eauto|]. split; [eapply kept_ok; eauto|]. split.
  - unfold readS in R1. cbn [sl_at sl_len start fst snd skipn] in R1. rewrite R1. rewrite (zip2_same (fun v => fmul (fsub (fofZ 1) v) v)). rewrite firstn_all2 by (destruct Hp0 as [_ ->]; lia). rewrite (A0 (m_at pred)) by apply Hp. reflexivity.
  - intros m Hm. pose proof HR as HR'. rewrite Hm in HR'. destruct HR' as [Eh Em]. subst h0 d.
    pose proof (tail_kept h h1 (start m) (entries pred) (length (arr h (m_at m))) K1) as HT. unfold readS in HT. cbn [sl_at sl_len start fst snd] in HT. cbn [Nat.add] in HT.
    destruct K1 as (_ & KL & _). rewrite !firstn_all2 in HT by (rewrite skipn_length, ?KL; lia). exact HT.
Qed.
Lemma mse_hess_panic m : dst = Some m -> (entries m < entries pred)%nat -> m_at m <> m_at pred -> MSEHessianM h pred dst = Panic.
Proof.
  intros Hm HL HN. unfold MSEHessianM. rewrite Hm. cbn [orNew]. destruct Hp as [P1 P2]. destruct (Hdst _ Hm) as [D1 D2]. rewrite P2.
  assert (G : forall n o (h1 : mem), (o <= entries m)%nat -> (o + n = entries pred)%nat -> (forall r, length (arr h1 r) = length (arr h r)) -> loop2 (fun v _ => fmul (fsub (fofZ 1) v) v) h1 (m_at m, o) (m_at pred, o) (m_at pred, o) n = Panic).
  { induction n as [|n IH]; intros o h1 H1 H2 H3; [lia|]. cbn [loop2]. destruct (getC_ok h1 (m_at pred, o)) as (x & -> & _); [cbn [fst snd]; rewrite H3; lia|]. cbn [bind].
    destruct (Nat.eq_dec o (entries m)) as [->|HO].
    - unfold setC. cbn [fst snd]. rewrite H3, D2, Nat.ltb_irrefl. reflexivity.
    - destruct (setC_ok h1 (m_at m, o) (fmul (fsub (fofZ 1) x) x)) as (h2 & -> & _ & L2 & _); [cbn [fst snd]; rewrite H3; lia|]. cbn [bind]. apply (IH (S o)); [lia|lia|intros r; rewrite L2; auto]. }
  unfold start. rewrite (G (entries pred) O h); auto; lia.
Qed.
End Losses.

(** row by row *)
Section Dense.
Variables (act : mem -> slice -> slice -> res mem) (A : list f64 -> list f64 -> res (list f64)).
Hypothesis (HA : forall h p q, inside h p -> inside h q -> apart p q -> (sl_len p <= sl_len q)%nat ->
  exists h', act h p q = Ok h' /\ A (readS h p) (readS h q) = Ok (readS h' q) /\ onlyFirst h h' q (sl_len p)).
Hypothesis (HI : forall x y y', length y = length x -> length y' = length x -> A x y = A x y').
Lemma row_inside h m i : stored h m -> (i < m_r m)%nat -> inside h (rowOf m i).
Proof. intros [_ H] Hi. unfold inside, rowOf. cbn [sl_at sl_len fst snd]. rewrite H. unfold entries. nia. Qed.
Lemma rows_spec O D n : shaped D O -> forall h i, stored h O -> stored h D -> (i + n = m_r O)%nat ->
  exists h', activationRowsM act h O D n i = Ok h' /\ changed h h' D /\
    (forall k, (i <= k < m_r O)%nat -> A (readS h (rowOf O k)) (repeat fzero (m_c O)) = Ok (readS h' (rowOf D k))) /\
    (forall k, (k < i)%nat -> readS h' (rowOf D k) = readS h (rowOf D k)).
Proof.
  intros [SR SC]. induction n as [|n IH]; intros h i HO HD HN.
  - exists h. split; [reflexivity|]. split; [split; [|split]; auto|]. split; [intros k Hk; lia|auto].
  - cbn [activationRowsM]. replace (Nat.leb (m_r D) i) with false by (symmetry; apply Nat.leb_gt; lia).
    assert (IO : inside h (rowOf O i)) by (apply row_inside; auto; lia). assert (ID : inside h (rowOf D i)) by (apply row_inside; auto; lia).
    destruct (HA h (rowOf O i) (rowOf D i)) as (h1 & E1 & R1 & K1); auto.
    { unfold apart, rowOf. cbn [sl_at fst]. rewrite SC. destruct (Nat.eq_dec (m_at O) (m_at D)) as [->|]; auto. }
    { unfold rowOf. cbn [sl_len]. lia. }
    rewrite E1. cbn [bind]. assert (C1 : changed h h1 D) by (split; [apply K1|]; split; [apply K1|]; intros r Hr; apply (others_kept _ _ _ _ K1); auto).
    destruct (IH h1 (S i)) as (h2 & E2 & C2 & R2 & K2); [eapply changed_stored; eauto|eapply changed_stored; eauto|lia|].
    exists h2. split; [exact E2|]. split; [eapply changed_trans; eauto|].
    assert (HK : forall m k, m_c m = m_c O -> k <> i -> readS h1 (rowOf m k) = readS h (rowOf m k)).
    { intros m k Hm Hk. apply readS_ext. cbn [fst snd]. intros j Hj. destruct K1 as (_ & _ & K1). apply K1. unfold rowOf. cbn [sl_at sl_len fst snd]. rewrite Hm in Hj. rewrite SC. intros [_ HX].
      assert (HC : (k < i \/ i < k)%nat) by lia. destruct HC; nia. }
    split.
    + intros k Hk. destruct (Nat.eq_dec k i) as [->|HNk].
      * rewrite (K2 i) by lia. rewrite <- R1. apply HI; [rewrite repeat_length, (readS_length h _ IO); reflexivity|]. rewrite (readS_length h _ IO), (readS_length h _ ID). exact SC.
      * rewrite <- R2 by lia. rewrite HK; auto.
    + intros k Hk. rewrite K2 by lia. apply HK; [auto|lia].
Qed.
Lemma dense_spec h O dst : stored h O -> (forall m, dst = Some m -> stored h m /\ shaped m O) ->
  exists h' g, activationDenseM act h O dst = Ok (h', g) /\ returned h h' O dst g /\ othersKept h h' g /\
    forall i, (i < m_r O)%nat -> A (readS h (rowOf O i)) (repeat fzero (m_c O)) = Ok (readS h' (rowOf g i)).
Proof.
  intros HO HD. unfold activationDenseM. destruct (orNew h O dst) as [h0 d] eqn:E0. destruct (orNew_spec _ _ _ _ _ E0 (fun m H => proj1 (HD m H))) as (S0 & SM & A0 & HR).
  assert (Sd : shaped d O) by (destruct dst as [m|]; [destruct HR as [_ ->]; apply HD; auto|tauto]).
  destruct (rows_spec O d (m_r O) Sd h0 0 (SM _ HO) S0 eq_refl) as (h1 & E1 & C1 & R1 & _). rewrite E1. exists h1, d. split; [reflexivity|]. split; [eapply returned_ok; eauto|]. split; [eapply kept_ok; eauto|].
  intros i Hi. rewrite <- R1 by lia. unfold readS. rewrite (A0 (fst (sl_at (rowOf O i)))) by apply HO. reflexivity.
Qed.
End Dense.
Lemma softmax_dest E x y y' : length y = length x -> length y' = length x -> SoftMax E x y = SoftMax E x y'.
Proof. intros H H'. unfold SoftMax. rewrite H, H'. rewrite (skipn_all2 (n := length x) y), (skipn_all2 (n := length x) y') by lia. reflexivity. Qed.
Lemma normalization_dest x y y' : length y = length x -> length y' = length x -> Normalization x y = Normalization x y'.
Proof. intros H H'. unfold Normalization. rewrite H, H'. rewrite (skipn_all2 (n := length x) y), (skipn_all2 (n := length x) y') by lia. reflexivity. Qed.
Lemma softmax_short E h p q : (sl_len q < sl_len p)%nat -> SoftMaxM E h p q = Panic.
Proof. intros H. unfold SoftMaxM. apply Nat.ltb_lt in H. rewrite H. reflexivity. Qed.
Lemma normalization_short h p q : (sl_len q < sl_len p)%nat -> NormalizationM h p q = Panic.
Proof. intros H. unfold NormalizationM. apply Nat.ltb_lt in H. rewrite H. reflexivity. Qed.
Lemma mse_hess_short h probs m : stored h probs -> stored h m -> (entries m < entries probs)%nat -> m_at m <> m_at probs -> MSEHessianM h probs (Some m) = Panic.
Proof. intros Hp Hm. apply (mse_hess_panic h probs (Some m) Hp); [intros m' E; injection E as <-; exact Hm|reflexivity]. Qed.
(** a matrix that is too small as a destination *)
Lemma loop2_ends f : forall n h d a b, loop2 f h d a b n <> Diverge.
Proof.
  induction n as [|n IH]; intros h d a b; cbn [loop2]; [discriminate|]. unfold getC, setC. destruct (nth_error _ (snd a)); [|discriminate]. cbn [bind].
  destruct (nth_error _ (snd b)); [|discriminate]. cbn [bind]. destruct (Nat.ltb _ _); [|discriminate]. cbn [bind]. apply IH.
Qed.
Lemma copySum_ends : forall n h d a s, copySum h d a n s <> Diverge.
Proof.
  induction n as [|n IH]; intros h d a s; cbn [copySum]; [discriminate|]. unfold getC, setC. destruct (nth_error _ (snd a)); [|discriminate]. cbn [bind].
  destruct (Nat.ltb _ _); [|discriminate]. cbn [bind]. apply IH.
Qed.
Lemma softmax_ends E h p q : SoftMaxM E h p q <> Diverge.
Proof.
  unfold SoftMaxM. destruct (Nat.ltb _ _); [discriminate|]. pose proof (loop2_ends (fun v _ => e_exp E v) (sl_len p) h (sl_at q) (sl_at p) (sl_at p)) as H.
  destruct (loop2 _ _ _ _ _ _); [|discriminate|congruence]. cbn [bind]. apply loop2_ends.
Qed.
Lemma normalization_ends h p q : NormalizationM h p q <> Diverge.
Proof.
  unfold NormalizationM. destruct (Nat.ltb _ _); [discriminate|]. pose proof (copySum_ends (sl_len p) h (sl_at q) (sl_at p) fzero) as H.
  destruct (copySum _ _ _ _ _) as [[h1 s]| |]; [|discriminate|congruence]. cbn [bind]. apply loop2_ends.
Qed.
Section Short.
Context (act : mem -> slice -> slice -> res mem) (ends : forall h p q, act h p q <> Diverge) (short : forall h p q, (sl_len q < sl_len p)%nat -> act h p q = Panic).
Lemma rows_short O D : forall n i h, (m_r D < i + n)%nat -> activationRowsM act h O D n i = Panic \/ n = 0%nat.
Proof.
  induction n as [|n IH]; intros i h H; [auto|]. left. cbn [activationRowsM]. destruct (Nat.leb_spec (m_r D) i) as [HL|HL]; [reflexivity|].
  pose proof (ends h (rowOf O i) (rowOf D i)) as HE. destruct (act h _ _) as [h'| |]; [|reflexivity|congruence]. cbn [bind].
  destruct (IH (S i) h') as [->| ->]; [lia|reflexivity|lia].
Qed.
Lemma dense_short h O D : (m_r D < m_r O)%nat \/ ((0 < m_r O)%nat /\ (m_c D < m_c O)%nat) -> activationDenseM act h O (Some D) = Panic.
Proof.
  intros H. unfold activationDenseM, orNew. destruct H as [H|[H H']].
  - destruct (rows_short O D (m_r O) 0 h) as [->|E]; [lia|reflexivity|lia].
  - destruct (m_r O) as [|n] eqn:E; [lia|]. cbn [activationRowsM]. destruct (Nat.leb _ _); [reflexivity|]. rewrite short by (cbn; lia). reflexivity.
Qed.
End Short.
