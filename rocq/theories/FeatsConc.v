(** Interleaved idGiver.Next and Feats.Add (C69, C71), and trained trees have two children per inner node (C70). *)
From Verif Require Import Base F64 Env Utils Tree Options Train Spec SpecTrain UtilsProofs UtilsThms TreeProofs TrainThms TrainSteps TrainMore Feats SpecFeats FeatsThms.
Open Scope Z_scope.

Lemma upd_split {A} (l : list A) n a b : nth_error l n = Some a ->
  exists l1 l2, l = l1 ++ a :: l2 /\ upd_nat l n b = l1 ++ b :: l2 /\ length l1 = n.
Proof.
  revert n; induction l as [|x l IH]; intros [|n] H; simpl in *; try discriminate.
  - injection H as ->. exists [], l. auto.
  - destruct (IH n H) as (l1 & l2 & -> & -> & HL). exists (x :: l1), l2. simpl. auto.
Qed.

(** *** C71 *)
Definition idsBumped (l : list idPc) : list Z := flat_map (fun p => match p with IBumped r | IDone r => [r] | _ => [] end) l.
Definition idHolds (p : idPc) : nat := match p with ILocked | IRead _ | IBumped _ => 1 | _ => 0 end.
Definition idHolders (l : list idPc) : nat := list_sum (map idHolds l).
Definition idWeight (p : idPc) : nat := match p with IStart => 4 | ILocked => 3 | IRead _ => 2 | IBumped _ => 1 | IDone _ => 0 end.
Record idInv (s : idState) : Prop := {
  iv_cur : 0 <= is_current s;
  iv_ids : Permutation (idsBumped (is_threads s)) (map Z.of_nat (seq 1 (Z.to_nat (is_current s))));
  iv_lock : idHolders (is_threads s) = if is_lock s then 1%nat else 0%nat;
  iv_read : forall r, In (IRead r) (is_threads s) -> r = is_current s + 1
}.
Lemma list_sum_app' l1 l2 : list_sum (l1 ++ l2) = (list_sum l1 + list_sum l2)%nat.
Proof. apply list_sum_app. Qed.
Lemma holders_app a b : idHolders (a ++ b) = (idHolders a + idHolders b)%nat.
Proof. unfold idHolders. rewrite map_app. apply list_sum_app. Qed.
Lemma holders_cons a b : idHolders (a :: b) = (idHolds a + idHolders b)%nat.
Proof. reflexivity. Qed.
Lemma bumped_app a b : idsBumped (a ++ b) = idsBumped a ++ idsBumped b.
Proof. apply flat_map_app. Qed.
Lemma holders_in l p : In p l -> idHolds p = 1%nat -> (1 <= idHolders l)%nat.
Proof. intros H Hp. apply in_split in H as (a & b & ->). rewrite holders_app, holders_cons. lia. Qed.

Lemma idStep_inv s n s' : idInv s -> idStep s n = Some s' -> idInv s'.
Proof.
  intros [H1 H2 H3 H4] HS. unfold idStep in HS. destruct (nth_error (is_threads s) n) as [p|] eqn:En; [|discriminate HS].
  destruct (idStep1 (is_current s) (is_lock s) p) as [[[c lk] p']|] eqn:E1; [|discriminate HS]. injection HS as <-.
  destruct (upd_split _ _ _ p' En) as (l1 & l2 & Hl & Hu & _). rewrite Hu. rewrite Hl in *.
  rewrite bumped_app in H2. rewrite holders_app, holders_cons in H3.
  assert (HO : forall r, In (IRead r) l1 \/ In (IRead r) l2 -> r = is_current s + 1).
  { intros r Hr. apply H4. apply in_app_iff. simpl. tauto. }
  destruct p; simpl idStep1 in E1.
  - destruct (is_lock s); [discriminate E1|]. injection E1 as <- <- <-. constructor; cbn [is_current is_lock is_threads].
    + auto.
    + rewrite bumped_app. exact H2.
    + rewrite holders_app, holders_cons. simpl in *. lia.
    + intros r Hr. apply HO. apply in_app_iff in Hr as [Hr|[Hr|Hr]]; [auto|discriminate Hr|auto].
  - injection E1 as <- <- <-. constructor; cbn [is_current is_lock is_threads].
    + auto.
    + rewrite bumped_app. exact H2.
    + rewrite holders_app, holders_cons. simpl in *. lia.
    + intros r Hr. apply in_app_iff in Hr as [Hr|[Hr|Hr]]; [auto|congruence|auto].
  - injection E1 as <- <- <-. assert (r = is_current s + 1) by (apply H4; apply in_app_iff; simpl; auto). subst r.
    constructor; cbn [is_current is_lock is_threads].
    + lia.
    + rewrite bumped_app. simpl. replace (Z.to_nat (is_current s + 1)) with (S (Z.to_nat (is_current s))) by lia.
      rewrite seq_S, map_app. simpl. apply Permutation_sym. eapply Permutation_trans; [apply Permutation_sym, Permutation_cons_append|].
      replace (Z.pos (Pos.of_succ_nat (Z.to_nat (is_current s)))) with (is_current s + 1) by lia.
      eapply Permutation_trans; [|apply Permutation_middle]. apply perm_skip. apply Permutation_sym. exact H2.
    + rewrite holders_app, holders_cons. simpl in *. lia.
    + intros r Hr. exfalso. simpl in H3.
      assert (idHolders l1 + idHolders l2 = 0)%nat by (destruct (is_lock s); lia).
      apply in_app_iff in Hr as [Hr|[Hr|Hr]]; [|discriminate Hr|]; apply holders_in in Hr; simpl; auto; lia.
  - injection E1 as <- <- <-. constructor; cbn [is_current is_lock is_threads].
    + auto.
    + rewrite bumped_app. exact H2.
    + rewrite holders_app, holders_cons. simpl in *. destruct (is_lock s); lia.
    + intros r' Hr. apply HO. apply in_app_iff in Hr as [Hr|[Hr|Hr]]; [auto|discriminate Hr|auto].
  - discriminate E1.
Qed.

Lemma idInit_inv n : idInv (idInit n).
Proof.
  assert (HR : forall p, In p (repeat IStart n) -> p = IStart) by (intros p Hp; apply repeat_spec in Hp; auto).
  constructor; simpl.
  - lia.
  - replace (idsBumped (repeat IStart n)) with (@nil Z); [constructor|]. clear HR. induction n; simpl; auto.
  - clear HR. induction n; simpl; auto.
  - intros r Hr. apply HR in Hr. discriminate Hr.
Qed.
Lemma idRun_inv sched : forall s s', idInv s -> idRun s sched = Some s' -> idInv s'.
Proof.
  induction sched as [|n sched IH]; intros s s' HI HR; simpl in HR; [congruence|].
  destruct (idStep s n) as [s1|] eqn:E1; [|discriminate HR]. eapply IH; [|exact HR]. eapply idStep_inv; eauto.
Qed.
Lemma idRun_threads sched : forall s s', idRun s sched = Some s' -> length (is_threads s') = length (is_threads s) /\
  (length sched + list_sum (map idWeight (is_threads s')) = list_sum (map idWeight (is_threads s)))%nat.
Proof.
  induction sched as [|n sched IH]; intros s s' HR; simpl in HR; [injection HR as <-; simpl; auto|].
  destruct (idStep s n) as [s1|] eqn:E1; [|discriminate HR]. apply IH in HR as [-> HW].
  unfold idStep in E1. destruct (nth_error (is_threads s) n) as [p|] eqn:En; [|discriminate E1].
  destruct (idStep1 (is_current s) (is_lock s) p) as [[[c lk] p']|] eqn:E2; [|discriminate E1]. injection E1 as <-.
  cbn [is_threads] in *. rewrite upd_nat_length. split; [auto|].
  destruct (upd_split _ _ _ p' En) as (l1 & l2 & Hl & Hu & _). rewrite Hu in HW. rewrite Hl. rewrite !map_app, !list_sum_app in *. simpl in *.
  assert (idWeight p = S (idWeight p')); [|lia].
  destruct p; simpl in E2; try destruct (is_lock s); try discriminate E2; injection E2 as <- <- <-; reflexivity.
Qed.

Lemma ids_sub l : forall x, In x (flat_map (fun p => match p with IDone r => [r] | _ => [] end) l) -> In x (idsBumped l).
Proof. induction l as [|p l IH]; simpl; auto. intros x Hx. apply in_app_iff in Hx. apply in_app_iff. destruct Hx as [Hx|Hx]; [left|right; auto]. destruct p; simpl in *; tauto. Qed.
Lemma ids_nodup l : NoDup (idsBumped l) -> NoDup (flat_map (fun p => match p with IDone r => [r] | _ => [] end) l).
Proof.
  induction l as [|p l IH]; intros HN; simpl in *; [constructor|].
  assert (HN2 : NoDup (idsBumped l)). { unfold idsBumped in *. clear IH. destruct p; simpl in HN; auto; inversion HN; auto. }
  specialize (IH HN2). destruct p; simpl in *; auto. inversion HN; subst. constructor; auto. intros Hx. apply ids_sub in Hx. auto.
Qed.
Lemma ids_all_done l : (forall p, In p l -> idFinished p) -> idsBumped l = flat_map (fun p => match p with IDone r => [r] | _ => [] end) l /\ length (idsBumped l) = length l.
Proof.
  induction l as [|p l IH]; intros H; simpl; auto. destruct (H p) as [r ->]; [left; auto|]. destruct IH as [I1 I2]; [intros; apply H; right; auto|].
  simpl. split; [f_equal; auto|]. simpl in I2. lia.
Qed.

Lemma c71_lemma n sched s : idRun (idInit n) sched = Some s ->
  NoDup (idsOf s) /\ (forall r, In r (idsOf s) -> 1 <= r <= Z.of_nat n) /\
  ((forall p, In p (is_threads s) -> idFinished p) -> Permutation (idsOf s) (map Z.of_nat (seq 1 n))) /\
  (length sched <= 4 * n)%nat /\
  ((exists p, In p (is_threads s) /\ ~ idFinished p) -> exists k s', idStep s k = Some s').
Proof.
  intros HR. destruct (idRun_inv _ _ _ (idInit_inv n) HR) as [H1 H2 H3 H4].
  destruct (idRun_threads _ _ _ HR) as [HL HW]. simpl in HL. rewrite repeat_length in HL.
  assert (HNS : NoDup (map Z.of_nat (seq 1 (Z.to_nat (is_current s))))).
  { apply FinFun.Injective_map_NoDup; [intros a b; lia|apply seq_NoDup]. }
  assert (HC : (length (idsBumped (is_threads s)) <= n)%nat).
  { rewrite <- HL. unfold idsBumped. clear. induction (is_threads s) as [|p l IH]; simpl; auto. rewrite app_length. destruct p; simpl; lia. }
  assert (HCE : length (idsBumped (is_threads s)) = Z.to_nat (is_current s)).
  { rewrite (Permutation_length H2), map_length, seq_length. auto. }
  split; [|split; [|split; [|split]]].
  - apply ids_nodup. eapply Permutation_NoDup; [apply Permutation_sym; exact H2|auto].
  - intros r Hr. apply ids_sub in Hr. eapply Permutation_in in Hr; [|exact H2]. apply in_map_iff in Hr as (x & <- & Hx). apply in_seq in Hx. lia.
  - intros HD. destruct (ids_all_done _ HD) as [E1 E2]. unfold idsOf. rewrite <- E1. rewrite E2, HL in HCE. rewrite HCE. exact H2.
  - assert (HZ : list_sum (map idWeight (is_threads (idInit n))) = (4 * n)%nat).
    { simpl. clear. induction n as [|n IH]; [reflexivity|]. cbn [repeat map]. change (list_sum (idWeight IStart :: map idWeight (repeat IStart n))) with (4 + list_sum (map idWeight (repeat IStart n)))%nat. lia. }
    rewrite HZ in HW. lia.
  - intros (p & Hp & Hnf). destruct (is_lock s) eqn:EL.
    + assert (HX : exists q, In q (is_threads s) /\ idHolds q = 1%nat).
      { clear -H3. induction (is_threads s) as [|q l IH]; [discriminate H3|]. rewrite holders_cons in H3.
        destruct (idHolds q) as [|[|]] eqn:Eq; [|exists q; split; [left|]; auto|destruct q; discriminate Eq].
        destruct IH as (q' & Hq & Hh); [auto|]. exists q'. split; [right|]; auto. }
      destruct HX as (q & Hq & Hh). apply In_nth_error in Hq as [k Hk]. exists k. unfold idStep. rewrite Hk.
      destruct q; simpl in *; try discriminate Hh; eexists; reflexivity.
    + apply In_nth_error in Hp as [k Hk]. exists k. unfold idStep. rewrite Hk, EL.
      destruct p; simpl; try (eexists; reflexivity). exfalso. apply Hnf. exists r. auto.
Qed.

(** *** C69 *)
Definition aPending (t : addThread) : list (Z * f64) :=
  match a_pc t with AFoundU | AMissU | ADone => [] | _ => [(a_feat t, a_gain t)] end.
Definition aHolds (t : addThread) : nat := match a_pc t with AFoundL _ | AFoundU | AMissL | AMissG | AMissU => 1 | _ => 0 end.
Definition aHalf (t : addThread) : nat := match a_pc t with AMissG => 1 | _ => 0 end.
Definition aSum (w : addThread -> nat) (l : list addThread) : nat := list_sum (map w l).
Lemma aSum_mid w a t b : aSum w (a ++ t :: b) = (aSum w a + w t + aSum w b)%nat.
Proof. unfold aSum. rewrite map_app, list_sum_app. simpl. lia. Qed.
Definition shares (f : list Z) (c : list (list f64)) : list (Z * f64) := flat_map (fun p => map (pair (fst p)) (snd p)) (combine f c).
Record aInv (all : list (Z * f64)) (s : addState) : Prop := {
  av_contrib : exists c, fe_gains (as_feats s) = map leftSum c /\ (forall x, In x c -> x <> []) /\
      Permutation all (shares (fe_feat (as_feats s)) c ++ flat_map aPending (as_threads s));
  av_lock : aSum aHolds (as_threads s) = if as_lock s then 1%nat else 0%nat;
  av_len : length (fe_feat (as_feats s)) = (length (fe_gains (as_feats s)) + aSum aHalf (as_threads s))%nat;
  av_found : forall t i, In t (as_threads s) -> a_pc t = AFound i \/ a_pc t = AFoundL i ->
      0 <= i /\ nth_error (fe_feat (as_feats s)) (Z.to_nat i) = Some (a_feat t);
  av_half : forall t, In t (as_threads s) -> a_pc t = AMissG ->
      exists f, fe_feat (as_feats s) = f ++ [a_feat t]
}.

Lemma shares_app f1 f2 c1 c2 : length f1 = length c1 -> shares (f1 ++ f2) (c1 ++ c2) = shares f1 c1 ++ shares f2 c2.
Proof.
  intros H. unfold shares. revert c1 H; induction f1 as [|x f1 IH]; intros [|y c1] H; simpl in *; try discriminate; auto.
  rewrite IH by lia. rewrite app_assoc. auto.
Qed.
Lemma shares_short f x c : length f = length c -> shares (f ++ [x]) c = shares f c.
Proof. intros H. rewrite <- (app_nil_r c) at 1. rewrite shares_app by auto. unfold shares at 2. simpl. apply app_nil_r. Qed.
Lemma shares_long f x c : (length c <= length f)%nat -> shares (f ++ [x]) c = shares f c.
Proof.
  intros H. unfold shares. f_equal. revert c H; induction f as [|y f IH]; intros [|z c] H; simpl in *; auto; try lia.
  f_equal. apply IH. lia.
Qed.
Lemma nth_split2 {A} (l : list A) n a : nth_error l n = Some a -> exists l1 l2, l = l1 ++ a :: l2 /\ length l1 = n.
Proof. apply nth_error_split. Qed.
Lemma upd_nat_app {A} (l1 l2 : list A) a b : upd_nat (l1 ++ a :: l2) (length l1) b = l1 ++ b :: l2.
Proof. induction l1; simpl; congruence. Qed.

Lemma half_le_holds l : (aSum aHalf l <= aSum aHolds l)%nat.
Proof. unfold aSum. induction l as [|t l IH]; simpl; auto. assert (aHalf t <= aHolds t)%nat by (unfold aHalf, aHolds; destruct (a_pc t); lia). lia. Qed.
Lemma aSum_in w l t : In t l -> (w t <= aSum w l)%nat.
Proof. intros H. apply in_split in H as (a & b & ->). rewrite aSum_mid. lia. Qed.

(** the invariant for unchanged shared data *)
Lemma perm_mid_swap {A} (all s p1 p2 x : list A) : Permutation all (s ++ p1 ++ x ++ p2) -> Permutation all ((s ++ x) ++ p1 ++ p2).
Proof.
  intros H. eapply Permutation_trans; [exact H|]. rewrite <- app_assoc. apply Permutation_app_head. rewrite !app_assoc. apply Permutation_app_tail. apply Permutation_app_comm.
Qed.

Lemma addStep_inv all s n s' : aInv all s -> addStep s n = Some s' -> aInv all s'.
Proof.
  intros [(c & Hg & Hc & HP) HL HN HF HH] HS. unfold addStep in HS.
  destruct (nth_error (as_threads s) n) as [t|] eqn:En; [|discriminate HS].
  destruct (addStep1 (as_feats s) (as_lock s) t) as [[[f lk] pc]|] eqn:E1; [|discriminate HS]. injection HS as <-.
  destruct (upd_split _ _ _ (MkAT (a_feat t) (a_gain t) pc) En) as (l1 & l2 & Hl & Hu & _). rewrite Hu. rewrite Hl in *. clear Hu En.
  set (t' := MkAT (a_feat t) (a_gain t) pc) in *.
  rewrite aSum_mid in HL, HN. rewrite flat_map_app in HP. cbn [flat_map] in HP.
  assert (Hin : forall u, In u (l1 ++ t' :: l2) -> u = t' \/ In u (l1 ++ t :: l2)).
  { intros u Hu. apply in_app_iff in Hu as [Hu|[Hu|Hu]]; [right; apply in_app_iff; auto|auto|right; apply in_app_iff; simpl; auto]. }
  assert (Hint : In t (l1 ++ t :: l2)) by (apply in_app_iff; simpl; auto).
  assert (HLc : length (fe_gains (as_feats s)) = length c) by (rewrite Hg, map_length; auto).
  (* transitions that leave the shared set alone *)
  assert (Same : f = as_feats s -> aPending t' = aPending t ->
     (aSum aHolds l1 + aHolds t' + aSum aHolds l2 = if lk then 1 else 0)%nat -> aHalf t' = aHalf t ->
     (forall i, pc = AFound i \/ pc = AFoundL i -> 0 <= i /\ nth_error (fe_feat f) (Z.to_nat i) = Some (a_feat t)) -> pc <> AMissG ->
     aInv all (MkAS f lk (l1 ++ t' :: l2))).
  { intros -> Hpe Hho Hha Hpf Hpm. constructor; cbn [as_feats as_lock as_threads].
    - exists c. split; [auto|]. split; [auto|]. rewrite flat_map_app. cbn [flat_map]. rewrite Hpe. exact HP.
    - rewrite aSum_mid. exact Hho.
    - rewrite aSum_mid, Hha. exact HN.
    - intros u i Hu Hpc. destruct (Hin u Hu) as [->|Hu']; [apply Hpf; exact Hpc|eauto].
    - intros u Hu Hpc. destruct (Hin u Hu) as [->|Hu']; [exfalso; auto|eauto]. }
  unfold addStep1 in E1. destruct (a_pc t) as [|i| |i| | | | |] eqn:Epc.
  - (* index *) injection E1 as <- <- <-. apply Same; auto.
    + unfold t', aPending. rewrite Epc. destruct (0 <=? _); reflexivity.
    + rewrite <- HL. unfold t', aHolds. rewrite Epc. destruct (0 <=? _); reflexivity.
    + unfold t', aHalf. rewrite Epc. destruct (0 <=? _); reflexivity.
    + intros i Hi. destruct (Z.leb_spec 0 (sliceIndex (fe_feat (as_feats s)) (a_feat t))) as [Hle|Hlt]; [|destruct Hi as [[=]|[=]]].
      assert (i = sliceIndex (fe_feat (as_feats s)) (a_feat t)) by (destruct Hi; congruence). subst i. split; [auto|].
      destruct (in_dec Z.eq_dec (a_feat t) (fe_feat (as_feats s))) as [Hx|Hx].
      * destruct (sliceIndex_spec _ _ Hx) as (j & -> & Hj & _). rewrite Nat2Z.id. auto.
      * unfold sliceIndex in Hle. rewrite sliceIndex_absent in Hle by auto. lia.
    + destruct (0 <=? _); discriminate.
  - (* lock, found *) destruct (as_lock s); [discriminate E1|]. injection E1 as <- <- <-. apply Same; auto.
    + unfold t', aPending. rewrite Epc. reflexivity.
    + assert (HZ : aHolds t = 0%nat) by (unfold aHolds; rewrite Epc; auto). assert (HZ' : aHolds t' = 1%nat) by reflexivity. lia.
    + unfold t', aHalf. rewrite Epc. reflexivity.
    + intros j Hj. destruct Hj as [[=]|[= <-]]. eapply HF; eauto.
    + discriminate.
  - (* lock, missing *) destruct (as_lock s); [discriminate E1|]. injection E1 as <- <- <-. apply Same; auto.
    + unfold t', aPending. rewrite Epc. reflexivity.
    + assert (HZ : aHolds t = 0%nat) by (unfold aHolds; rewrite Epc; auto). assert (HZ' : aHolds t' = 1%nat) by reflexivity. lia.
    + unfold t', aHalf. rewrite Epc. reflexivity.
    + intros j Hj. destruct Hj as [[=]|[=]].
    + discriminate.
  - (* addition *) destruct (nth_error (fe_gains (as_feats s)) (Z.to_nat i)) as [old|] eqn:Eo; [|discriminate E1]. injection E1 as <- <- <-.
    destruct (HF t i Hint (or_intror Epc)) as [Hi0 Hfi].
    rewrite Hg, nth_error_map in Eo. destruct (nth_error c (Z.to_nat i)) as [ci|] eqn:Ec; [|discriminate Eo]. injection Eo as <-.
    destruct (nth_split2 _ _ _ Ec) as (c1 & c2 & -> & HLc1).
    assert (HLf : (length c1 < length (fe_feat (as_feats s)))%nat) by (rewrite HLc1; apply nth_error_Some; congruence).
    destruct (nth_split2 _ _ _ Hfi) as (f1 & f2 & Hf & HLf1).
    constructor; cbn [as_feats as_lock as_threads fe_feat fe_gains].
    + exists (c1 ++ (ci ++ [a_gain t]) :: c2). split; [|split].
      * rewrite Hg, !map_app. cbn [map]. rewrite <- HLc1. rewrite <- (map_length leftSum c1). rewrite upd_nat_app.
        rewrite leftSum_snoc; [reflexivity|]. apply Hc. apply in_app_iff. simpl. auto.
      * intros x Hx. apply in_app_iff in Hx as [Hx|[<-|Hx]].
        -- apply Hc, in_app_iff; auto.
        -- destruct ci; discriminate.
        -- apply Hc, in_app_iff; simpl; auto.
      * rewrite flat_map_app. cbn [flat_map]. assert (Hpt : aPending t = [(a_feat t, a_gain t)]) by (unfold aPending; rewrite Epc; auto).
        rewrite Hpt in HP. change (aPending t') with (@nil (Z * f64)). rewrite Hf in HP |- *.
        rewrite shares_app in HP |- * by lia. unfold shares at 2. unfold shares at 2 in HP. cbn [combine flat_map fst snd] in HP |- *.
        rewrite map_app. cbn [map].
        apply perm_mid_swap in HP. eapply Permutation_trans; [exact HP|]. apply Permutation_app; [|apply Permutation_refl].
        rewrite <- !app_assoc. apply Permutation_app_head. apply Permutation_app_head. apply Permutation_app_comm.
    + rewrite aSum_mid. rewrite <- HL. assert (HZ : aHolds t = 1%nat) by (unfold aHolds; rewrite Epc; auto). rewrite HZ. reflexivity.
    + rewrite upd_nat_length, aSum_mid. rewrite HN. assert (HZ : aHalf t = 0%nat) by (unfold aHalf; rewrite Epc; auto). rewrite HZ. reflexivity.
    + intros u j Hu Hpc. destruct (Hin u Hu) as [->|Hu']; [destruct Hpc as [[=]|[=]]|eauto].
    + intros u Hu Hpc. destruct (Hin u Hu) as [->|Hu']; [discriminate Hpc|eauto].
  - (* unlock *) injection E1 as <- <- <-. apply Same; auto.
    + unfold t', aPending. rewrite Epc. reflexivity.
    + assert (HZ : aHolds t = 1%nat) by (unfold aHolds; rewrite Epc; auto). assert (HZ' : aHolds t' = 0%nat) by reflexivity. destruct (as_lock s); lia.
    + unfold t', aHalf. rewrite Epc. reflexivity.
    + intros j Hj. destruct Hj as [[=]|[=]].
    + discriminate.
  - (* first append *) injection E1 as <- <- <-.
    assert (HZ : aHolds t = 1%nat) by (unfold aHolds; rewrite Epc; auto).
    pose proof (half_le_holds l1). pose proof (half_le_holds l2).
    assert (HHt : aHalf t = 0%nat) by (unfold aHalf; rewrite Epc; auto).
    assert (HNN : length (fe_feat (as_feats s)) = length (fe_gains (as_feats s))) by (destruct (as_lock s); lia).
    constructor; cbn [as_feats as_lock as_threads fe_feat fe_gains].
    + exists c. split; [auto|]. split; [auto|]. rewrite flat_map_app. cbn [flat_map].
      rewrite shares_long by lia. unfold t', aPending at 2. cbn [a_pc a_feat a_gain]. unfold aPending at 2 in HP. rewrite Epc in HP. exact HP.
    + rewrite aSum_mid. rewrite <- HL, HZ. reflexivity.
    + rewrite app_length, aSum_mid. change (aHalf t') with 1%nat. simpl. destruct (as_lock s); lia.
    + intros u j Hu Hpc. destruct (Hin u Hu) as [->|Hu']; [destruct Hpc as [[=]|[=]]|].
      destruct (HF u j Hu' Hpc) as [Hj0 Hj]. split; [auto|]. apply nth_snoc. auto.
    + intros u Hu Hpc. destruct (Hin u Hu) as [->|Hu']; [cbn; eauto|]. exfalso.
      apply in_app_iff in Hu as [Hu|[Hu|Hu]].
      * apply (aSum_in aHalf) in Hu. unfold aHalf at 1 in Hu. rewrite Hpc in Hu. destruct (as_lock s); lia.
      * subst u. apply in_app_iff in Hu' as [Hu|[Hu|Hu]].
        -- apply (aSum_in aHalf) in Hu. change (aHalf t') with 1%nat in Hu. destruct (as_lock s); lia.
        -- rewrite Hu in Epc. discriminate Epc.
        -- apply (aSum_in aHalf) in Hu. change (aHalf t') with 1%nat in Hu. destruct (as_lock s); lia.
      * apply (aSum_in aHalf) in Hu. unfold aHalf at 1 in Hu. rewrite Hpc in Hu. destruct (as_lock s); lia.
  - (* second append *) injection E1 as <- <- <-.
    assert (HZ : aHolds t = 1%nat) by (unfold aHolds; rewrite Epc; auto).
    pose proof (half_le_holds l1). pose proof (half_le_holds l2).
    assert (HHt : aHalf t = 1%nat) by (unfold aHalf; rewrite Epc; auto).
    destruct (HH t Hint Epc) as [f0 Hf0].
    assert (HNN : length (fe_feat (as_feats s)) = S (length (fe_gains (as_feats s)))) by (destruct (as_lock s); lia).
    assert (HLf0 : length f0 = length c) by (rewrite Hf0, app_length in HNN; simpl in HNN; lia).
    constructor; cbn [as_feats as_lock as_threads fe_feat fe_gains].
    + exists (c ++ [[a_gain t]]). split; [rewrite Hg, map_app; reflexivity|]. split.
      * intros x Hx. apply in_app_iff in Hx as [Hx|[<-|[]]]; [auto|discriminate].
      * rewrite flat_map_app. cbn [flat_map]. rewrite Hf0 in HP |- *. rewrite shares_app by auto. rewrite shares_short in HP by auto.
        unfold shares at 2. cbn [combine flat_map map fst snd app]. change (aPending t') with (@nil (Z * f64)).
        unfold aPending at 2 in HP. rewrite Epc in HP. apply perm_mid_swap. exact HP.
    + rewrite aSum_mid. rewrite <- HL, HZ. reflexivity.
    + rewrite app_length, aSum_mid. change (aHalf t') with 0%nat. simpl. destruct (as_lock s); lia.
    + intros u j Hu Hpc. destruct (Hin u Hu) as [->|Hu']; [destruct Hpc as [[=]|[=]]|eauto].
    + intros u Hu Hpc. destruct (Hin u Hu) as [->|Hu']; [discriminate Hpc|eauto].
  - (* unlock *) injection E1 as <- <- <-. apply Same; auto.
    + unfold t', aPending. rewrite Epc. reflexivity.
    + assert (HZ : aHolds t = 1%nat) by (unfold aHolds; rewrite Epc; auto). assert (HZ' : aHolds t' = 0%nat) by reflexivity. destruct (as_lock s); lia.
    + unfold t', aHalf. rewrite Epc. reflexivity.
    + intros j Hj. destruct Hj as [[=]|[=]].
    + discriminate.
  - discriminate E1.
Qed.

Lemma shares_single f g : length g = length f -> shares f (map (fun x => [x]) g) = combine f g.
Proof. unfold shares. revert g; induction f as [|x f IH]; intros [|y g] H; simpl in *; try discriminate; auto. f_equal. apply IH. lia. Qed.
Lemma addInit_inv f adds : length (fe_gains f) = length (fe_feat f) -> aInv (pairsOf f ++ adds) (addInit f adds).
Proof.
  intros HL.
  assert (HT : forall t, In t (map (fun p => MkAT (fst p) (snd p) AStart) adds) -> a_pc t = AStart).
  { intros t Ht. apply in_map_iff in Ht as (p & <- & _). reflexivity. }
  constructor; cbn [addInit as_feats as_lock as_threads].
  - exists (map (fun x => [x]) (fe_gains f)). split; [|split].
    + rewrite map_map. simpl. rewrite map_id. auto.
    + intros x Hx. apply in_map_iff in Hx as (y & <- & _). discriminate.
    + rewrite shares_single by auto. apply Permutation_app_head.
      replace (flat_map aPending (map (fun p => MkAT (fst p) (snd p) AStart) adds)) with adds; [apply Permutation_refl|].
      clear. induction adds as [|(a & b) l IH]; simpl; congruence.
  - clear. unfold aSum. induction adds as [|(a & b) l IH]; simpl; auto.
  - rewrite HL. replace (aSum aHalf _) with O; [lia|]. clear. unfold aSum. induction adds as [|(a & b) l IH]; simpl; auto.
  - intros t i Ht [Hp|Hp]; rewrite (HT t Ht) in Hp; discriminate Hp.
  - intros t Ht Hp. rewrite (HT t Ht) in Hp. discriminate Hp.
Qed.
Lemma addRun_inv all sched : forall s s', aInv all s -> addRun s sched = Some s' -> aInv all s'.
Proof.
  induction sched as [|n sched IH]; intros s s' HI HR; simpl in HR; [congruence|].
  destruct (addStep s n) as [s1|] eqn:E1; [|discriminate HR]. eapply IH; [|exact HR]. eapply addStep_inv; eauto.
Qed.

Lemma c69_lemma f adds sched s : length (fe_gains f) = length (fe_feat f) -> addRun (addInit f adds) sched = Some s ->
  ((forall t, In t (as_threads s) -> a_pc t = ADone) -> exists contrib, distributes (pairsOf f ++ adds) (as_feats s) contrib) /\
  ((exists t, In t (as_threads s) /\ a_pc t <> ADone) -> exists k s', addStep s k = Some s').
Proof.
  intros HL HR. destruct (addRun_inv _ _ _ _ (addInit_inv f adds HL) HR) as [(c & Hg & Hc & HP) HLk HN HF HH]. split.
  - intros HD. exists c.
    assert (HZ : aSum aHalf (as_threads s) = 0%nat /\ flat_map aPending (as_threads s) = []).
    { clear -HD. unfold aSum. induction (as_threads s) as [|t l IH]; simpl; auto. destruct IH as [I1 I2]; [intros; apply HD; right; auto|].
      unfold aHalf at 1, aPending at 1. rewrite (HD t) by (left; auto). simpl. auto. }
    destruct HZ as [Z1 Z2]. rewrite Z1 in HN. rewrite Z2, app_nil_r in HP.
    split; [rewrite Hg, map_length in HN; lia|]. split; [auto|]. split; [auto|exact HP].
  - intros (t & Ht & Hnd).
    assert (HK : forall u, In u (as_threads s) -> addStep1 (as_feats s) (as_lock s) u <> None -> exists k s', addStep s k = Some s').
    { intros u Hu Hs. apply In_nth_error in Hu as [k Hk]. exists k. unfold addStep. rewrite Hk.
      destruct (addStep1 (as_feats s) (as_lock s) u) as [[[a b] d]|]; [eauto|congruence]. }
    destruct (as_lock s) eqn:EL.
    + assert (HX : exists q, In q (as_threads s) /\ aHolds q = 1%nat).
      { clear -HLk. unfold aSum in HLk. induction (as_threads s) as [|q l IH]; [discriminate HLk|]. simpl in HLk.
        destruct (aHolds q) as [|[|]] eqn:Eq; [|exists q; split; [left|]; auto|unfold aHolds in Eq; destruct (a_pc q); discriminate Eq].
        destruct IH as (q' & Hq & Hh); [auto|]. exists q'. split; [right|]; auto. }
      destruct HX as (q & Hq & Hh). apply (HK q Hq). unfold addStep1. unfold aHolds in Hh.
      destruct (a_pc q) as [|i| |i| | | | |] eqn:Ep; try discriminate Hh; try discriminate.
      destruct (HF q i Hq (or_intror Ep)) as [Hi0 Hi].
      assert (Hlt : (Z.to_nat i < length (fe_feat (as_feats s)))%nat) by (apply nth_error_Some; congruence).
      assert (HZ : aSum aHalf (as_threads s) = 0%nat).
      { apply in_split in Hq as (l1 & l2 & Hq). rewrite Hq in *. rewrite aSum_mid in HLk |- *.
        pose proof (half_le_holds l1). pose proof (half_le_holds l2). unfold aHolds at 2 in HLk. unfold aHalf at 2. rewrite Ep in *. lia. }
      destruct (nth_error (fe_gains (as_feats s)) (Z.to_nat i)) eqn:Eo; [discriminate|]. apply nth_error_None in Eo. lia.
    + assert (HZ : aHolds t = 0%nat) by (pose proof (aSum_in aHolds _ _ Ht); lia).
      apply (HK t Ht). unfold addStep1. unfold aHolds in HZ. destruct (a_pc t); try discriminate HZ; try discriminate. congruence.
Qed.

(** when every feature added is already in the set, nothing is duplicated *)
Definition known (fs : list Z) (s : addState) : Prop := fe_feat (as_feats s) = fs /\
  forall t, In t (as_threads s) -> In (a_feat t) fs /\ match a_pc t with AMissing | AMissL | AMissG | AMissU => False | _ => True end.
Lemma known_step fs s n s' : known fs s -> addStep s n = Some s' -> known fs s'.
Proof.
  intros [H1 H2] HS. unfold addStep in HS. destruct (nth_error (as_threads s) n) as [t|] eqn:En; [|discriminate HS].
  destruct (addStep1 (as_feats s) (as_lock s) t) as [[[f lk] pc]|] eqn:E1; [|discriminate HS]. injection HS as <-.
  pose proof (nth_error_In _ _ En) as Ht. destruct (H2 t Ht) as [Hk Hpc].
  assert (HX : fe_feat f = fs /\ match pc with AMissing | AMissL | AMissG | AMissU => False | _ => True end).
  { unfold addStep1 in E1. destruct (a_pc t) as [|i| |i| | | | |]; try contradiction.
    - injection E1 as <- <- <-. split; [auto|]. rewrite H1. destruct (sliceIndex_spec fs _ Hk) as (j & -> & _).
      destruct (Z.leb_spec 0 (Z.of_nat j)); [auto|lia].
    - destruct (as_lock s); [discriminate E1|]. injection E1 as <- <- <-. auto.
    - destruct (nth_error (fe_gains (as_feats s)) (Z.to_nat i)); [|discriminate E1]. injection E1 as <- <- <-. cbn [fe_feat]. auto.
    - injection E1 as <- <- <-. auto.
    - discriminate E1. }
  destruct HX as [X1 X2]. split; cbn [as_feats as_threads]; [auto|].
  intros u Hu. apply In_nth_error in Hu as [m Hm]. rewrite upd_nat_nth in Hm. destruct (Nat.eqb m n).
  - destruct (Nat.ltb n (length (as_threads s))); [|discriminate Hm]. injection Hm as <-. cbn. auto.
  - apply H2. eapply nth_error_In; eauto.
Qed.
Lemma c69_known f adds sched s : (forall p, In p adds -> In (fst p) (fe_feat f)) -> addRun (addInit f adds) sched = Some s ->
  fe_feat (as_feats s) = fe_feat f.
Proof.
  intros HA HR. assert (HK : known (fe_feat f) (addInit f adds)).
  { split; [reflexivity|]. intros t Ht. cbn in Ht. apply in_map_iff in Ht as (p & <- & Hp). cbn. auto. }
  revert HK HR. generalize (addInit f adds). induction sched as [|n sched IH]; intros s0 HK HR; simpl in HR.
  - injection HR as <-. apply HK.
  - destruct (addStep s0 n) as [s1|] eqn:E1; [|discriminate HR]. eapply IH; [|exact HR]. eapply known_step; eauto.
Qed.

(** *** trained trees *)
Lemma twoChildren_sub t : t <> Nil -> (forall d l r, sub (Node d l r) t -> t_leaf d = false -> l <> Nil /\ r <> Nil) -> twoChildren t.
Proof.
  induction t as [|d l IHl r IHr]; intros HN H; [congruence|]. destruct (t_leaf d) eqn:Ed; [apply tc_leaf; auto|].
  destruct (H d l r) as [Hl Hr]; [constructor|auto|]. apply tc_inner; auto.
  - apply IHl; auto. intros d' l' r' Hs. apply H. apply sub_l. auto.
  - apply IHr; auto. intros d' l' r' Hs. apply H. apply sub_r. auto.
Qed.
Lemma NewTree_twoChildren E X o t : NewTree E X o = Ok t -> twoChildren t.
Proof.
  intros H. apply twoChildren_sub.
  - destruct (root_samples E X o t H) as (d & l & r & -> & _). discriminate.
  - intros d l r Hs Hd. destruct (split_partition E X o t d l r H Hs Hd) as (ix & dl & ll & lr & dr & rl & rr & _ & -> & -> & _).
    split; discriminate.
Qed.
Lemma leavesUpdated_twoChildren g h t t' : leavesUpdated g h t t' -> twoChildren t -> twoChildren t'.
Proof.
  induction 1 as [|d l r l' r' Hd Hl IHl Hr IHr|d d' l r l' r' ix gs hs Hd _ _ _ _ HE Hl IHl Hr IHr]; intros HT; auto.
  - inversion HT; subst; [congruence|]. apply tc_inner; auto.
  - apply tc_leaf. injection HE as E1 E2 E3 E4 E5 E6 E7. unfold t_leaf in *. rewrite E2, E6. auto.
Qed.
Lemma trained_twoChildren {K} E rnd (D : DataBunch K) O tr : NewMultiClass E rnd D O = Ok tr -> (length (Data D) <= length (Labels D))%nat ->
  forall t, In t (concat (mc_b (tr_model tr))) -> twoChildren t.
Proof.
  intros H HL t Ht. destruct (NewMultiClass_inv E rnd D O tr H) as (_ & Eb & _). rewrite Eb in Ht.
  rewrite <- concat_map in Ht. apply in_map_iff in Ht as (e & <- & Hc).
  apply in_split in Hc as (es1 & es2 & Heq).
  destruct (c81_lemma E rnd D O tr H HL es1 e es2 Heq) as (lab & pr & pr' & _ & _ & HF & _).
  unfold fitted in HF. destruct (o_xgb (tr_opts tr)).
  - destruct HF as (rows & cols & topts & _ & _ & _ & _ & _ & HT). eapply NewTree_twoChildren; eauto.
  - destruct HF as (topts & t0 & _ & _ & HT & HU). eapply leavesUpdated_twoChildren; eauto. eapply NewTree_twoChildren; eauto.
Qed.
From Verif Require Import Examples TrainEx.
Lemma ex_c70 : exists tr f, NewMultiClass env0 draws0 exD (mkO true 0 3 2 (fdec 3 10)) = Ok tr /\
  FeatureImportance env0 (tr_model tr) = Ok f /\ fe_feat f = [0].
Proof.
  destruct (ok_ex runFull (fun tr => match FeatureImportance env0 (tr_model tr) with Ok f => match fe_feat f with [x] => x =? 0 | _ => false end | _ => false end))
    as (tr & Htr & HB); [vm_compute; reflexivity|].
  exists tr. destruct (FeatureImportance env0 (tr_model tr)) as [f| |]; try discriminate HB. exists f. split; [exact Htr|]. split; [auto|].
  destruct (fe_feat f) as [|x [|]]; try discriminate HB. apply Z.eqb_eq in HB. congruence.
Qed.
