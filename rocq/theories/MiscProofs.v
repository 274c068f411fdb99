(** Proof support for C124-C127. *)
From Coq Require Import Reals Ascii String Sorted.
From Verif Require Import Base F64 F64Lemmas Env EnvLemmas Utils Tree Text Confu Readers Json Print Misc Spec SpecPrint SpecMisc UtilsProofs UtilsThms PrintProofs.
From Coq Require Import List.
Open Scope Z_scope.

(** ** swapping *)
Lemma nth_error_ext {A} (l : list A) : forall l', (forall k, nth_error l k = nth_error l' k) -> l = l'.
Proof.
  induction l as [|a l IH]; intros [|b l'] H; [reflexivity|specialize (H 0%nat); discriminate H|specialize (H 0%nat); discriminate H|].
  pose proof (H 0%nat) as H0. injection H0 as ->. f_equal. apply IH. intros k. exact (H (Datatypes.S k)).
Qed.
Lemma swapAt_ok {A} (x : list A) i j x' : swapAt x i j = Ok x' <->
  0 <= i < Z.of_nat (length x) /\ 0 <= j < Z.of_nat (length x) /\ length x' = length x /\
  forall k, nth_error x' k = nth_error x (if Nat.eqb k (Z.to_nat j) then Z.to_nat i else if Nat.eqb k (Z.to_nat i) then Z.to_nat j else k).
Proof.
  unfold swapAt. split.
  - intros H. apply bind_Ok in H as (vi & Hi & H). apply bind_Ok in H as (vj & Hj & H). apply bind_Ok in H as (x1 & H1 & H).
    apply look_idx in Hi as [Hi Ei]. apply look_idx in Hj as [Hj Ej]. apply upd_Ok in H1 as [R1 ->]. apply upd_Ok in H as [R2 ->].
    rewrite upd_nat_length in *. split; [lia|]. split; [lia|]. split; [apply upd_nat_length|]. intros k. rewrite !upd_nat_nth, upd_nat_length.
    assert (L1 : Nat.ltb (Z.to_nat i) (length x) = true) by (apply Nat.ltb_lt; lia). assert (L2 : Nat.ltb (Z.to_nat j) (length x) = true) by (apply Nat.ltb_lt; lia).
    rewrite L1, L2. destruct (Nat.eqb_spec k (Z.to_nat j)) as [->|Hk]; [congruence|]. destruct (Nat.eqb_spec k (Z.to_nat i)); congruence.
  - intros (Ri & Rj & HL & HK). destruct (nth_error x (Z.to_nat i)) as [vi|] eqn:Ei; [|apply nth_error_None in Ei; lia].
    destruct (nth_error x (Z.to_nat j)) as [vj|] eqn:Ej; [|apply nth_error_None in Ej; lia].
    assert (Hi : idx x i = Ok vi) by (apply look_idx; split; [lia|auto]). assert (Hj : idx x j = Ok vj) by (apply look_idx; split; [lia|auto]).
    rewrite Hi, Hj. cbn [bind]. assert (H1 : upd x i vj = Ok (upd_nat x (Z.to_nat i) vj)) by (apply upd_Ok; split; [lia|auto]). rewrite H1. cbn [bind].
    apply upd_Ok. rewrite upd_nat_length. split; [lia|]. apply nth_error_ext. intros k. rewrite HK. rewrite !upd_nat_nth, upd_nat_length.
    assert (L1 : Nat.ltb (Z.to_nat i) (length x) = true) by (apply Nat.ltb_lt; lia). assert (L2 : Nat.ltb (Z.to_nat j) (length x) = true) by (apply Nat.ltb_lt; lia).
    rewrite L1, L2. destruct (Nat.eqb_spec k (Z.to_nat j)) as [->|Hk]; [congruence|]. destruct (Nat.eqb_spec k (Z.to_nat i)); congruence.
Qed.
Lemma swapAt_ex {A} (x : list A) i j : 0 <= i < Z.of_nat (length x) -> 0 <= j < Z.of_nat (length x) -> exists x', swapAt x i j = Ok x'.
Proof.
  intros Ri Rj. unfold swapAt. destruct (nth_error x (Z.to_nat i)) as [vi|] eqn:Ei; [|apply nth_error_None in Ei; lia].
  destruct (nth_error x (Z.to_nat j)) as [vj|] eqn:Ej; [|apply nth_error_None in Ej; lia].
  assert (Hi : idx x i = Ok vi) by (apply look_idx; split; [lia|auto]). assert (Hj : idx x j = Ok vj) by (apply look_idx; split; [lia|auto]).
  rewrite Hi, Hj. cbn [bind]. assert (H1 : upd x i vj = Ok (upd_nat x (Z.to_nat i) vj)) by (apply upd_Ok; split; [lia|auto]). rewrite H1. cbn [bind].
  eexists. apply upd_Ok. rewrite upd_nat_length. split; [lia|reflexivity].
Qed.
Lemma swapAt_perm {A} (x : list A) i j x' : swapAt x i j = Ok x' -> Permutation x x'.
Proof.
  intros H. apply swapAt_ok in H as (Ri & Rj & HL & HK). apply Permutation_nth_error. split; [auto|].
  exists (fun k => if Nat.eqb k (Z.to_nat j) then Z.to_nat i else if Nat.eqb k (Z.to_nat i) then Z.to_nat j else k). split; [|exact HK].
  intros a b. destruct (Nat.eqb_spec a (Z.to_nat j)), (Nat.eqb_spec b (Z.to_nat j)), (Nat.eqb_spec a (Z.to_nat i)), (Nat.eqb_spec b (Z.to_nat i)); subst; intros; congruence.
Qed.
Lemma swapAt_Forall2 {A B} (R : A -> B -> Prop) x y i j x' y' : Forall2 R x y -> swapAt x i j = Ok x' -> swapAt y i j = Ok y' -> Forall2 R x' y'.
Proof.
  intros HF Hx Hy. apply swapAt_ok in Hx as (_ & _ & Lx & Kx). apply swapAt_ok in Hy as (_ & _ & Ly & Ky).
  pose proof (Forall2_len _ _ _ HF) as HL. assert (HL' : length x' = length y') by lia.
  assert (HP : forall k a b, nth_error x' k = Some a -> nth_error y' k = Some b -> R a b).
  { intros k a b Ha Hb. rewrite Kx in Ha. rewrite Ky in Hb. destruct (Forall2_nth1 _ _ _ HF _ _ Ha) as (b' & Hb' & Hr). congruence. }
  clear -HL' HP. revert y' HL' HP. induction x' as [|a x' IH]; intros [|b y'] HL HP; try discriminate HL; constructor.
  - apply (HP 0%nat); reflexivity.
  - apply IH; [injection HL; auto|]. intros k. apply (HP (Datatypes.S k)).
Qed.

(** ** C124 *)
Lemma lessAt_not_diverge x i j : lessAt x i j <> Diverge.
Proof.
  unfold lessAt. intros H. destruct (idx x i) eqn:E1; cbn [bind] in H; try discriminate; [|eapply idx_not_Diverge; eauto].
  destruct (idx x j) eqn:E2; cbn [bind] in H; try discriminate. eapply idx_not_Diverge; eauto.
Qed.
Lemma run_inv n p : forall s s', runSlice p s = Ok s' -> Permutation (iota (length n)) (sl_idx s) -> Forall2 (look n) (sl_idx s) (sl_vals s) ->
  Permutation (iota (length n)) (sl_idx s') /\ Forall2 (look n) (sl_idx s') (sl_vals s') /\ runFloats p (sl_vals s) = Ok (sl_vals s').
Proof.
  induction p as [|i j k IH|i j k IH]; intros s s' H HP HF; cbn [runSlice runFloats] in *.
  - injection H as <-. auto.
  - apply bind_Ok in H as (b & Hb & H). rewrite Hb. cbn [bind]. eapply IH; eauto.
  - apply bind_Ok in H as (s1 & H1 & H). unfold SwapSlice in H1. apply bind_Ok in H1 as (v & Hv & H1). apply bind_Ok in H1 as (ks & Hk & H1).
    injection H1 as <-. rewrite Hv. cbn [bind]. apply (IH (MkSlice v ks) s' H); cbn [sl_idx sl_vals].
    + etransitivity; [exact HP|]. eapply swapAt_perm; eauto.
    + eapply swapAt_Forall2; eauto.
Qed.
Lemma look_iota_self {A} (n : list A) : Forall2 (look n) (iota (length n)) n.
Proof.
  assert (H : forall (l : list A) p, (forall k a, nth_error l k = Some a -> nth_error n (p + k) = Some a) -> Forall2 (look n) (map Z.of_nat (seq p (length l))) l).
  { induction l as [|a l IH]; intros p H; cbn [length seq map]; constructor.
    - split; [lia|]. rewrite Nat2Z.id. specialize (H 0%nat a eq_refl). rewrite Nat.add_0_r in H. exact H.
    - apply IH. intros k b Hk. specialize (H (Datatypes.S k) b Hk). replace (Datatypes.S p + k)%nat with (p + Datatypes.S k)%nat by lia. exact H. }
  apply (H n 0%nat). auto.
Qed.
Lemma c124_pairs_lemma n p s : runSlice p (NewSlice n) = Ok s ->
  Permutation (iota (length n)) (sl_idx s) /\ Forall2 (look n) (sl_idx s) (sl_vals s) /\ Permutation n (sl_vals s) /\ runFloats p n = Ok (sl_vals s).
Proof.
  intros H. destruct (run_inv n p _ _ H) as (A & B & C); cbn [NewSlice sl_idx sl_vals] in *; [reflexivity|apply look_iota_self|].
  split; [exact A|]. split; [exact B|]. split; [|exact C]. clear -C. revert n C. generalize (sl_vals s) as v.
  induction p as [|i j k IH|i j k IH]; intros v n H; cbn [runFloats] in H.
  - injection H as ->. reflexivity.
  - apply bind_Ok in H as (b & _ & H). eapply IH; eauto.
  - apply bind_Ok in H as (x & Hx & H). etransitivity; [eapply swapAt_perm; eauto|]. eapply IH; eauto.
Qed.
Lemma run_total p : forall x ks, inRange (Z.of_nat (length x)) p -> length ks = length x -> exists s, runSlice p (MkSlice x ks) = Ok s.
Proof.
  induction p as [|i j k IH|i j k IH]; intros x ks H HL; cbn [runSlice]; [eauto| |].
  - inversion H as [|i' j' k' Hi Hj Hk|]; subst. cbn [sl_vals]. unfold lessAt.
    destruct (nth_error x (Z.to_nat i)) as [vi|] eqn:Ei; [|apply nth_error_None in Ei; lia].
    destruct (nth_error x (Z.to_nat j)) as [vj|] eqn:Ej; [|apply nth_error_None in Ej; lia].
    assert (Hi' : idx x i = Ok vi) by (apply look_idx; split; [lia|auto]). assert (Hj' : idx x j = Ok vj) by (apply look_idx; split; [lia|auto]).
    rewrite Hi', Hj'. cbn [bind]. apply IH; auto.
  - inversion H as [| |i' j' k' Hi Hj Hk]; subst. unfold SwapSlice. cbn [sl_vals sl_idx].
    destruct (swapAt_ex x i j Hi Hj) as [x' Hx]. destruct (swapAt_ex ks i j) as [ks' Hks]; [lia|lia|]. rewrite Hx, Hks. cbn [bind].
    apply swapAt_ok in Hx as (_ & _ & Lx & _). apply swapAt_ok in Hks as (_ & _ & Lk & _). apply IH; [rewrite Lx; exact Hk|lia].
Qed.
Lemma c124_total_lemma n p : inRange (Z.of_nat (length n)) p -> exists s, runSlice p (NewSlice n) = Ok s.
Proof. intros H. apply run_total; auto. apply iota_length. Qed.

(** the order used is a strict weak order on all numbers, NaN included *)
Lemma lessF_true a b : lessF a b = true <-> fltb a b = true \/ fnanb a = true /\ fnanb b = false.
Proof. unfold lessF. rewrite orb_true_iff, andb_true_iff, negb_true_iff. reflexivity. Qed.
Lemma lessF_nn a b : fnanb a = false -> fnanb b = false -> lessF a b = fltb a b.
Proof. intros Ha Hb. unfold lessF. rewrite Ha. cbn [andb]. apply orb_false_r. Qed.
Lemma c124_order_lemma l : swo lessF l.
Proof.
  assert (NL1 : forall a b, fnanb b = true -> lessF a b = false).
  { intros a b Hb. destruct (lessF a b) eqn:E; [|reflexivity]. apply lessF_true in E as [E|[_ E]]; [|congruence]. apply fltb_true in E as (_ & N & _). congruence. }
  split; [|split].
  - intros a _. destruct (fnanb a) eqn:N; [apply NL1; auto|]. rewrite lessF_nn by auto. apply fltb_irrefl.
  - intros a b c _ _ _ H1 H2. apply lessF_true in H1. apply lessF_true in H2. apply lessF_true.
    destruct H2 as [H2|[H2 _]]; [|destruct H1 as [H1|[_ H1]]; [apply fltb_true in H1 as (_ & N & _)|]; congruence].
    destruct H1 as [H1|[H1 _]]; [left; eapply fltb_leb_trans; [exact H1|apply fltb_leb; exact H2]|right]. split; [auto|]. apply fltb_true in H2 as (_ & N & _). exact N.
  - intros a b c _ _ _ H1 H2. destruct (fnanb c) eqn:Nc; [apply NL1; auto|]. destruct (fnanb b) eqn:Nb.
    { assert (lessF b c = true) by (apply lessF_true; auto). congruence. }
    destruct (fnanb a) eqn:Na.
    { assert (lessF a b = true) by (apply lessF_true; auto). congruence. }
    rewrite lessF_nn in * by auto. apply fltb_false in H1; auto. apply fltb_false in H2; auto. apply fltb_false; auto. eapply Rle_trans; eauto.
Qed.
(** NaN first, then increasing *)
Lemma c124_sorted_lemma v : no_inversion lessF v ->
  forall i j x y, (i < j)%nat -> nth_error v i = Some x -> nth_error v j = Some y -> fnanb x = true \/ fleb x y = true.
Proof.
  intros H i j x y Hij Hx Hy. specialize (H i j x y Hij Hx Hy). destruct (fnanb x) eqn:Nx; [auto|right].
  destruct (fnanb y) eqn:Ny. { assert (lessF y x = true) by (apply lessF_true; auto). congruence. }
  rewrite lessF_nn in H by auto. apply fltb_false in H; auto. apply fleb_true. auto.
Qed.

(** two lists with the same elements, both strictly increasing, are equal *)
Lemma sorted_unique {A} (R : A -> A -> Prop) : (forall a b, R a b -> R b a -> False) -> forall l l', Permutation l l' -> StronglySorted R l -> StronglySorted R l' -> l = l'.
Proof.
  intros HA. induction l as [|a l IH]; intros l' HP HS HS'.
  - apply Permutation_nil in HP. auto.
  - destruct l' as [|b l']; [apply Permutation_sym, Permutation_nil in HP; discriminate|].
    inversion HS as [|? ? S1 F1]; subst. inversion HS' as [|? ? S2 F2]; subst. rewrite Forall_forall in F1, F2.
    assert (a = b).
    { assert (Ia : In a (b :: l')) by (eapply Permutation_in; [exact HP|left; auto]). destruct Ia as [->|Ia]; [reflexivity|].
      assert (Ib : In b (a :: l)) by (eapply Permutation_in; [apply Permutation_sym; exact HP|left; auto]). destruct Ib as [->|Ib]; [reflexivity|].
      exfalso. apply (HA a b); auto. }
    subst b. f_equal. apply IH; auto. eapply Permutation_cons_inv; eauto.
Qed.
Lemma nth_sorted {A} (R : A -> A -> Prop) l : (forall i j a b, (i < j)%nat -> nth_error l i = Some a -> nth_error l j = Some b -> R a b) -> StronglySorted R l.
Proof.
  induction l as [|a l IH]; intros H; constructor.
  - apply IH. intros i j x y Hij Hx Hy. apply (H (Datatypes.S i) (Datatypes.S j)); auto. lia.
  - apply Forall_forall. intros b Hb. apply In_nth_error in Hb as [k Hk]. apply (H 0%nat (Datatypes.S k)); auto. lia.
Qed.
Lemma c124_argsort_lemma E n p s : EnvOk E -> (forall x, In x n -> fnanb x = false) ->
  (forall i j x y, nth_error n i = Some x -> nth_error n j = Some y -> feqb x y = true -> i = j) ->
  runSlice p (NewSlice n) = Ok s -> no_inversion lessF (sl_vals s) -> (sl_idx s, sl_vals s) = ArgSort E n.
Proof.
  intros HE HN HD H HS. destruct (c124_pairs_lemma _ _ _ H) as (P1 & F1 & PV & _). pose proof (c18_lemma E n HE) as HA. destruct (ArgSort E n) as [ix v] eqn:EA.
  destruct HA as (P2 & F2 & S2 & _). specialize (S2 HN).
  set (R := fun i j : Z => exists x y, look n i x /\ look n j y /\ fltb x y = true).
  assert (HR : forall (ks : list Z) vs, Forall2 (look n) ks vs -> Permutation (iota (length n)) ks ->
    (forall i j x y, (i < j)%nat -> nth_error vs i = Some x -> nth_error vs j = Some y -> fleb x y = true) -> StronglySorted R ks).
  { intros ks vs HF HP HO. apply nth_sorted. intros i j a b Hij Ha Hb. destruct (Forall2_nth1 _ _ _ HF _ _ Ha) as (x & Hx & Lx). destruct (Forall2_nth1 _ _ _ HF _ _ Hb) as (y & Hy & Ly).
    exists x, y. split; [auto|]. split; [auto|]. pose proof (HO i j x y Hij Hx Hy) as Hle. rewrite fleb_split in Hle. apply orb_prop in Hle as [Hle|Hle]; [exact Hle|]. exfalso.
    destruct Lx as [A1 A2]. destruct Ly as [B1 B2]. pose proof (HD _ _ _ _ A2 B2 Hle) as Hab. assert (a = b) by lia. subst b.
    assert (HND : NoDup ks) by (eapply Permutation_NoDup; [exact HP|apply iota_NoDup]).
    assert (i = j); [|lia]. rewrite NoDup_nth_error in HND. apply HND; [apply nth_error_Some; congruence|congruence]. }
  assert (HE1 : sl_idx s = ix).
  { apply (sorted_unique R).
    - intros a b (x & y & A1 & A2 & A3) (y' & x' & B1 & B2 & B3). assert (y' = y) by (eapply look_fun; eauto). assert (x' = x) by (eapply look_fun; eauto). subst.
      assert (HI : fltb x x = true) by (eapply fltb_leb_trans; [exact A3|apply fltb_leb; exact B3]). rewrite fltb_irrefl in HI. discriminate HI.
    - etransitivity; [apply Permutation_sym; exact P1|apply Permutation_sym; exact P2].
    - apply (HR _ _ F1 P1). intros i j x y Hij Hx Hy. destruct (c124_sorted_lemma _ HS i j x y Hij Hx Hy) as [Nx|Hle]; [|exact Hle].
      rewrite HN in Nx; [discriminate|]. eapply Permutation_in; [apply Permutation_sym; exact PV|]. eapply nth_error_In; eauto.
    - apply (HR _ _ F2 (Permutation_sym P2)). intros i j x y Hij. apply S2. lia. }
  f_equal; [exact HE1|]. subst ix. clear -F1 F2. revert v F2. induction F1 as [|a x ks vs Ha F IH]; intros v F2; inversion F2 as [|? y ? v' Hb F']; subst; [reflexivity|].
  f_equal; [eapply look_fun; eauto|auto].
Qed.

(** ** insertion sort is a sorter *)
Definition upTo (x y : f64) : Prop := lessF y x = false.
Lemma lessF_asym a b : lessF a b = true -> lessF b a = false.
Proof.
  intros H. destruct (c124_order_lemma [a; b]) as (I1 & T1 & _). destruct (lessF b a) eqn:E; [|reflexivity].
  assert (lessF a a = true) by (apply (T1 a b a); simpl; auto). rewrite I1 in H0; [discriminate|simpl; auto].
Qed.
Lemma upTo_trans a b c : upTo a b -> upTo b c -> upTo a c.
Proof. unfold upTo. intros H1 H2. destruct (c124_order_lemma [a; b; c]) as (_ & _ & T1). apply (T1 c b a); simpl; auto. Qed.
Lemma idx_app {A} (l : list A) a r : idx (l ++ a :: r) (Z.of_nat (length l)) = Ok a.
Proof. apply look_idx. split; [lia|]. rewrite Nat2Z.id, nth_error_app2, Nat.sub_diag by lia. reflexivity. Qed.
Lemma swap_app {A} (l : list A) a b r : swapAt (l ++ a :: b :: r) (Z.of_nat (Datatypes.S (length l))) (Z.of_nat (length l)) = Ok (l ++ b :: a :: r).
Proof.
  apply swapAt_ok. rewrite !app_length. cbn [length]. split; [lia|]. split; [lia|]. split; [reflexivity|]. intros k. rewrite !Nat2Z.id.
  destruct (Nat.eqb_spec k (length l)) as [->|H1].
  - rewrite nth_error_app2, Nat.sub_diag by lia. replace (Datatypes.S (length l)) with (length (l ++ [a])) by (rewrite app_length; simpl; lia).
    change (l ++ a :: b :: r) with (l ++ [a] ++ b :: r). rewrite app_assoc, nth_error_app2, Nat.sub_diag by lia. reflexivity.
  - destruct (Nat.eqb_spec k (Datatypes.S (length l))) as [->|H2].
    + rewrite !nth_error_app2 by lia. rewrite Nat.sub_diag. replace (Datatypes.S (length l) - length l)%nat with 1%nat by lia. reflexivity.
    + destruct (Nat.lt_ge_cases k (length l)); [rewrite !nth_error_app1 by lia; reflexivity|]. rewrite !nth_error_app2 by lia.
      destruct (k - length l)%nat as [|[|m]] eqn:E; [lia|lia|reflexivity].
Qed.
Lemma move_spec : forall j l a rest k, length l = j -> exists l1 l2, l = l1 ++ l2 /\ (forall y, In y l2 -> lessF a y = true) /\
  (l1 = [] \/ exists l0 z, l1 = l0 ++ [z] /\ lessF a z = false) /\ runFloats (moveFront j k) (l ++ a :: rest) = runFloats k (l1 ++ a :: l2 ++ rest).
Proof.
  induction j as [|j IH]; intros l a rest k HL.
  - destruct l; [|discriminate]. exists [], []. split; [reflexivity|]. split; [intros y []|]. split; [left; reflexivity|reflexivity].
  - destruct (exists_last (l := l)) as (l' & y & ->); [destruct l; discriminate|]. rewrite app_length in HL. cbn [length] in HL. assert (HL' : length l' = j) by lia.
    cbn [moveFront runFloats]. unfold lessAt. rewrite <- app_assoc. cbn [app].
    assert (I1 : idx (l' ++ y :: a :: rest) (Z.of_nat (Datatypes.S j)) = Ok a).
    { change (l' ++ y :: a :: rest) with (l' ++ [y] ++ a :: rest). rewrite app_assoc.
      replace (Z.of_nat (Datatypes.S j)) with (Z.of_nat (length (l' ++ [y]))) by (rewrite app_length; simpl; lia). apply idx_app. }
    rewrite I1. rewrite <- HL', idx_app. cbn [bind]. destruct (lessF a y) eqn:E.
    + cbn [runFloats]. rewrite swap_app. cbn [bind]. destruct (IH l' a (y :: rest) k HL') as (l1 & l2 & E1 & E2 & E3 & E4). rewrite HL'.
      exists l1, (l2 ++ [y]). split; [rewrite E1, app_assoc; reflexivity|]. split; [intros z Hz; apply in_app_or in Hz as [Hz|[<-|[]]]; auto|]. split; [exact E3|].
      rewrite E4. rewrite <- app_assoc. reflexivity.
    + exists (l' ++ [y]), []. split; [rewrite app_nil_r; reflexivity|]. split; [intros z []|]. split; [right; eauto|]. rewrite <- app_assoc. reflexivity.
Qed.
Lemma sorted_app R l1 l2 : StronglySorted R (l1 ++ l2) <-> StronglySorted R l1 /\ StronglySorted R l2 /\ forall x y : f64, In x l1 -> In y l2 -> R x y.
Proof.
  induction l1 as [|a l1 IH]; cbn [app].
  - split; [intros H; split; [constructor|split; [auto|intros x y []]]|tauto].
  - split.
    + intros H. inversion H as [|? ? S F]; subst. apply IH in S as (A & B & C). rewrite Forall_forall in F. split; [constructor; [auto|]|split; [auto|]].
      * apply Forall_forall. intros x Hx. apply F. apply in_or_app. auto.
      * intros x y [<-|Hx] Hy; [apply F; apply in_or_app; auto|auto].
    + intros (A & B & C). inversion A as [|? ? S F]; subst. rewrite Forall_forall in F. constructor.
      * apply IH. split; [auto|]. split; [auto|]. intros x y Hx Hy. apply C; [right|]; auto.
      * apply Forall_forall. intros x Hx. apply in_app_or in Hx as [Hx|Hx]; [auto|]. apply C; [left|]; auto.
Qed.
Lemma insertion_run : forall todo i l rest, length l = i -> length rest = todo -> StronglySorted upTo l ->
  exists v, runFloats (insertionFrom todo i) (l ++ rest) = Ok v /\ StronglySorted upTo v.
Proof.
  induction todo as [|todo IH]; intros i l rest HL HR HS.
  - destruct rest; [|discriminate]. cbn [insertionFrom runFloats]. rewrite app_nil_r. eauto.
  - destruct rest as [|a rest]; [discriminate|]. cbn [insertionFrom]. destruct (move_spec i l a rest (insertionFrom todo (Datatypes.S i)) HL) as (l1 & l2 & E1 & E2 & E3 & E4).
    rewrite E4. replace (l1 ++ a :: l2 ++ rest) with ((l1 ++ a :: l2) ++ rest) by (rewrite <- app_assoc; reflexivity).
    apply IH; [rewrite E1 in HL; rewrite app_length in *; cbn [length]; lia|injection HR; auto|].
    rewrite E1 in HS. apply sorted_app in HS as (S1 & S2 & S3). apply sorted_app. split; [exact S1|]. split.
    + constructor; [exact S2|]. apply Forall_forall. intros y Hy. apply lessF_asym, E2, Hy.
    + intros x y Hx Hy. assert (Ha : upTo x a).
      { destruct E3 as [->|(l0 & z & -> & Hz)]; [destruct Hx|]. apply in_app_or in Hx as [Hx|[<-|[]]]; [|exact Hz].
        apply upTo_trans with z; [|exact Hz]. apply sorted_app in S1 as (_ & _ & S1). apply S1; [exact Hx|left; auto]. }
      destruct Hy as [<-|Hy]; [exact Ha|]. apply S3; auto.
Qed.
Lemma run_slice_of p : forall s v, length (sl_idx s) = length (sl_vals s) -> runFloats p (sl_vals s) = Ok v -> exists s', runSlice p s = Ok s' /\ sl_vals s' = v.
Proof.
  induction p as [|i j k IH|i j k IH]; intros s v HL H; cbn [runFloats runSlice] in *.
  - injection H as <-. eauto.
  - apply bind_Ok in H as (b & Hb & H). rewrite Hb. cbn [bind]. apply IH; auto.
  - apply bind_Ok in H as (x & Hx & H). unfold SwapSlice. rewrite Hx. cbn [bind]. pose proof Hx as Hx'. apply swapAt_ok in Hx' as (Ri & Rj & Lx & _).
    destruct (swapAt_ex (sl_idx s) i j) as [ks Hk]; [lia|lia|]. rewrite Hk. cbn [bind]. apply swapAt_ok in Hk as (_ & _ & Lk & _). apply IH; cbn [sl_idx sl_vals]; [lia|exact H].
Qed.
Lemma sorted_noinv v : StronglySorted upTo v -> no_inversion lessF v.
Proof.
  intros H. induction H as [|a l S IH F]; intros i j x y Hij Hx Hy; [destruct i; discriminate|]. rewrite Forall_forall in F. destruct j as [|j]; [lia|]. destruct i as [|i].
  - injection Hx as <-. apply F. eapply nth_error_In; eauto.
  - apply (IH i j); auto. lia.
Qed.
Lemma c124_insertion_lemma n : exists s, runSlice (insertionSort (length n)) (NewSlice n) = Ok s /\ no_inversion lessF (sl_vals s).
Proof.
  assert (H : exists v, runFloats (insertionSort (length n)) n = Ok v /\ StronglySorted upTo v).
  { destruct n as [|a n]; [exists []; split; [reflexivity|constructor]|]. unfold insertionSort. cbn [length]. replace (Datatypes.S (length n) - 1)%nat with (length n) by lia.
    apply (insertion_run (length n) 1 [a] n); [reflexivity|reflexivity|]. repeat constructor. }
  destruct H as (v & Hv & HS). destruct (run_slice_of (insertionSort (length n)) (NewSlice n) v) as (s & Hs & Ev); [apply iota_length|exact Hv|].
  exists s. split; [exact Hs|]. rewrite Ev. apply sorted_noinv, HS.
Qed.

(** ** C125: a one-hot encoding does not depend on what the labels are *)
Section Coded.
Context {A : Type} (eqb : A -> A -> bool) (f : A -> Z) (Hf : forall a b, eqb a b = (f a =? f b)) (Hinj : forall a b, f a = f b -> a = b).
Lemma index_coded l v : forall k, sliceIndexFrom (map f l) (f v) k = indexFrom eqb l v k.
Proof. induction l as [|x l IH]; intros k; cbn [map sliceIndexFrom indexFrom]; [reflexivity|]. rewrite Hf, IH. reflexivity. Qed.
Lemma existsb_coded l v : existsb (Z.eqb (f v)) (map f l) = existsb (eqb v) l.
Proof. induction l as [|x l IH]; cbn [map existsb]; [reflexivity|]. rewrite Hf, IH. reflexivity. Qed.
Lemma distinct_coded l : distinctElements (map f l) = map f (distinctOf eqb l).
Proof.
  assert (H : forall l d, fold_left (fun diff v => if contains diff v then diff else diff ++ [v]) (map f l) (map f d) =
    map f (fold_left (fun diff v => if existsb (eqb v) diff then diff else diff ++ [v]) l d)).
  { clear l. induction l as [|x l IH]; intros d; cbn [map fold_left]; [reflexivity|]. unfold contains at 2. rewrite existsb_coded, <- IH.
    destruct (existsb (eqb x) d); [reflexivity|]. rewrite map_app. reflexivity. }
  exact (H l []).
Qed.
Lemma fill_coded de l : forall D i, oheFill D (map f de) (map f l) i = fillOf eqb D de l i.
Proof.
  induction l as [|x l IH]; intros D i; cbn [map oheFill fillOf]; [reflexivity|]. unfold sliceIndex. rewrite index_coded. cbv zeta.
  destruct ((indexFrom eqb de x 0 <? 0) || (Z.of_nat (d_c D) <=? indexFrom eqb de x 0) || Nat.leb (d_r D) i); [reflexivity|]. apply IH.
Qed.
Lemma oneHot_coded l : oneHotEncodeDense (map f l) = ('(D, de) <- oneHotOf eqb l ;; Ok (D, map f de)).
Proof.
  unfold oneHotEncodeDense, oneHotOf. rewrite distinct_coded, !map_length. cbv zeta. destruct (NewDense _ _ _) as [D| |]; cbn [bind]; try reflexivity.
  rewrite fill_coded. destruct (fillOf eqb D (distinctOf eqb l) l 0); reflexivity.
Qed.
Lemma oneHot_generic l :
  (l = [] -> oneHotOf eqb l = Panic) /\
  (l <> [] -> exists D de, oneHotOf eqb l = Ok (D, de) /\ firstsOf l de /\ wfDense D /\ d_r D = length l /\ d_c D = length de /\
     forall i j k w, nth_error l i = Some k -> nth_error de j = Some w -> entry D i j (if eqb w k then fone else fzero)).
Proof.
  destruct (c22_lemma (map f l)) as [H1 H2]. split.
  - intros ->. reflexivity.
  - intros Hne. destruct H2 as (D & zs & HO & (F1 & F2 & F3) & HW & Hr & Hc & He). { destruct l; [congruence|discriminate]. }
    rewrite oneHot_coded in HO. apply bind_Ok in HO as ([D' de] & HO & E). injection E as -> <-. exists D, de. split; [exact HO|]. split; [|split; [exact HW|]].
    + split; [eapply NoDup_map_inv; exact F1|]. split.
      * intros x. specialize (F2 (f x)). rewrite !in_map_iff in F2. split; intros Hx; destruct F2 as [G1 G2].
        -- destruct G1 as (y & Hy & Hi); [exists x; auto|]. apply Hinj in Hy. subst. exact Hi.
        -- destruct G2 as (y & Hy & Hi); [exists x; auto|]. apply Hinj in Hy. subst. exact Hi.
      * intros a b x y Hab Hx Hy. destruct (F3 a b (f x) (f y) Hab) as (i & Hi & Hj); [apply map_nth_error; auto|apply map_nth_error; auto|].
        rewrite nth_error_map in Hi. destruct (nth_error l i) as [x'|] eqn:Ei; [|discriminate Hi]. injection Hi as Hi. apply Hinj in Hi. subst x'.
        exists i. split; [exact Ei|]. intros j Hle Hc'. apply (Hj j Hle). apply map_nth_error. exact Hc'.
    + rewrite map_length in Hr. rewrite map_length in Hc. split; [exact Hr|]. split; [exact Hc|]. intros i j k w Hk Hw. rewrite Hf. apply He; apply map_nth_error; auto.
Qed.
End Coded.

Fixpoint textCode (t : text) : Z := match t with [] => 0 | c :: t' => textCode t' * 257 + (Z.of_nat (nat_of_ascii c) + 1) end.
Lemma byte_bound c : (nat_of_ascii c < 256)%nat.
Proof. apply nat_ascii_bounded. Qed.
Lemma textCode_pos t : 0 <= textCode t.
Proof. induction t as [|c t IH]; cbn [textCode]; lia. Qed.
Lemma textCode_inj a : forall b, textCode a = textCode b -> a = b.
Proof.
  induction a as [|c a IH]; intros [|d b] H; cbn [textCode] in H; [reflexivity|pose proof (textCode_pos b); lia|pose proof (textCode_pos a); lia|].
  pose proof (byte_bound c). pose proof (byte_bound d).
  assert (nat_of_ascii c = nat_of_ascii d /\ textCode a = textCode b) as [E1 E2] by lia.
  f_equal; [|apply IH; exact E2]. rewrite <- (ascii_nat_embedding c), <- (ascii_nat_embedding d), E1. reflexivity.
Qed.
Lemma text_eqb_code a b : text_eqb a b = (textCode a =? textCode b).
Proof.
  unfold text_eqb. destruct (list_eq_dec ascii_dec a b) as [->|Hn]; symmetry; [apply Z.eqb_refl|]. apply Z.eqb_neq. intros H. apply Hn, textCode_inj, H.
Qed.
Lemma c125_lemma (D : DataBunch text) :
  (Keys D = [] -> OHEKeys D = Panic) /\
  (Keys D <> [] -> exists M de, OHEKeys D = Ok (M, de) /\ firstsOf (Keys D) de /\ wfDense M /\ d_r M = length (Keys D) /\ d_c M = length de /\
     forall i j k w, nth_error (Keys D) i = Some k -> nth_error de j = Some w -> entry M i j (if text_eqb w k then fone else fzero)).
Proof. exact (oneHot_generic text_eqb textCode text_eqb_code (fun a b => textCode_inj a b) (Keys D)). Qed.
Lemma distinct_NoDup {A} (eqb : A -> A -> bool) (Hr : forall a b, eqb a b = true -> a = b) l : NoDup l -> distinctOf eqb l = l.
Proof.
  assert (H : forall l d, NoDup (d ++ l) -> fold_left (fun diff v => if existsb (eqb v) diff then diff else diff ++ [v]) l d = d ++ l).
  { clear l. induction l as [|x l IH]; intros d Hd; cbn [fold_left]; [rewrite app_nil_r; reflexivity|].
    assert (HE : existsb (eqb x) d = false).
    { destruct (existsb (eqb x) d) eqn:E; [|reflexivity]. apply existsb_exists in E as (y & Hy & E). apply Hr in E. subst y.
      apply NoDup_remove_2 in Hd. exfalso. apply Hd. apply in_or_app. left; auto. }
    rewrite HE. change (x :: l) with ([x] ++ l) in Hd. rewrite app_assoc in Hd. rewrite IH by exact Hd. rewrite <- app_assoc. reflexivity. }
  intros HN. apply (H l []). exact HN.
Qed.
Lemma c125_distinct_lemma (D : DataBunch text) : Keys D <> [] -> NoDup (Keys D) ->
  exists M, OHEKeys D = Ok (M, Keys D) /\ d_r M = length (Keys D) /\ d_c M = length (Keys D) /\
    forall i j, (i < length (Keys D))%nat -> (j < length (Keys D))%nat -> entry M i j (if Nat.eqb i j then fone else fzero).
Proof.
  intros Hne HN. destruct (c125_lemma D) as [_ H]. destruct (H Hne) as (M & de & HO & _ & _ & Hr & Hc & He).
  assert (Hd : de = Keys D).
  { unfold OHEKeys, oneHotOf in HO. apply bind_Ok in HO as (D0 & _ & HO). apply bind_Ok in HO as (D1 & _ & HO). injection HO as _ <-.
    apply distinct_NoDup; [|exact HN]. intros a b Hab. unfold text_eqb in Hab. destruct (list_eq_dec ascii_dec a b); [auto|discriminate]. }
  subst de. exists M. split; [exact HO|]. split; [exact Hr|]. split; [exact Hc|]. intros i j Hi Hj.
  destruct (nth_error (Keys D) i) as [k|] eqn:Ei; [|apply nth_error_None in Ei; lia]. destruct (nth_error (Keys D) j) as [w|] eqn:Ej; [|apply nth_error_None in Ej; lia].
  specialize (He i j k w Ei Ej). replace (if Nat.eqb i j then fone else fzero) with (if text_eqb w k then fone else fzero); [exact He|].
  unfold text_eqb. destruct (list_eq_dec ascii_dec w k) as [->|Hn]; destruct (Nat.eqb_spec i j) as [->|Hij]; try reflexivity.
  - exfalso. apply Hij. rewrite NoDup_nth_error in HN. apply HN; [exact Hi|congruence].
  - exfalso. apply Hn. congruence.
Qed.
Lemma c125_labels_lemma l : oneHotEncodeDense l = oneHotOf Z.eqb l.
Proof.
  pose proof (oneHot_coded Z.eqb (fun z => z) (fun a b => eq_refl) l) as H. rewrite map_id in H. rewrite H.
  destruct (oneHotOf Z.eqb l) as [[D de]| |]; cbn [bind]; try reflexivity. rewrite map_id. reflexivity.
Qed.

(** ** C126 *)
Lemma cutc (c : ascii) (s : string) a b a' b' : ~ In c a -> ~ In c a' -> a ++ tx (String c s) ++ b = a' ++ tx (String c s) ++ b' -> a = a' /\ b = b'.
Proof.
  intros Ha Ha' H. change (tx (String c s)) with (c :: tx s) in H. cbn [app] in H. apply cut_first in H as [-> H]; auto. apply app_inv_head in H. auto.
Qed.
Lemma listText_no c l : isDigit c = false -> c <> "-"%char -> c <> " "%char -> c <> "["%char -> c <> "]"%char -> ~ In c (listText (map decZ l)).
Proof.
  intros H1 H2 H3 H4 H5 H. unfold listText in H. apply in_app_or in H as [[<-|[]]|H]; [congruence|]. apply in_app_or in H as [H|[<-|[]]]; [|congruence].
  assert (HJ : forall l, In c (joinT (map decZ l) (tx " ")) -> False); [|eapply HJ; eauto]. clear l H.
  induction l as [|z l IH]; cbn [map joinT]; [intros []|]. destruct l as [|z' l]; cbn [map] in *.
  - apply dec_no; auto.
  - intros H. apply in_app_or in H as [H|H]; [eapply dec_no; eauto|]. apply in_app_or in H as [[<-|[]]|H]; [congruence|]. apply IH. exact H.
Qed.
Lemma bool_no c b : ~ In c (tx "truefalse") -> ~ In c (boolText b).
Proof. intros H HI. apply H. destruct b; cbn in *; tauto. Qed.
Lemma bool_inj a b : boolText a = boolText b -> a = b.
Proof. destruct a, b; try reflexivity; discriminate. Qed.
Lemma c126_lemma j k : StringNode j = StringNode k <-> sameNode j k.
Proof.
  split.
  - unfold StringNode, sameNode. intros H. apply app_inv_head in H.
    assert (D : forall z, ~ In ","%char (decZ z)) by (intros; apply dec_no; [reflexivity|discriminate]).
    assert (F : forall x, ~ In ","%char (fmt3 x)) by (intros; apply fmt3_no; reflexivity).
    assert (L : forall l, ~ In ","%char (listText (map decZ l))) by (intros; apply listText_no; [reflexivity|discriminate|discriminate|discriminate|discriminate]).
    assert (B : forall b, ~ In ","%char (boolText b)) by (intros; apply bool_no; intros HI; repeat (destruct HI as [HI|HI]; [discriminate HI|]); destruct HI).
    assert (T : forall x, ~ In "T"%char (fmt3 x)) by (intros; apply fmt3_no; reflexivity).
    apply cutc in H as [H1 H]; auto. apply cutc in H as [H2 H]; auto. apply cutc in H as [H3 H]; auto. apply cutc in H as [H4 H]; auto.
    apply cutc in H as [H5 H]; auto. apply cutc in H as [H6 H]; auto. apply cutc in H as [H7 H]; auto. apply cutc in H as [H8 H]; auto.
    apply cutc in H as [H9 H]; auto. apply app_inv_head in H. apply cutc in H as [H10 H]; auto.
    split; [apply dec_inj; auto|]. split; [apply list_inj; auto|]. split; [apply dec_inj; auto|]. split; [apply fmt3_inj; auto|]. split; [apply fmt3_inj; auto|].
    split; [apply fmt3_inj; auto|]. split; [apply bool_inj; auto|]. split; [apply dec_inj; auto|]. split; [apply dec_inj; auto|]. split; [apply dec_inj; auto|]. apply bool_inj; auto.
  - intros (E1 & E2 & E3 & E4 & E5 & E6 & E7 & E8 & E9 & E10 & E11). unfold StringNode.
    rewrite E1, E2, E3, E7, E8, E9, E10, E11, (same3_fmt _ _ E4), (same3_fmt _ _ E5), (same3_fmt _ _ E6). reflexivity.
Qed.

(** ** C127 *)
Lemma svm_erase pf why fuel : forall r eof hh cont hs data labels,
  svmLoop pf fuel r eof hh cont hs data labels =
  (o <- svmLoopErr pf why fuel r eof hh cont hs data labels ;; Ok (match o with SData D => Some D | _ => None end)).
Proof.
  induction fuel as [|fuel IH]; intros; cbn [svmLoop svmLoopErr]; [reflexivity|]. destruct (readLine r) as [[line r']|]; [|destruct eof; reflexivity].
  destruct (hh && (cont =? 0)).
  - destruct (parseLibSVMLine pf line true) as [[[[c hs'] fl]|]| |]; cbn [bind]; try reflexivity. apply IH.
  - destruct (parseLibSVMLine pf line false) as [[[[c hs'] fl]|]| |]; cbn [bind]; try reflexivity. apply IH.
Qed.
Lemma c127_erase_lemma pf why r eof hh :
  ParseLibSVM pf r eof hh = (o <- ParseLibSVMErr pf why r eof hh ;; Ok (match o with SData D => Some D | _ => None end)).
Proof. apply svm_erase. Qed.
Lemma linesOf_line r line r' ls : readLine r = Some (line, r') -> linesOf r ls -> exists ls', ls = line :: ls' /\ linesOf r' ls'.
Proof.
  intros H HL. apply readLine_Some in H as (s & -> & Hs & ->). inversion HL as [r0 Hr|s0 r0 ls0 Hs0 HL0 E]; subst.
  - exfalso. apply Hr. apply in_or_app. right; left; auto.
  - apply cut_first in E as [-> ->]; auto. eauto.
Qed.
Lemma linesOf_none r ls : readLine r = None -> linesOf r ls -> ls = [].
Proof.
  intros H HL. inversion HL as [r0 Hr|s0 r0 ls0 Hs0 HL0 E]; subst; [reflexivity|]. rewrite readLine_app in H by auto. discriminate.
Qed.
Lemma readLine_len r line r' : readLine r = Some (line, r') -> (length r' < length r)%nat.
Proof. intros H. apply readLine_Some in H as (s & -> & _ & ->). rewrite app_length. simpl. lia. Qed.
Lemma svm_line pf why : forall fuel r eof hh p hs data labels ls msg, (length r < fuel)%nat -> linesOf r ls ->
  svmLoopErr pf why fuel r eof hh (Z.of_nat p) hs data labels = Ok (SLine msg) <->
  exists k line, nth_error ls k = Some line /\ parseLibSVMLine pf line (hh && Nat.eqb (p + k) 0) = Ok None /\
    (forall i l, (i < k)%nat -> nth_error ls i = Some l -> exists v, parseLibSVMLine pf l (hh && Nat.eqb (p + i) 0) = Ok (Some v)) /\
    msg = svmliberror (why (hh && Nat.eqb (p + k) 0) line) (Z.of_nat (p + k) + 1) line.
Proof.
  induction fuel as [|fuel IH]; intros r eof hh p hs data labels ls msg Hf HL; [lia|]. cbn [svmLoopErr].
  destruct (readLine r) as [[line r']|] eqn:ER.
  2: { rewrite (linesOf_none _ _ ER HL). split; [destruct eof; discriminate|]. intros (k & line & H & _). destruct k; discriminate H. }
  destruct (linesOf_line _ _ _ _ ER HL) as (ls' & -> & HL'). pose proof (readLine_len _ _ _ ER) as Hlen.
  assert (Ep : forall q, (Z.of_nat q =? 0) = Nat.eqb q 0) by (intros q; destruct (Nat.eqb_spec q 0); [subst; reflexivity|apply Z.eqb_neq; lia]).
  rewrite Ep. replace (Z.of_nat p + 1) with (Z.of_nat (Datatypes.S p)) by lia.
  assert (Step : forall hs' data' labels' v, parseLibSVMLine pf line (hh && Nat.eqb p 0) = Ok (Some v) ->
    (svmLoopErr pf why fuel r' eof hh (Z.of_nat (Datatypes.S p)) hs' data' labels' = Ok (SLine msg) <->
     exists k l0, nth_error (line :: ls') k = Some l0 /\ parseLibSVMLine pf l0 (hh && Nat.eqb (p + k) 0) = Ok None /\
       (forall i l, (i < k)%nat -> nth_error (line :: ls') i = Some l -> exists v, parseLibSVMLine pf l (hh && Nat.eqb (p + i) 0) = Ok (Some v)) /\
       msg = svmliberror (why (hh && Nat.eqb (p + k) 0) l0) (Z.of_nat (p + k) + 1) l0)).
  { intros hs' data' labels' v Hv. rewrite (IH r' eof hh (Datatypes.S p) hs' data' labels' ls' msg ltac:(lia) HL'). split.
    - intros (k & l0 & K1 & K2 & K3 & K4). exists (Datatypes.S k), l0. replace (p + Datatypes.S k)%nat with (Datatypes.S p + k)%nat by lia.
      split; [exact K1|]. split; [exact K2|]. split; [|exact K4]. intros [|i] l Hi Hl.
      + injection Hl as <-. rewrite Nat.add_0_r. eauto.
      + replace (p + Datatypes.S i)%nat with (Datatypes.S p + i)%nat by lia. apply K3; [lia|exact Hl].
    - intros (k & l0 & K1 & K2 & K3 & K4). destruct k as [|k].
      + injection K1 as <-. rewrite Nat.add_0_r in K2. congruence.
      + exists k, l0. replace (Datatypes.S p + k)%nat with (p + Datatypes.S k)%nat by lia. split; [exact K1|]. split; [exact K2|]. split; [|exact K4].
        intros i l Hi Hl. replace (Datatypes.S p + i)%nat with (p + Datatypes.S i)%nat by lia. apply K3; [lia|exact Hl]. }
  assert (Here : parseLibSVMLine pf line (hh && Nat.eqb p 0) = Ok None ->
    (Ok (SLine (svmliberror (why (hh && Nat.eqb p 0) line) (Z.of_nat (Datatypes.S p)) line)) = Ok (SLine msg) <->
     exists k l0, nth_error (line :: ls') k = Some l0 /\ parseLibSVMLine pf l0 (hh && Nat.eqb (p + k) 0) = Ok None /\
       (forall i l, (i < k)%nat -> nth_error (line :: ls') i = Some l -> exists v, parseLibSVMLine pf l (hh && Nat.eqb (p + i) 0) = Ok (Some v)) /\
       msg = svmliberror (why (hh && Nat.eqb (p + k) 0) l0) (Z.of_nat (p + k) + 1) l0)).
  { intros HN. split.
    - intros E. assert (E' : svmliberror (why (hh && Nat.eqb p 0) line) (Z.of_nat (Datatypes.S p)) line = msg) by congruence.
      exists 0%nat, line. rewrite Nat.add_0_r. split; [reflexivity|]. split; [exact HN|]. split; [intros; lia|]. rewrite <- E'. f_equal. lia.
    - intros (k & l0 & K1 & K2 & K3 & K4). destruct k as [|k].
      + injection K1 as <-. rewrite Nat.add_0_r in K4. rewrite K4. do 2 f_equal. f_equal. lia.
      + destruct (K3 0%nat line) as [v Hv]; [lia|reflexivity|]. rewrite Nat.add_0_r in Hv. congruence. }
  assert (Stuck : forall (x : res (option (Z * list text * list f64))), parseLibSVMLine pf line (hh && Nat.eqb p 0) = x -> (x = Panic \/ x = Diverge) ->
    ~ exists k l0, nth_error (line :: ls') k = Some l0 /\ parseLibSVMLine pf l0 (hh && Nat.eqb (p + k) 0) = Ok None /\
       (forall i l, (i < k)%nat -> nth_error (line :: ls') i = Some l -> exists v, parseLibSVMLine pf l (hh && Nat.eqb (p + i) 0) = Ok (Some v)) /\
       msg = svmliberror (why (hh && Nat.eqb (p + k) 0) l0) (Z.of_nat (p + k) + 1) l0).
  { intros x Hx Hd (k & l0 & K1 & K2 & K3 & K4). destruct k as [|k].
    - injection K1 as <-. rewrite Nat.add_0_r in K2. destruct Hd; congruence.
    - destruct (K3 0%nat line) as [v Hv]; [lia|reflexivity|]. rewrite Nat.add_0_r in Hv. destruct Hd; congruence. }
  destruct (hh && Nat.eqb p 0) eqn:EH.
  - destruct (parseLibSVMLine pf line true) as [[[[c hs'] fl]|]| |] eqn:EP; cbn [bind].
    + eapply Step; eauto.
    + apply Here. reflexivity.
    + split; [discriminate|]. intros H. exfalso. eapply Stuck; eauto.
    + split; [discriminate|]. intros H. exfalso. eapply Stuck; eauto.
  - destruct (parseLibSVMLine pf line false) as [[[[c hs'] fl]|]| |] eqn:EP; cbn [bind].
    + eapply Step; eauto.
    + apply Here. reflexivity.
    + split; [discriminate|]. intros H. exfalso. eapply Stuck; eauto.
    + split; [discriminate|]. intros H. exfalso. eapply Stuck; eauto.
Qed.
Lemma c127_line_lemma pf why r eof hh ls msg : linesOf r ls ->
  ParseLibSVMErr pf why r eof hh = Ok (SLine msg) <->
  exists k line, nth_error ls k = Some line /\ parseLibSVMLine pf line (hh && Nat.eqb k 0) = Ok None /\
    (forall i l, (i < k)%nat -> nth_error ls i = Some l -> exists v, parseLibSVMLine pf l (hh && Nat.eqb i 0) = Ok (Some v)) /\
    msg = svmliberror (why (hh && Nat.eqb k 0) line) (Z.of_nat k + 1) line.
Proof. intros HL. apply (svm_line pf why (Datatypes.S (length r)) r eof hh 0 [] [] [] ls msg); [lia|exact HL]. Qed.
Lemma c127_message_lemma e n l : (exists a b c, svmliberror e n l = a ++ decZ n ++ b ++ e ++ c ++ l) /\
  (forall l', svmliberror e n l = svmliberror e n l' -> l = l') /\ (forall e', svmliberror e n l = svmliberror e' n l -> e = e').
Proof.
  unfold svmliberror. split; [eexists _, _, _; reflexivity|]. split.
  - intros l' H. do 5 apply app_inv_head in H. exact H.
  - intros e' H. do 3 apply app_inv_head in H. apply app_inv_tail in H. exact H.
Qed.
Lemma c127_number_lemma e n l e' n' l' : svmliberror e n l = svmliberror e' n' l' -> n = n'.
Proof.
  unfold svmliberror. intros H. apply app_inv_head in H.
  change (tx " in libSVM-formatted file, Error: ") with (" "%char :: tx "in libSVM-formatted file, Error: ") in H. cbn [app] in H.
  apply cut_first in H as [H _]; [apply dec_inj; exact H| |]; (apply dec_no; [reflexivity|discriminate]).
Qed.
Lemma linesOf_ex r : exists ls, linesOf r ls.
Proof.
  assert (H : forall n r, (length r < n)%nat -> exists ls, linesOf r ls); [|apply (H (Datatypes.S (length r))); lia]. clear r.
  induction n as [|n IH]; intros r Hn; [lia|]. destruct (readLine r) as [[line r']|] eqn:ER.
  - pose proof (readLine_len _ _ _ ER). destruct (IH r' ltac:(lia)) as [ls Hls]. apply readLine_Some in ER as (s & -> & Hs & ->). eexists. apply lines_cons; eauto.
  - exists []. apply lines_end. intros Hin. apply in_split in Hin as (a & b & ->).
    assert (HR : forall a b, readLine (a ++ NL :: b) <> None).
    { clear. induction a as [|c a IH]; intros b; cbn [app readLine]; [rewrite Ascii.eqb_refl; discriminate|]. destruct (Ascii.eqb c NL); [discriminate|].
      specialize (IH b). destruct (readLine (a ++ NL :: b)) as [[? ?]|]; [discriminate|congruence]. }
    apply (HR a b ER).
Qed.
