(** Proofs about the chance that given rows are in one fold (C164). *)
From Verif Require Import Base F64 Env Utils Tree Spec Options Train CV SpecCV CVProofs SpecChance ChanceProofs ChanceCV SpecUnseen.
Open Scope Z_scope.

Section Rows.
Context {K : Type} (D : DataBunch K) (nfold : Z).
Let tot := length (Data D).
Let nf := Nat.min (requested nfold) (length (Data D) / 2).

Definition inFold (a : list nat) (i r : nat) : bool := match nth_error a r with Some j => Nat.eqb j i | None => false end.
Definition outside (S : list nat) : list nat := filter (fun r => negb (existsb (Nat.eqb r) S)) (seq 0 tot).

Lemma outside_in S r : In r (outside S) <-> (r < tot)%nat /\ ~ In r S.
Proof.
  unfold outside. rewrite filter_In, in_seq, Bool.negb_true_iff. split; intros [H1 H2]; split; try lia.
  - intros HS. assert (HT : existsb (Nat.eqb r) S = true) by (apply existsb_exists; exists r; split; auto; apply Nat.eqb_refl). congruence.
  - destruct (existsb (Nat.eqb r) S) eqn:E; auto. apply existsb_exists in E as (x & Hx & E). apply Nat.eqb_eq in E. subst x. contradiction.
Qed.
Lemma split_length {A} (P Q : A -> bool) l : length (filter P l) = (length (filter (fun x => P x && Q x) l) + length (filter (fun x => P x && negb (Q x)) l))%nat.
Proof. induction l as [|x l IH]; cbn; auto. destruct (P x), (Q x); cbn; lia. Qed.
Lemma filter_both {A} (P Q : A -> bool) l : filter P (filter Q l) = filter (fun x => P x && Q x) l.
Proof. induction l as [|x l IH]; cbn; auto. destruct (Q x) eqn:E; cbn; destruct (P x); cbn; rewrite ?E, ?IH; auto. Qed.
Lemma listed_length (P : nat -> bool) S : NoDup S -> (forall r, In r S -> (r < tot)%nat /\ P r = true) ->
  length (filter (fun r => P r && existsb (Nat.eqb r) S) (seq 0 tot)) = length S.
Proof.
  intros HN HS. apply Permutation_length, NoDup_Permutation; auto.
  - apply NoDup_filter, seq_NoDup.
  - intros r. rewrite filter_In, in_seq, Bool.andb_true_iff, existsb_exists. split.
    + intros (_ & _ & x & Hx & E). apply Nat.eqb_eq in E. subst x. auto.
    + intros Hr. destruct (HS r Hr). split; [lia|]. split; auto. exists r. split; auto. apply Nat.eqb_refl.
Qed.
Lemma outside_length S : NoDup S -> (forall r, In r S -> (r < tot)%nat) -> length (outside S) = (tot - length S)%nat.
Proof.
  intros HN HS. pose proof (split_length (fun _ => true) (fun r => existsb (Nat.eqb r) S) (seq 0 tot)) as H. cbn [andb] in H.
  assert (E : filter (fun _ : nat => true) (seq 0 tot) = seq 0 tot) by (clear; induction (seq 0 tot) as [|x l IH]; cbn; congruence).
  rewrite E, seq_length in H. pose proof (listed_length (fun _ => true) S HN (fun r Hr => conj (HS r Hr) eq_refl)) as H2. cbn [andb] in H2. unfold outside. lia.
Qed.
Lemma count_seq a i : length (filter (inFold a i) (seq 0 (length a))) = count_occ Nat.eq_dec a i.
Proof.
  induction a as [|j a IH] using rev_ind; [reflexivity|].
  rewrite app_length, Nat.add_1_r, seq_S, filter_app, app_length, count_occ_app. cbn [filter Nat.add]. unfold inFold at 2. rewrite nth_error_app2, Nat.sub_diag by lia. cbn [nth_error].
  assert (EE : length (filter (inFold (a ++ [j]) i) (seq 0 (length a))) = length (filter (inFold a i) (seq 0 (length a)))).
  { apply filter_ext_length. intros x Hx. apply in_seq in Hx. unfold inFold. rewrite nth_error_app1 by lia. auto. }
  rewrite EE, IH. f_equal. cbn [count_occ]. destruct (Nat.eq_dec j i) as [->|Hne]; [rewrite Nat.eqb_refl; auto|rewrite (proj2 (Nat.eqb_neq _ _) Hne); auto].
Qed.
Lemma alike_set N S r r' i : (forall x, In x S -> (x < tot)%nat) -> (r < tot)%nat -> (r' < tot)%nat -> ~ In r S -> ~ In r' S ->
  ways (iota tot) N (putsAll D nfold (r :: S) i) = ways (iota tot) N (putsAll D nfold (r' :: S) i).
Proof.
  intros HS Hr Hr' Nr Nr'. pose (f := fun x : Z => if Z.eqb x (Z.of_nat r) then Z.of_nat r' else if Z.eqb x (Z.of_nat r') then Z.of_nat r else x).
  assert (f_range : forall x, inR tot x -> inR tot (f x)). { intros x Hx. unfold inR, f in *. destruct (Z.eqb_spec x (Z.of_nat r)), (Z.eqb_spec x (Z.of_nat r')); lia. }
  assert (f_inj : forall x y, inR tot x -> inR tot y -> f x = f y -> x = y).
  { intros x y _ _ E. unfold f in E. destruct (Z.eqb_spec x (Z.of_nat r)), (Z.eqb_spec x (Z.of_nat r')), (Z.eqb_spec y (Z.of_nat r)), (Z.eqb_spec y (Z.of_nat r')); lia. }
  rewrite (ways_perm (iota tot) N f (putsAll D nfold (r' :: S) i) (act_perm D f f_range f_inj)). apply ways_ext. intros w Hw HI. unfold putsAll.
  pose proof (act D nfold f f_range f_inj w HI) as HA. destruct (assignOf D nfold w) as [c|]; [|rewrite HA; auto]. destruct HA as (c' & -> & L1 & L2 & HN).
  assert (HX : forall x, (x < tot)%nat -> nth_error c' (Z.to_nat (f (Z.of_nat x))) = nth_error c x).
  { intros x Hx. rewrite HN by (unfold inR; fold tot; lia). rewrite Nat2Z.id. auto. }
  cbn [forallb]. f_equal.
  - specialize (HX r Hr). unfold f in HX. rewrite Z.eqb_refl, Nat2Z.id in HX. rewrite HX. auto.
  - clear -HS HX Nr Nr'. induction S as [|x S IH]; cbn [forallb]; auto. rewrite IH; [|intros y Hy; apply HS; right; auto|intros Hy; apply Nr; right; auto|intros Hy; apply Nr'; right; auto].
    f_equal. assert (Hx : (x < tot)%nat) by (apply HS; left; auto). specialize (HX x Hx). assert (x <> r) by (intros ->; apply Nr; left; auto). assert (x <> r') by (intros ->; apply Nr'; left; auto).
    unfold f in HX. rewrite (proj2 (Z.eqb_neq _ _)) in HX by lia. rewrite (proj2 (Z.eqb_neq _ _)) in HX by lia. rewrite Nat2Z.id in HX. rewrite HX. auto.
Qed.
Lemma next_lemma N S r i : NoDup (r :: S) -> (forall x, In x (r :: S) -> (x < tot)%nat) ->
  Z.of_nat (tot - length S) * ways (iota tot) N (putsAll D nfold (r :: S) i) = Z.of_nat (foldSize tot nf i - length S) * ways (iota tot) N (putsAll D nfold S i).
Proof.
  intros HN HT. inversion HN as [|? ? Nr NS]; subst. assert (HS : forall x, In x S -> (x < tot)%nat) by (intros x Hx; apply HT; right; auto).
  unfold ways at 2. rewrite <- (double_count (outside S) (fun r w => putsAll D nfold (r :: S) i w)).
  - rewrite (sum_const _ (ways (iota tot) N (putsAll D nfold (r :: S) i))); [rewrite outside_length by auto; auto|]. intros r' Hr'. apply outside_in in Hr' as [H1 H2]. apply alike_set; auto. apply HT. left; auto.
  - intros w Hw. apply words_all in Hw as [Hw HI]. unfold putsAll. destruct (assignOf D nfold w) as [a|] eqn:E.
    + destruct (sizes_lemma D nfold w a HI E) as [HL HC]. change (length (Data D)) with tot in HL. specialize (HC i). change (foldsUsed D nfold) with nf in HC. change (length (Data D)) with tot in HC.
      rewrite <- HC. cbn [forallb]. fold (inFold a i). change (forallb (fun r0 => match nth_error a r0 with Some j => Nat.eqb j i | None => false end) S) with (forallb (inFold a i) S).
      destruct (forallb (inFold a i) S) eqn:EF.
      * rewrite forallb_forall in EF. rewrite <- count_seq, HL. rewrite (split_length (inFold a i) (fun r => existsb (Nat.eqb r) S)).
        rewrite listed_length by auto. unfold outside. rewrite filter_both. rewrite Nat.add_comm, Nat.add_sub. apply filter_ext_length. intros x _. change (match nth_error a x with Some j => Nat.eqb j i | None => false end) with (inFold a i x). rewrite Bool.andb_true_r. auto.
      * clear. induction (outside S) as [|x l IH]; cbn; auto. rewrite Bool.andb_false_r. auto.
    + clear. induction (outside S); auto.
Qed.
Lemma together_lemma N S i : NoDup S -> (forall x, In x S -> (x < tot)%nat) ->
  falling tot (length S) * ways (iota tot) N (putsAll D nfold S i) = falling (foldSize tot nf i) (length S) * ways (iota tot) N (enough D nfold).
Proof.
  induction S as [|r S IH]; intros HN HT.
  - cbn [length falling]. rewrite !Z.mul_1_l. apply ways_ext. intros w _ _. unfold putsAll, enough. destruct (assignOf D nfold w); auto.
  - cbn [length falling]. rewrite <- Z.mul_assoc. rewrite (next_lemma N S r i HN HT). inversion HN; subst. rewrite Z.mul_shuffle3. rewrite IH by (auto; intros x Hx; apply HT; right; auto). ring.
Qed.
End Rows.
