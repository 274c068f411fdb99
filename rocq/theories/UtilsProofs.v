(** Proofs about utils/math.go (proof support). *)
From Coq Require Import Reals Lra.
From Verif Require Import Base F64 F64Lemmas Env EnvLemmas Utils Tree Spec.
Open Scope Z_scope.

Lemma look_idx {A} (l : list A) j v : idx l j = Ok v <-> look l j v.
Proof. apply idx_Ok. Qed.
Lemma look_fun {A} (l : list A) j v v' : look l j v -> look l j v' -> v = v'.
Proof. intros [_ H] [_ H']. congruence. Qed.
Lemma look_range {A} (l : list A) j v : look l j v -> 0 <= j < Z.of_nat (length l).
Proof. intros H. apply idx_range. exists v. apply look_idx; auto. Qed.
Lemma look_ex {A} (l : list A) j : 0 <= j < Z.of_nat (length l) -> exists v, look l j v.
Proof. intros H. apply idx_range in H as [v H]. exists v. apply look_idx; auto. Qed.

Lemma Forall2_len {A B} (P : A -> B -> Prop) l l' : Forall2 P l l' -> length l = length l'.
Proof. induction 1; simpl; auto. Qed.
Lemma Forall2_nth1 {A B} (P : A -> B -> Prop) l l' : Forall2 P l l' ->
  forall n a, nth_error l n = Some a -> exists b, nth_error l' n = Some b /\ P a b.
Proof.
  induction 1 as [|x y l l' H HF IH]; intros [|n] a Hn; simpl in *; try discriminate.
  - injection Hn as <-; eauto.
  - eauto.
Qed.
Lemma Forall2_nth2 {A B} (P : A -> B -> Prop) l l' : Forall2 P l l' ->
  forall n b, nth_error l' n = Some b -> exists a, nth_error l n = Some a /\ P a b.
Proof.
  induction 1 as [|x y l l' H HF IH]; intros [|n] b Hn; simpl in *; try discriminate.
  - injection Hn as <-; eauto.
  - eauto.
Qed.
Lemma Forall2_nth_iff {A B} (P : A -> B -> Prop) l l' :
  length l = length l' ->
  (forall n a b, nth_error l n = Some a -> nth_error l' n = Some b -> P a b) -> Forall2 P l l'.
Proof.
  revert l'; induction l as [|x l IH]; intros [|y l'] HL H; simpl in HL; try discriminate; constructor.
  - apply (H O); auto.
  - apply IH; [lia|]. intros n. apply (H (S n)).
Qed.
Lemma Forall2_fun {A B} (P : A -> B -> Prop) l l1 l2 :
  (forall a b b', P a b -> P a b' -> b = b') -> Forall2 P l l1 -> Forall2 P l l2 -> l1 = l2.
Proof.
  intros HP H; revert l2; induction H; intros l2 H2; inversion H2; subst; auto.
  f_equal; eauto.
Qed.
Lemma Forall2_imp {A B} (P Q : A -> B -> Prop) l l' :
  (forall a b, P a b -> Q a b) -> Forall2 P l l' -> Forall2 Q l l'.
Proof. intros H; induction 1; constructor; auto. Qed.

(** ** Sampling *)
Lemma SampleSlice_Ok {A} (s : list A) ix r :
  SampleSlice s ix = Ok r <-> (length ix <= length s)%nat /\ Forall2 (look s) ix r.
Proof.
  unfold SampleSlice. destruct (Nat.ltb_spec (length s) (length ix)) as [H|H].
  - split; [intros [=]|intros [H1 _]; lia].
  - rewrite mapM_Ok. split.
    + intros HF; split; [auto|]. eapply Forall2_imp; [|exact HF]. intros; apply look_idx; auto.
    + intros [_ HF]. eapply Forall2_imp; [|exact HF]. intros; apply look_idx; auto.
Qed.

Lemma SampleSlice_Panic {A} (s : list A) ix :
  SampleSlice s ix = Panic <->
  (length s < length ix)%nat \/ exists v, In v ix /\ ~ (0 <= v < Z.of_nat (length s)).
Proof.
  unfold SampleSlice. destruct (Nat.ltb_spec (length s) (length ix)) as [H|H].
  - tauto.
  - split.
    + intros HP. right. assert (HD : forall v, In v ix -> (0 <= v < Z.of_nat (length s)) \/ ~ (0 <= v < Z.of_nat (length s))) by (intros; lia).
      clear H. induction ix as [|v t IH]; simpl in HP; [discriminate|].
      destruct (idx s v) as [x| |] eqn:E; simpl in HP.
      * destruct (mapM (fun v0 => idx s v0) t) eqn:E2; simpl in HP; try discriminate.
        destruct IH as (w & Hw & Hw'); auto.
        -- intros; apply HD; right; auto.
        -- exists w; split; [right; auto|auto].
      * exists v. split; [left; auto|]. apply idx_Panic; auto.
      * exfalso; eapply idx_not_Diverge; eauto.
    + intros [HH|(v & Hv & HH)]; [lia|]. apply mapM_Panic_ex.
      * intros; apply idx_not_Diverge.
      * exists v; split; auto. apply idx_Panic; auto.
Qed.

Lemma SampleSlice_not_Diverge {A} (s : list A) ix : SampleSlice s ix <> Diverge.
Proof.
  unfold SampleSlice. destruct (Nat.ltb _ _); [congruence|].
  induction ix as [|v t IH]; simpl; [congruence|].
  destruct (idx s v) eqn:E; simpl; try congruence.
  - destruct (mapM (fun v0 => idx s v0) t); simpl; congruence.
  - exfalso; eapply idx_not_Diverge; eauto.
Qed.

Lemma SampleMatrix_Ok {A} (m : list (list A)) rs cs r :
  SampleMatrix m rs cs = Ok r <->
  Forall2 (fun v out => exists row, look m v row /\ (length cs <= length row)%nat /\ Forall2 (look row) cs out) rs r.
Proof.
  unfold SampleMatrix. rewrite mapM_Ok. split; apply Forall2_imp; intros v out.
  - intros H. binv H. apply SampleSlice_Ok in H. apply look_idx in Hb. exists v0; tauto.
  - intros (row & H1 & H2). apply look_idx in H1. rewrite H1; simpl. apply SampleSlice_Ok; tauto.
Qed.

(** ** Transposition *)
Lemma TransposeFloats_Ok {A} (m : list (list A)) r : TransposeFloats m = Ok r ->
  exists r0 rest, m = r0 :: rest /\ length r = length r0 /\
  forall i row, nth_error r i = Some row -> Forall2 (fun mr x => nth_error mr i = Some x) m row.
Proof.
  destruct m as [|r0 rest]; [discriminate|]. intros H. exists r0, rest. split; [auto|].
  unfold TransposeFloats in H. pose proof (mapM_length _ _ _ H) as HL. rewrite iota_length in HL. split; [auto|].
  intros i row Hi. apply mapM_Ok in H.
  destruct (Forall2_nth2 _ _ _ H _ _ Hi) as (z & Hz & HM).
  assert (Hi' : (i < length r0)%nat) by (rewrite <- HL; apply nth_error_Some; congruence).
  rewrite iota_nth in Hz by auto. injection Hz as <-.
  apply mapM_Ok in HM. eapply Forall2_imp; [|exact HM]. intros a b Hab. apply idx_of_nat in Hab; auto.
Qed.

(** the column extraction of tree.go *)
Lemma column_Ok X ix f col : column X ix f = Ok col -> ix <> [] /\ Forall2 (fun j v => cell X j f v) ix col.
Proof.
  unfold column. intros H. binv H. binv H. apply SampleMatrix_Ok in Hb. apply look_idx in H as [_ H]. change (Z.to_nat 0) with O in H.
  apply TransposeFloats_Ok in Hb0 as (r0 & rest & -> & HL & HT).
  specialize (HT _ _ H). split.
  - inversion Hb; congruence.
  - clear -Hb HT. revert col HT. induction Hb as [|j out ix' m' (row & H1 & H2 & H3) HF IH]; intros col HT.
    + inversion HT; subst; constructor.
    + inversion HT as [|? x ? col' Hx HT']; subst. constructor; auto.
      exists row. split; auto. inversion H3 as [|? v ? ? Hv Hn]; subst. simpl in Hx. injection Hx as <-. auto.
Qed.

Lemma column_ex X ix f : ix <> [] -> (forall j, In j ix -> exists v, cell X j f v) ->
  exists col, column X ix f = Ok col.
Proof.
  intros Hne H. unfold column.
  assert (HS : exists m, SampleMatrix X ix [f] = Ok m).
  { unfold SampleMatrix. apply mapM_all_Ok. intros j Hj. destruct (H j Hj) as (v & row & H1 & H2).
    pose proof (look_range _ _ _ H2). apply look_idx in H1. rewrite H1; simpl. exists [v]. apply SampleSlice_Ok. split.
    - simpl. lia.
    - repeat constructor; auto; apply H2. }
  destruct HS as [m Hm]. rewrite Hm; simpl. pose proof Hm as Hm'. apply SampleMatrix_Ok in Hm.
  assert (Hlen : forall out, In out m -> length out = 1%nat).
  { intros out Ho. apply In_nth_error in Ho as [n Hn]. destruct (Forall2_nth2 _ _ _ Hm _ _ Hn) as (j & _ & row & _ & _ & HF).
    apply Forall2_len in HF. auto. }
  destruct m as [|r0 rest]; [inversion Hm; subst; congruence|].
  assert (HT : exists xt, TransposeFloats (r0 :: rest) = Ok xt).
  { unfold TransposeFloats. apply mapM_all_Ok. intros z Hz. apply mapM_all_Ok. intros out Ho.
    apply idx_range. rewrite (Hlen out Ho). apply iota_In in Hz. rewrite (Hlen r0) in Hz by (left; auto). auto. }
  destruct HT as [xt HT]. rewrite HT; simpl. apply idx_range.
  apply TransposeFloats_Ok in HT as (? & ? & [= <- <-] & HL & _). rewrite HL, (Hlen r0) by (left; auto). lia.
Qed.

(** ** Sorting *)
Lemma combine_map_fst {A B} (l : list A) (l' : list B) : length l = length l' -> map fst (combine l l') = l.
Proof. revert l'; induction l as [|a l IH]; intros [|b l'] H; simpl in *; try discriminate; auto. f_equal. apply IH. lia. Qed.
Lemma combine_map_snd {A B} (l : list A) (l' : list B) : length l = length l' -> map snd (combine l l') = l'.
Proof. revert l'; induction l as [|a l IH]; intros [|b l'] H; simpl in *; try discriminate; auto. f_equal. apply IH. lia. Qed.

Section Sort.
Context (E : Env) (HE : EnvOk E).

Lemma MemArgSort_ArgSort a bi bv : length bi = length a -> length bv = length a ->
  MemArgSort E a bi bv = Ok (ArgSort E a).
Proof.
  intros H1 H2. unfold MemArgSort, ArgSort. rewrite H1, H2, !Nat.ltb_irrefl. simpl.
  rewrite !skipn_all2 by lia. rewrite !app_nil_r. rewrite skipn_all2 by lia. rewrite app_nil_r. reflexivity.
Qed.

Lemma ArgSort_len a : length (fst (ArgSort E a)) = length a /\ length (snd (ArgSort E a)) = length a.
Proof.
  unfold ArgSort; simpl. rewrite !map_length.
  rewrite <- (Permutation_length (ok_sort_perm E HE _ idLess (combine (iota (length a)) a))).
  rewrite combine_length, iota_length. lia.
Qed.

Lemma ArgSort_perm a : Permutation (iota (length a)) (fst (ArgSort E a)).
Proof.
  unfold ArgSort; simpl.
  rewrite <- (combine_map_fst (iota (length a)) a) at 1 by apply iota_length.
  apply Permutation_map. apply (ok_sort_perm E HE).
Qed.
Lemma ArgSort_perm_vals a : Permutation a (snd (ArgSort E a)).
Proof.
  unfold ArgSort; simpl.
  rewrite <- (combine_map_snd (iota (length a)) a) at 1 by apply iota_length.
  apply Permutation_map. apply (ok_sort_perm E HE).
Qed.

Lemma combine_iota_look {A} (a : list A) p : In p (combine (iota (length a)) a) -> look a (fst p) (snd p).
Proof.
  intros H. apply In_nth_error in H as [n Hn].
  assert (Hn' : (n < length a)%nat).
  { assert (n < length (combine (iota (length a)) a))%nat by (apply nth_error_Some; congruence).
    rewrite combine_length, iota_length in *. lia. }
  destruct p as [z v]. simpl.
  assert (Hf : nth_error (map fst (combine (iota (length a)) a)) n = Some z) by (rewrite nth_error_map, Hn; auto).
  assert (Hs : nth_error (map snd (combine (iota (length a)) a)) n = Some v) by (rewrite nth_error_map, Hn; auto).
  rewrite combine_map_fst in Hf by apply iota_length. rewrite combine_map_snd in Hs by apply iota_length.
  rewrite iota_nth in Hf by auto. injection Hf as <-. split; [lia|]. rewrite Nat2Z.id; auto.
Qed.

Lemma ArgSort_look a : Forall2 (look a) (fst (ArgSort E a)) (snd (ArgSort E a)).
Proof.
  unfold ArgSort; simpl. set (s := e_sort E _ idLess _).
  assert (H : forall p, In p s -> look a (fst p) (snd p)).
  { intros p Hp. apply combine_iota_look. eapply Permutation_in; [|exact Hp].
    apply Permutation_sym. apply (ok_sort_perm E HE). }
  clearbody s. induction s as [|p s IH]; simpl; constructor.
  - apply H; left; auto.
  - apply IH. intros; apply H; right; auto.
Qed.

Lemma idLess_swo l : (forall p, In p l -> fnanb (snd p) = false) -> swo idLess l.
Proof.
  intros HN. unfold idLess. repeat split; intros.
  - apply fltb_irrefl.
  - eapply fltb_trans; eauto.
  - apply fltb_false in H2; auto. apply fltb_false in H3; auto. apply fltb_false; auto. lra.
Qed.

Lemma ArgSort_sorted a : (forall v, In v a -> fnanb v = false) ->
  forall i j x y, (i <= j)%nat -> nth_error (snd (ArgSort E a)) i = Some x ->
  nth_error (snd (ArgSort E a)) j = Some y -> fleb x y = true.
Proof.
  intros HN i j x y Hij Hx Hy.
  assert (Hin : forall v, In v (snd (ArgSort E a)) -> fnanb v = false).
  { intros v Hv. apply HN. eapply Permutation_in; [apply Permutation_sym, ArgSort_perm_vals|exact Hv]. }
  pose proof (Hin x (nth_error_In _ _ Hx)) as Nx. pose proof (Hin y (nth_error_In _ _ Hy)) as Ny.
  destruct (Nat.eq_dec i j) as [->|Hne].
  - assert (x = y) by congruence; subst. apply fleb_refl; auto.
  - revert Hx Hy. unfold ArgSort. simpl. set (l := combine (iota (length a)) a).
    assert (Hs : no_inversion idLess (e_sort E _ idLess l)).
    { apply (ok_sort_sorted E HE). apply idLess_swo. intros p Hp. apply HN.
      apply combine_iota_look in Hp as [_ Hp]. eapply nth_error_In; eauto. }
    rewrite !nth_error_map.
    destruct (nth_error (e_sort E _ idLess l) i) as [p|] eqn:Ep; [|discriminate].
    destruct (nth_error (e_sort E _ idLess l) j) as [q|] eqn:Eq; [|discriminate].
    simpl. intros [= <-] [= <-].
    assert (HL : idLess q p = false) by (eapply (Hs i j); eauto; lia).
    unfold idLess in HL. apply fltb_false in HL; auto. apply fleb_true; auto.
Qed.
End Sort.
