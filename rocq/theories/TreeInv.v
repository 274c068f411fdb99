(** A tree only depends on the order of the values in each column (proof support for C101). *)
From Coq Require Import Reals Lra.
From Verif Require Import Base F64 F64Lemmas Env EnvLemmas Utils Tree Spec Options Train UtilsProofs TreeProofs TreeSplit TreeThms SpecTot SpecInv.
Open Scope Z_scope.

Lemma isort_natural : sortsByComparison env0.
Proof.
  intros A B f lessA lessB l H. cbn [e_sort env0]. induction l as [|x t IH]; [reflexivity|]. cbn [isort map fold_right].
  change (fold_right (ins lessB) [] (map f t)) with (isort B lessB (map f t)). change (fold_right (ins lessA) [] t) with (isort A lessA t).
  rewrite IH by (intros; apply H; right; auto).
  assert (HI : forall a, In a (isort A lessA t) -> In a (x :: t)) by (intros a Ha; apply isort_In in Ha; right; auto).
  revert HI. generalize (isort A lessA t) as s. induction s as [|y s IHs]; intros HI; [reflexivity|]. cbn [map ins].
  rewrite H; [|apply HI; left; auto|left; auto]. destruct (lessA y x); [|reflexivity]. cbn [map]. rewrite IHs; [reflexivity|]. intros; apply HI; right; auto.
Qed.

Section Rel.
Context (E : Env) (HE : EnvOk E) (HN : sortsByComparison E).
Context (X X' : list (list f64)) (HG : goodTable X) (HG' : goodTable X') (HO : sameOrder X X').

Lemma so_row j row : look X j row -> exists row', look X' j row' /\ length row = length row'.
Proof.
  destruct HO as [HF _]. intros [Hj H]. destruct (Forall2_nth1 _ _ _ HF _ _ H) as (row' & H1 & H2). exists row'. split; [split; auto|auto].
Qed.
Lemma so_cell i f a : cell X i f a -> exists a', cell X' i f a'.
Proof.
  intros (row & H1 & H2). destruct (so_row _ _ H1) as (row' & H3 & H4). pose proof (look_range _ _ _ H2).
  destruct (look_ex row' f) as [a' Ha]; [lia|]. exists a', row'. auto.
Qed.
Lemma so_len : length X = length X'.
Proof. destruct HO as [HF _]. eapply Forall2_len; eauto. Qed.
Lemma so_lt f i j a b a' b' : cell X i f a -> cell X j f b -> cell X' i f a' -> cell X' j f b' -> fltb a b = fltb a' b'.
Proof. destruct HO as [_ H]. apply H. Qed.

Lemma nonan_le a b : fnanb a = false -> fnanb b = false -> fleb a b = negb (fltb b a).
Proof.
  intros Ha Hb. destruct (fltb b a) eqn:E1.
  - apply fltb_true in E1 as (_ & _ & E1). destruct (fleb a b) eqn:E2; auto. apply fleb_true in E2 as (_ & _ & E2). exfalso; lra.
  - apply fltb_false in E1; auto. apply fleb_true. auto.
Qed.
Lemma nonan_eq a b : fnanb a = false -> fnanb b = false -> feqb a b = negb (fltb a b) && negb (fltb b a).
Proof.
  intros Ha Hb. destruct (feqb a b) eqn:E1.
  - apply feqb_true in E1 as (_ & _ & E1). destruct (fltb a b) eqn:E2; [apply fltb_true in E2 as (_ & _ & E2); exfalso; lra|].
    destruct (fltb b a) eqn:E3; [apply fltb_true in E3 as (_ & _ & E3); exfalso; lra|]. reflexivity.
  - destruct (fltb a b) eqn:E2; [reflexivity|]. destruct (fltb b a) eqn:E3; [reflexivity|].
    apply fltb_false in E2; auto. apply fltb_false in E3; auto.
    assert (feqb a b = true) by (apply feqb_true; repeat split; auto; lra). congruence.
Qed.
Lemma so_le f i j a b a' b' : cell X i f a -> cell X j f b -> cell X' i f a' -> cell X' j f b' -> fleb a b = fleb a' b'.
Proof.
  intros A B A' B'. pose proof (gt_nan X HG _ _ _ A). pose proof (gt_nan X HG _ _ _ B). pose proof (gt_nan X' HG' _ _ _ A'). pose proof (gt_nan X' HG' _ _ _ B').
  rewrite (nonan_le a b), (nonan_le a' b') by auto. f_equal. eapply so_lt; eauto.
Qed.
Lemma so_eq f i j a b a' b' : cell X i f a -> cell X j f b -> cell X' i f a' -> cell X' j f b' -> feqb a b = feqb a' b'.
Proof.
  intros A B A' B'. pose proof (gt_nan X HG _ _ _ A). pose proof (gt_nan X HG _ _ _ B). pose proof (gt_nan X' HG' _ _ _ A'). pose proof (gt_nan X' HG' _ _ _ B').
  rewrite (nonan_eq a b), (nonan_eq a' b') by auto.
  rewrite (so_lt f i j a b a' b'), (so_lt f j i b a b' a'); auto.
Qed.

(** *** one column *)
Lemma column_rel ix f col : column X ix f = Ok col -> exists col', column X' ix f = Ok col'.
Proof.
  intros H. apply column_Ok in H as [Hne HF]. apply column_ex; auto. intros j Hj. apply In_nth_error in Hj as [n Hn].
  destruct (Forall2_nth1 _ _ _ HF _ _ Hn) as (v & _ & Hc). eapply so_cell; eauto.
Qed.

Lemma argsort_rel ix f col col' : Forall2 (fun j v => cell X j f v) ix col -> Forall2 (fun j v => cell X' j f v) ix col' ->
  fst (ArgSort E col) = fst (ArgSort E col').
Proof.
  intros F1 F2. assert (L1 : length col = length col').
  { rewrite <- (Forall2_len _ _ _ F1). eapply Forall2_len; eauto. }
  unfold ArgSort. cbn [fst].
  set (g := fun p : Z * f64 => (fst p, nth (Z.to_nat (fst p)) col' fzero)).
  assert (Hmap : combine (iota (length col')) col' = map g (combine (iota (length col)) col)).
  { rewrite L1. assert (HA : forall n (c c' pre : list f64), length c = length c' -> col' = pre ++ c' -> n = length pre ->
      combine (map Z.of_nat (seq n (length c'))) c' = map g (combine (map Z.of_nat (seq n (length c'))) c)).
    { clear. intros n c c'. revert n c. induction c' as [|v c' IH]; intros n [|w c] pre HL HC Hn; try discriminate; [reflexivity|].
      cbn [length seq map combine]. f_equal.
      - unfold g. cbn [fst]. rewrite Nat2Z.id, HC, app_nth2, Hn, Nat.sub_diag by lia. reflexivity.
      - apply (IH (S n) c (pre ++ [v])); [simpl in HL; lia|rewrite <- app_assoc; exact HC|rewrite app_length; simpl; lia]. }
    unfold iota. apply (HA 0%nat col col' []); auto. }
  rewrite Hmap. rewrite (HN _ _ g idLess idLess).
  - rewrite map_map. apply map_ext. reflexivity.
  - intros p q Hp Hq. apply combine_iota_look in Hp, Hq. unfold g, idLess. cbn [snd].
    assert (HC : forall z w, look col z w -> exists j, cell X j f w /\ cell X' j f (nth (Z.to_nat z) col' fzero)).
    { intros z w [_ Hz]. destruct (Forall2_nth2 _ _ _ F1 _ _ Hz) as (j & Hj & Hc). exists j. split; [auto|].
      destruct (Forall2_nth1 _ _ _ F2 _ _ Hj) as (w' & Hw & Hc'). rewrite (nth_error_nth _ _ fzero Hw). auto. }
    destruct (HC _ _ Hp) as (j1 & A1 & A2). destruct (HC _ _ Hq) as (j2 & B1 & B2). symmetry. eapply so_lt; eauto.
Qed.

(** the samples that the threshold between two neighbours sends to the left *)
Lemma below_mid (Y : list (list f64)) (HY : goodTable Y) ix f col k a b j v : Forall2 (fun j v => cell Y j f v) ix col ->
  nth_error (snd (ArgSort E col)) k = Some a -> nth_error (snd (ArgSort E col)) (S k) = Some b -> feqb a b = false ->
  In j ix -> cell Y j f v -> below Y f (midpoint a b) j = fleb v a.
Proof.
  intros HF Ha Hb Hab Hj Hv. rewrite (cell_below _ _ _ _ _ Hv).
  assert (HNn : forall w, In w col -> fnanb w = false).
  { intros w Hw. apply In_nth_error in Hw as [n Hn]. destruct (Forall2_nth2 _ _ _ HF _ _ Hn) as (j' & _ & Hc). eapply (gt_nan Y HY); eauto. }
  assert (HCell : forall n w, nth_error (snd (ArgSort E col)) n = Some w -> exists j', cell Y j' f w /\ fnanb w = false).
  { intros n w Hn. assert (Hw : In w col) by (eapply Permutation_in; [apply Permutation_sym, (ArgSort_perm_vals E HE)|eapply nth_error_In; eauto]).
    pose proof (HNn w Hw). apply In_nth_error in Hw as [m Hm]. destruct (Forall2_nth2 _ _ _ HF _ _ Hm) as (j' & _ & Hc). eauto. }
  destruct (HCell _ _ Ha) as (ja & Ca & Na). destruct (HCell _ _ Hb) as (jb & Cb & Nb).
  pose proof (ArgSort_sorted E HE col HNn k (S k) a b ltac:(lia) Ha Hb) as Hle.
  assert (Hlt : fltb a b = true).
  { rewrite nonan_eq in Hab by auto. rewrite nonan_le in Hle by auto. destruct (fltb b a); [discriminate|]. destruct (fltb a b); auto. }
  destruct (gt_mid Y HY f ja jb a b Ca Cb Hlt) as [M1 M2]. fold (midpoint a b) in M1, M2.
  assert (Hin : In v (snd (ArgSort E col))).
  { eapply Permutation_in; [apply (ArgSort_perm_vals E HE)|]. apply In_nth_error in Hj as [n Hn].
    destruct (Forall2_nth1 _ _ _ HF _ _ Hn) as (v' & Hv' & Hc). assert (v' = v) by (eapply cell_fun; eauto). subst. eapply nth_error_In; eauto. }
  apply In_nth_error in Hin as [m Hm]. destruct (HCell _ _ Hm) as (_ & _ & Nv).
  assert (Hle2 := nonan_le). apply fleb_true in M1 as (_ & Nm & M1). apply fltb_true in M2 as (_ & _ & M2).
  destruct (le_lt_dec m k) as [Hmk|Hmk].
  - pose proof (ArgSort_sorted E HE col HNn m k v a Hmk Hm Ha) as H1. rewrite H1. apply fleb_true in H1 as (_ & _ & H1).
    apply fleb_true. repeat split; auto. lra.
  - pose proof (ArgSort_sorted E HE col HNn (S k) m b v ltac:(lia) Hb Hm) as H1. apply fleb_true in H1 as (_ & _ & H1).
    apply fltb_true in Hlt as (_ & _ & Hlt).
    destruct (fleb v a) eqn:E1; [apply fleb_true in E1 as (_ & _ & E1); exfalso; lra|].
    destruct (fleb v (midpoint a b)) eqn:E2; auto. apply fleb_true in E2 as (_ & _ & E2). exfalso; lra.
Qed.

(** two sorted columns of related tables: neighbours are equal at the same places, thresholds separate the same samples *)
Lemma neighbours ix f col col' k a b a' b' : Forall2 (fun j v => cell X j f v) ix col -> Forall2 (fun j v => cell X' j f v) ix col' ->
  nth_error (snd (ArgSort E col)) k = Some a -> nth_error (snd (ArgSort E col)) (S k) = Some b ->
  nth_error (snd (ArgSort E col')) k = Some a' -> nth_error (snd (ArgSort E col')) (S k) = Some b' ->
  feqb a b = feqb a' b' /\
  (feqb a b = false -> forall j, In j ix -> below X f (midpoint a b) j = below X' f (midpoint a' b') j).
Proof.
  intros F1 F2 Ha Hb Ha' Hb'. pose proof (argsort_rel _ _ _ _ F1 F2) as HP.
  assert (HC : forall n w w', nth_error (snd (ArgSort E col)) n = Some w -> nth_error (snd (ArgSort E col')) n = Some w' ->
     exists j, In j ix /\ cell X j f w /\ cell X' j f w').
  { intros n w w' Hw Hw'. destruct (Forall2_nth2 _ _ _ (ArgSort_look E HE col) _ _ Hw) as (z & Hz & [_ Lz]).
    destruct (Forall2_nth2 _ _ _ (ArgSort_look E HE col') _ _ Hw') as (z' & Hz' & [_ Lz']).
    rewrite HP in Hz. assert (z' = z) by congruence. subst z'.
    destruct (Forall2_nth2 _ _ _ F1 _ _ Lz) as (j & Hj & Hc). destruct (Forall2_nth2 _ _ _ F2 _ _ Lz') as (j' & Hj' & Hc').
    assert (j' = j) by congruence. subst j'. exists j. split; [eapply nth_error_In; eauto|auto]. }
  destruct (HC _ _ _ Ha Ha') as (ja & Ja & Ca & Ca'). destruct (HC _ _ _ Hb Hb') as (jb & Jb & Cb & Cb').
  assert (HEq : feqb a b = feqb a' b') by (eapply so_eq; eauto). split; [exact HEq|]. intros Hne j Hj.
  apply In_nth_error in Hj as [n Hn]. destruct (Forall2_nth1 _ _ _ F1 _ _ Hn) as (v & _ & Cv). destruct (Forall2_nth1 _ _ _ F2 _ _ Hn) as (v' & _ & Cv').
  apply nth_error_In in Hn.
  rewrite (below_mid X HG ix f col k a b j v F1 Ha Hb Hne Hn Cv). rewrite (below_mid X' HG' ix f col' k a' b' j v' F2 Ha' Hb'); auto; [|congruence].
  eapply so_le; eauto.
Qed.

(** *** one scan *)
Definition bRel (xgb : bool) (ix : list Z) (b b' : best) : Prop := b_score b = b_score b' /\ b_split b = b_split b' /\
  (b = b0 xgb /\ b' = b0 xgb \/ forall j, In j ix -> below X (b_split b) (b_thr b) j = below X' (b_split b') (b_thr b') j).

Lemma scan_cons2 {P S} (step : S -> P -> S) score better mcw f x p y q t s nl nr b :
  scan step score better mcw f ((x, p) :: (y, q) :: t) s nl nr b =
  if (nl + 1 <? mcw) || feqb x y then scan step score better mcw f ((y, q) :: t) (step s p) (nl + 1) (nr - 1) b
  else if nr - 1 <? mcw then b
  else scan step score better mcw f ((y, q) :: t) (step s p) (nl + 1) (nr - 1)
         (if better (score (step s p) (nl + 1) (nr - 1)) (b_score b)
          then MkB (score (step s p) (nl + 1) (nr - 1)) f (midpoint x y) else b).
Proof. reflexivity. Qed.
Lemma scan_rel {P S} (step : S -> P -> S) score better mcw f xgb ix (l l' : list (f64 * P)) : map snd l = map snd l' ->
  (forall k a b a' b' p q p' q', nth_error l k = Some (a, p) -> nth_error l (Datatypes.S k) = Some (b, q) ->
     nth_error l' k = Some (a', p') -> nth_error l' (Datatypes.S k) = Some (b', q') ->
     feqb a b = feqb a' b' /\ (feqb a b = false -> forall j, In j ix -> below X f (midpoint a b) j = below X' f (midpoint a' b') j)) ->
  forall s nl nr b b', bRel xgb ix b b' -> bRel xgb ix (scan step score better mcw f l s nl nr b) (scan step score better mcw f l' s nl nr b').
Proof.
  revert l'. induction l as [|[x p] t IH]; intros [|[x' p'] t'] HM HK s nl nr b b' HB; try discriminate; [exact HB|].
  cbn [map snd] in HM. injection HM as -> HM. destruct t as [|[y q] t]; destruct t' as [|[y' q'] t']; try discriminate; [exact HB|].
  rewrite !scan_cons2. destruct (HK 0%nat x y x' y' p' q p' q' eq_refl eq_refl eq_refl eq_refl) as [K1 K2].
  assert (HK' : forall k a b a' b' p q0 p' q'0, nth_error ((y, q) :: t) k = Some (a, p) -> nth_error ((y, q) :: t) (Datatypes.S k) = Some (b, q0) ->
     nth_error ((y', q') :: t') k = Some (a', p') -> nth_error ((y', q') :: t') (Datatypes.S k) = Some (b', q'0) ->
     feqb a b = feqb a' b' /\ (feqb a b = false -> forall j, In j ix -> below X f (midpoint a b) j = below X' f (midpoint a' b') j)).
  { intros k a0 b1 a0' b1' p0 q0 p0' q0' H1 H2 H3 H4. exact (HK (Datatypes.S k) a0 b1 a0' b1' p0 q0 p0' q0' H1 H2 H3 H4). }
  rewrite <- K1. destruct ((nl + 1 <? mcw) || feqb x y) eqn:EC.
  - apply IH; auto.
  - destruct (nr - 1 <? mcw); [exact HB|]. apply IH; auto. destruct HB as (B1 & B2 & B3). rewrite <- B1.
    destruct (better _ (b_score b)); [|split; [exact B1|split; [exact B2|exact B3]]].
    apply orb_false_iff in EC as [_ EC]. split; [reflexivity|]. split; [reflexivity|]. right. cbn [b_split b_thr]. auto.
Qed.

Lemma combine_snd_eq {A B} (l l' : list A) (m : list B) : length l = length l' -> map snd (combine l m) = map snd (combine l' m).
Proof. revert l' m; induction l as [|a l IH]; intros [|a' l'] [|b m] H; try discriminate; auto. cbn [combine map snd]. f_equal. apply IH. simpl in H. lia. Qed.

Lemma fbs_rel xgb o ix f b b' r : bRel xgb ix b b' -> findBetterSplit E X o ix b f = Ok r ->
  exists r', findBetterSplit E X' o ix b' f = Ok r' /\ bRel xgb ix r r'.
Proof.
  intros HB H. unfold findBetterSplit in *. binv H. rename v into col. binv H. binv H. binv H.
  destruct (column_rel _ _ _ Hb) as [col' Hc']. rewrite Hc'. cbn [bind].
  pose proof Hb as Hcol. apply column_Ok in Hcol as [Hne F1]. pose proof Hc' as Hcol'. apply column_Ok in Hcol' as [_ F2].
  assert (L1 : length col' = length col).
  { rewrite <- (Forall2_len _ _ _ F2). eapply Forall2_len; eauto. }
  rewrite L1, Hb0, Hb1. cbn [bind].
  assert (HL : length v = length col /\ length v0 = length col).
  { unfold slice0 in *. destruct (Nat.ltb_spec (length (orNil (to_in o))) (length col)); [discriminate|].
    destruct (Nat.ltb_spec (length (orNil (to_val o))) (length col)); [discriminate|].
    injection Hb0 as <-. injection Hb1 as <-. rewrite !firstn_length. lia. }
  destruct HL as [HL1 HL2]. rewrite MemArgSort_ArgSort in Hb2 by lia. rewrite MemArgSort_ArgSort by lia. injection Hb2 as Hb2. cbn [bind].
  assert (HNb : forall k a c a' c', nth_error (snd (ArgSort E col)) k = Some a -> nth_error (snd (ArgSort E col)) (S k) = Some c ->
    nth_error (snd (ArgSort E col')) k = Some a' -> nth_error (snd (ArgSort E col')) (S k) = Some c' ->
    feqb a c = feqb a' c' /\ (feqb a c = false -> forall j, In j ix -> below X f (midpoint a c) j = below X' f (midpoint a' c') j))
    by (intros; eapply neighbours; eauto).
  pose proof (argsort_rel _ _ _ _ F1 F2) as HP. pose proof (ArgSort_len E HE col) as [_ S1]. pose proof (ArgSort_len E HE col') as [_ S2].
  destruct (ArgSort E col) as [si sx]. destruct (ArgSort E col') as [si' sx']. cbn [fst snd] in *. subst v1 si'. cbn match in H |- *.
  destruct (to_xgb o).
  - binv H. binv H. binv H. binv H. injection H as <-. rewrite Hb2. cbn [bind]. rewrite Hb3. cbn [bind]. rewrite Hb4. cbn [bind]. rewrite Hb5. cbn [bind].
    eexists. split; [reflexivity|]. apply scan_rel; auto; [apply combine_snd_eq; lia|].
    intros k a c a' c' p q p' q' N1 N2 N3 N4. apply nth_combine in N1 as [N1 _], N2 as [N2 _], N3 as [N3 _], N4 as [N4 _]. eauto.
  - binv H. binv H. injection H as <-. rewrite Hb2. cbn [bind]. rewrite Hb3. cbn [bind].
    eexists. split; [reflexivity|]. apply scan_rel; auto; [apply combine_snd_eq; lia|].
    intros k a c a' c' p q p' q' N1 N2 N3 N4. apply nth_combine in N1 as [N1 _], N2 as [N2 _], N3 as [N3 _], N4 as [N4 _]. eauto.
Qed.
Lemma fold_rel xgb o ix fs : forall b b' r, bRel xgb ix b b' -> foldM (findBetterSplit E X o ix) b fs = Ok r ->
  exists r', foldM (findBetterSplit E X' o ix) b' fs = Ok r' /\ bRel xgb ix r r'.
Proof.
  induction fs as [|f fs IH]; intros b b' r HB H; cbn [foldM] in *.
  - injection H as <-. eauto.
  - binv H. destruct (fbs_rel _ _ _ _ _ _ _ HB Hb) as (v' & Hv & HB'). rewrite Hv. cbn [bind]. eauto.
Qed.

(** *** the whole tree *)
Lemma prepare_rel o : prepare X' o = prepare X o.
Proof. unfold prepare. rewrite so_len. reflexivity. Qed.
Lemma noThr_branches t t' : noThr t = noThr t' -> branchesOf t = branchesOf t'.
Proof. destruct t, t'; simpl; intros H; congruence. Qed.

(** the two trees send [row] and [row'] along the same path *)
Fixpoint agree (t t' : tree) (row row' : list f64) : Prop :=
  match t, t' with
  | Nil, Nil => True
  | Node d l r, Node d' l' r' => t_leaf d = t_leaf d' /\ t_split d = t_split d' /\
      (t_leaf d = false -> exists v v', idx row (t_split d) = Ok v /\ idx row' (t_split d) = Ok v' /\ fleb v (t_thr d) = fleb v' (t_thr d') /\
         if fleb v (t_thr d) then agree l l' row row' else agree r r' row row')
  | _, _ => False
  end.
Lemma agree_predict row row' : forall t t', noThr t = noThr t' -> agree t t' row row' -> PredictSingle t row = PredictSingle t' row'.
Proof.
  induction t as [|d l IHl r IHr]; intros [|d' l' r'] HT HA; try discriminate; [reflexivity|].
  cbn [noThr] in HT. injection HT as H1 H2 H3 H4 H5 H6 H7 HL HR. cbn [agree] in HA. destruct HA as (A1 & A2 & A3).
  cbn [PredictSingle]. rewrite <- A1, <- A2. destruct (t_leaf d) eqn:EL; [congruence|].
  destruct (A3 eq_refl) as (v & v' & V1 & V2 & V3 & V4). rewrite V1, V2. cbn [bind]. rewrite <- V3. destruct (fleb v (t_thr d)); auto.
Qed.

Lemma grow_rel n : forall o t, grow E X n o = Ok t -> exists t', grow E X' n o = Ok t' /\ noThr t = noThr t' /\
  forall i row row', In i (orNil (to_indexes (prepare X o))) -> look X i row -> look X' i row' -> agree t t' row row'.
Proof.
  induction n as [|n IH]; intros o t H; cbn [grow] in H |- *; rewrite prepare_rel;
    destruct (to_xgb o && isNone (to_grads o) && isNone (to_hess o)) eqn:EN; try discriminate.
  - binv H. destruct v as [value s0]. rewrite Hb. cbn [bind]. binv H. injection H as <-.
    apply look_idx in Hb0. destruct (so_row _ _ Hb0) as (row' & Hr' & _). apply look_idx in Hr'. rewrite Hr'. cbn [bind].
    pose proof (nodeValue_score _ _ _ _ _ Hb) as Hs0.
    assert (EL : leafScore (to_xgb (prepare X o)) s0 = true) by (rewrite Hs0; apply (leafScore_b0 (to_xgb (prepare X o)))).
    eexists. split; [reflexivity|]. split; [reflexivity|]. intros i row row'' _ _ _. cbn [agree]. unfold t_leaf. cbn [t_xgb t_best b_score t_split].
    split; [reflexivity|]. split; [reflexivity|]. intros Hf. exfalso. change (leafScore (to_xgb (prepare X o)) s0 = false) in Hf. rewrite EL in Hf. discriminate Hf.
  - binv H. destruct v as [value s0]. rewrite Hb. cbn [bind]. binv H. rename v into row0.
    apply look_idx in Hb0. destruct (so_row _ _ Hb0) as (row' & Hr' & Hlen). apply look_idx in Hr'. rewrite Hr'. cbn [bind]. rewrite <- Hlen.
    set (ix := orNil (to_indexes (prepare X o))) in *. set (o1 := prepare X o) in *.
    binv H. rename v into b. pose proof (nodeValue_score _ _ _ _ _ Hb) as Hs0.
    destruct (fold_rel (to_xgb o1) _ _ _ (MkB s0 0 fzero) (MkB s0 0 fzero) _ ltac:(subst s0; split; [reflexivity|split; [reflexivity|left; split; reflexivity]]) Hb1) as (b' & Hf & HB).
    rewrite Hf. cbn [bind]. pose proof HB as (B1 & B2 & B3). rewrite <- B1, <- B2.
    destruct (leafScore (to_xgb o1) (b_score b)) eqn:EL.
    + injection H as <-. eexists. split; [reflexivity|]. split; [reflexivity|]. intros i row row'' _ _ _. cbn [agree]. unfold t_leaf.
      cbn [t_xgb t_best b_score t_split]. split; [reflexivity|]. split; [reflexivity|]. intros Hx. change (leafScore (to_xgb o1) (b_score b) = false) in Hx. rewrite EL in Hx. discriminate Hx.
    + binv H. rename v into col. destruct (column_rel _ _ _ Hb2) as [col' Hc']. rewrite Hc'. cbn [bind].
      apply column_Ok in Hb2 as [_ F1]. apply column_Ok in Hc' as [_ F2].
      rewrite (splitSamples_filter _ _ _ _ _ F1) in H. rewrite (splitSamples_filter _ _ _ _ _ F2).
      assert (HBl : forall j, In j ix -> below X (b_split b) (b_thr b) j = below X' (b_split b) (b_thr b') j).
      { destruct B3 as [[-> ->]|B3]; [rewrite leafScore_b0 in EL; discriminate|rewrite <- B2 in B3; exact B3]. }
      rewrite <- (filter_ext_in _ _ _ HBl). rewrite <- (filter_ext_in (fun i => negb (below X (b_split b) (b_thr b) i)) (fun i => negb (below X' (b_split b) (b_thr b') i)) ix).
      2: { intros j Hj. rewrite HBl; auto. }
      binv H. rename v into l. binv H. rename v into r. injection H as <-.
      destruct (IH _ _ Hb2) as (l' & Hl & El & Al). destruct (IH _ _ Hb3) as (r' & Hr & Er & Ar). rewrite Hl, Hr. cbn [bind].
      eexists. split; [reflexivity|]. split.
      { cbn [noThr t_samples t_best t_value t_nsamples t_split t_xgb t_branches].
        rewrite El, Er, (noThr_branches _ _ El), (noThr_branches _ _ Er). reflexivity. }
      intros i row row'' Hi Lr Lr'. cbn [agree t_split t_thr]. unfold t_leaf. cbn [t_xgb t_best].
      split; [reflexivity|]. split; [reflexivity|]. intros _. fold ix in Hi. pose proof (HBl i Hi) as HBi.
      apply In_nth_error in Hi as Hin. destruct Hin as [m Hm].
      destruct (Forall2_nth1 _ _ _ F1 _ _ Hm) as (v & _ & (rw & Rw & Vw)). destruct (Forall2_nth1 _ _ _ F2 _ _ Hm) as (v' & _ & (rw' & Rw' & Vw')).
      assert (rw = row) by (eapply look_fun; eauto). assert (rw' = row'') by (eapply look_fun; eauto). subst rw rw'.
      rewrite (cell_below X _ _ _ v), (cell_below X' _ _ _ v') in HBi by (eexists; eauto).
      exists v, v'. split; [apply look_idx; auto|]. split; [apply look_idx; auto|]. split; [exact HBi|].
      destruct (fleb v (b_thr b)) eqn:Ev.
      * apply (Al i); auto. cbn [childOpts prepare to_indexes orNil]. apply filter_In. split; [auto|]. rewrite (cell_below X _ _ _ v) by (eexists; eauto). exact Ev.
      * apply (Ar i); auto. cbn [childOpts prepare to_indexes orNil]. apply filter_In. split; [auto|]. rewrite (cell_below X _ _ _ v) by (eexists; eauto). rewrite Ev. reflexivity.
Qed.

Lemma tree_rel o t : NewTree E X o = Ok t -> exists t', NewTree E X' o = Ok t' /\ noThr t = noThr t' /\
  forall i row row', In i (initialSamples X o) -> look X i row -> look X' i row' -> exists v, PredictSingle t row = Ok v /\ PredictSingle t' row' = Ok v.
Proof.
  intros H. destruct (grow_rel _ _ _ H) as (t' & H' & HT & HA). exists t'. split; [exact H'|]. split; [exact HT|].
  intros i row row' Hi Hr Hr'. destruct (c02_lemma _ _ _ _ _ _ H Hi Hr) as (k & d & _ & _ & D3 & _). exists (t_value d).
  split; [exact D3|]. rewrite <- D3. symmetry. apply agree_predict; [exact HT|]. eapply HA; eauto.
Qed.

(** *** the ensemble *)
Lemma update_rel g h : forall t t' u, noThr t = noThr t' -> updateLeaves t g h = Ok u -> exists u', updateLeaves t' g h = Ok u' /\ noThr u = noThr u' /\
  forall row row', agree t t' row row' -> agree u u' row row'.
Proof.
  induction t as [|d l IHl r IHr]; intros [|d' l' r'] u HT H; try discriminate.
  cbn [noThr] in HT. injection HT as H1 H2 H3 H4 H5 H6 H7 HL HR.
  assert (HC : forall (c c' : tree) cu, (forall t' u, noThr c = noThr t' -> updateLeaves c g h = Ok u -> exists u', updateLeaves t' g h = Ok u' /\ noThr u = noThr u' /\
       forall row row', agree c t' row row' -> agree u u' row row') -> noThr c = noThr c' ->
     (match c with Nil => Ok Nil | Node _ _ _ => updateLeaves c g h end = Ok cu) ->
     exists cu', (match c' with Nil => Ok Nil | Node _ _ _ => updateLeaves c' g h end = Ok cu') /\ noThr cu = noThr cu' /\
       forall row row', agree c c' row row' -> agree cu cu' row row').
  { intros c c' cu IH HN' Hc. destruct c, c'; try discriminate; [injection Hc as <-; exists Nil; auto|]. eapply IH; eauto. }
  cbn [updateLeaves] in H |- *. binv H. destruct (HC l l' _ IHl HL Hb) as (lu' & Hl1 & Hl2 & Hl3). rewrite Hl1. cbn [bind].
  binv H. destruct (HC r r' _ IHr HR Hb0) as (ru' & Hr1 & Hr2 & Hr3). rewrite Hr1. cbn [bind].
  assert (HLf : t_leaf d = t_leaf d') by (unfold t_leaf; congruence). rewrite <- HLf. destruct (t_leaf d) eqn:EL.
  - rewrite <- H1. destruct (t_samples d) as [ix|]; [|discriminate]. binv H. rewrite Hb1. cbn [bind]. binv H. rewrite Hb2. cbn [bind].
    injection H as <-. eexists. split; [reflexivity|]. split.
    + cbn [noThr t_samples t_best t_value t_nsamples t_split t_xgb t_branches]. congruence.
    + intros row row' HA. cbn [agree] in HA |- *. destruct HA as (A1 & A2 & A3).
      unfold t_leaf in *. cbn [t_xgb t_best t_split t_thr] in *. rewrite EL in *. split; [auto|]. split; [auto|]. discriminate.
  - injection H as <-. eexists. split; [reflexivity|]. split.
    + cbn [noThr]. congruence.
    + intros row row' HA. cbn [agree] in HA |- *. destruct HA as (A1 & A2 & A3). split; [auto|]. split; [auto|]. intros Hf.
      destruct (A3 Hf) as (w & w' & W1 & W2 & W3 & W4). exists w, w'. do 3 (split; [auto|]). destruct (fleb w (t_thr d)); auto.
Qed.

Lemma predictLoop_rel t t' : forall data data', Forall2 (fun r r' => PredictSingle t r = PredictSingle t' r') data data' ->
  forall i preds, predictLoop t data i preds = predictLoop t' data' i preds.
Proof.
  intros data data' HF. induction HF as [|r r' data data' H HF IH]; intros i preds; [reflexivity|]. cbn [predictLoop]. rewrite H.
  destruct (PredictSingle t' r') as [p| |]; cbn [bind]; auto. destruct (upd preds i p); cbn [bind]; auto.
Qed.

Lemma classTree_rel O cols lab pr t : classTree E O X None cols lab pr = Ok t ->
  exists t', classTree E O X' None cols lab pr = Ok t' /\ noThr t = noThr t' /\ forall preds, Predict t X preds = Predict t' X' preds.
Proof.
  assert (HP : forall t t', noThr t = noThr t' -> (forall i row row', In i (iota (length X)) -> look X i row -> look X' i row' -> agree t t' row row') ->
     forall preds, Predict t X preds = Predict t' X' preds).
  { intros u u' HT HA preds. unfold Predict. rewrite so_len. apply predictLoop_rel. apply Forall2_nth_iff; [apply so_len|].
    intros i row row' Hr Hr'. apply agree_predict; auto. apply (HA (Z.of_nat i)).
    - apply iota_In. assert (i < length X)%nat by (apply nth_error_Some; congruence). lia.
    - split; [lia|]. rewrite Nat2Z.id. auto.
    - split; [lia|]. rewrite Nat2Z.id. auto. }
  unfold classTree. rewrite <- so_len. destruct (o_xgb O).
  - intros H. destruct (grow_rel _ _ _ H) as (t' & H' & HT & HA). exists t'. split; [exact H'|]. split; [exact HT|]. apply HP; auto.
  - intros H. binv H. destruct (grow_rel _ _ _ Hb) as (t' & H' & HT & HA).
    destruct (update_rel _ _ _ _ _ HT H) as (u' & U1 & U2 & U3). exists u'. unfold NewTree. rewrite H'. cbn [bind].
    split; [exact U1|]. split; [exact U2|]. apply HP; auto. intros. apply U3. eapply HA; eauto.
Qed.

Definition entRel (e e' : entryG) : Prop := g_class e = g_class e' /\ g_round e = g_round e' /\ noThr (g_tree e) = noThr (g_tree e') /\ g_loss e = g_loss e'.

Lemma classStep_rel O ohe cols rd st acc acc' k st1 acc1 : Forall2 entRel acc acc' ->
  classStep E O X ohe None cols rd (st, acc) k = Ok (st1, acc1) ->
  exists acc1', classStep E O X' ohe None cols rd (st, acc') k = Ok (st1, acc1') /\ Forall2 entRel acc1 acc1'.
Proof.
  intros HA H. unfold classStep in *. destruct (nth k (s_stopped st) false); [injection H as <- <-; eauto|].
  binv H. rewrite Hb. cbn [bind]. binv H. rewrite Hb0. cbn [bind]. binv H.
  destruct (classTree_rel _ _ _ _ _ Hb1) as (t' & T1 & T2 & T3). rewrite T1. cbn [bind]. rewrite <- T3.
  binv H. rewrite Hb2. cbn [bind]. binv H. rewrite Hb3. cbn [bind]. binv H. rewrite Hb4. cbn [bind]. binv H. rewrite Hb5. cbn [bind].
  injection H as <- <-. eexists. split; [reflexivity|]. apply Forall2_app; [auto|]. repeat constructor. exact T2.
Qed.
Lemma classes_rel O ohe cols rd ks : forall st acc acc' st1 acc1, Forall2 entRel acc acc' ->
  foldM (classStep E O X ohe None cols rd) (st, acc) ks = Ok (st1, acc1) ->
  exists acc1', foldM (classStep E O X' ohe None cols rd) (st, acc') ks = Ok (st1, acc1') /\ Forall2 entRel acc1 acc1'.
Proof.
  induction ks as [|k ks IH]; intros st acc acc' st1 acc1 HA H; cbn [foldM] in *; [injection H as <- <-; eauto|].
  binv H. destruct v as [st2 acc2]. destruct (classStep_rel _ _ _ _ _ _ _ _ _ _ HA Hb) as (acc2' & H2 & HA2). rewrite H2. cbn [bind]. eauto.
Qed.
Lemma roundSamples_rel O rd : roundSamples O X' rd = roundSamples O X rd.
Proof.
  unfold roundSamples. rewrite <- so_len. destruct (idx X 0) as [row| |] eqn:E0.
  - apply look_idx in E0. destruct (so_row _ _ E0) as (row' & R1 & R2). apply look_idx in R1. rewrite R1. cbn [bind]. rewrite <- R2. reflexivity.
  - destruct (idx X' 0) as [row'| |] eqn:E1; [|reflexivity|exfalso; eapply idx_not_Diverge; eauto].
    apply idx_Panic in E0. exfalso. apply E0. rewrite so_len. apply idx_range. eauto.
  - exfalso. eapply idx_not_Diverge; eauto.
Qed.
Lemma rounds_rel O ohe nl rnd rs : fltb (o_ss O) fone && o_xgb O = false -> forall st h h' st1 h1, Forall2 (Forall2 entRel) h h' ->
  foldM (roundStep E O X ohe nl rnd) (st, h) rs = Ok (st1, h1) ->
  exists h1', foldM (roundStep E O X' ohe nl rnd) (st, h') rs = Ok (st1, h1') /\ Forall2 (Forall2 entRel) h1 h1'.
Proof.
  intros HS. induction rs as [|r rs IH]; intros st h h' st1 h1 HA H; cbn [foldM] in *; [injection H as <- <-; eauto|].
  binv H. destruct v as [st2 h2].
  assert (HR : exists h2', roundStep E O X' ohe nl rnd (st, h') r = Ok (st2, h2') /\ Forall2 (Forall2 entRel) h2 h2').
  { unfold roundStep in *. rewrite roundSamples_rel. binv Hb. rewrite Hb0. cbn [bind]. destruct v as [ix cols].
    assert (ix = None).
    { unfold roundSamples in Hb0. rewrite HS in Hb0. cbn [bind] in Hb0. binv Hb0. congruence. }
    subst ix. destruct (Z.of_nat (length (orNil None)) <? o_minsample O); [injection Hb as <- <-; eauto|].
    binv Hb. destruct v as [st3 cl]. destruct (classes_rel _ _ _ _ _ _ _ [] _ _ ltac:(constructor) Hb1) as (cl' & C1 & C2). rewrite C1. cbn [bind].
    injection Hb as <- <-. eexists. split; [reflexivity|]. apply Forall2_app; auto. }
  destruct HR as (h2' & R1 & R2). rewrite R1. cbn [bind]. eauto.
Qed.
End Rel.

Lemma c101_ens_lemma {K K'} E rnd (D : DataBunch K) (D' : DataBunch K') O tr : EnvOk E -> sortsByComparison E ->
  goodTable (Data D) -> goodTable (Data D') -> sameOrder (Data D) (Data D') -> Labels D = Labels D' ->
  (o_xgb O = false \/ fltb (o_ss O) fone = false) -> NewMultiClass E rnd D O = Ok tr ->
  exists tr', NewMultiClass E rnd D' O = Ok tr' /\ tr_state tr' = tr_state tr /\ mc_labels (tr_model tr') = mc_labels (tr_model tr) /\
    map (map noThr) (mc_b (tr_model tr')) = map (map noThr) (mc_b (tr_model tr)).
Proof.
  intros HE HN HG HG' HO HL HS H. unfold NewMultiClass in *. rewrite <- HL. binv H. rewrite Hb. cbn [bind]. destruct v as [ohe labels].
  binv H. rewrite Hb0. cbn [bind]. binv H. rewrite Hb1. cbn [bind]. binv H. destruct v1 as [st hist].
  assert (HS' : fltb (o_ss (fixMCW O)) fone && o_xgb (fixMCW O) = false).
  { cbn [fixMCW o_ss o_xgb]. destruct HS as [->| ->]; [apply andb_false_r|reflexivity]. }
  destruct (rounds_rel E HE HN _ _ HG HG' HO _ _ _ _ _ HS' _ _ [] _ _ ltac:(constructor) Hb2) as (h' & R1 & R2). rewrite R1. cbn [bind].
  injection H as <-. eexists. split; [reflexivity|]. cbn [tr_state tr_model mc_labels mc_b]. split; [reflexivity|]. split; [reflexivity|].
  clear -R2. induction R2 as [|c c' h h' HC HF IH]; [reflexivity|]. cbn [map]. rewrite IH. f_equal.
  clear -HC. induction HC as [|e e' c c' (_ & _ & H & _) HF IH]; [reflexivity|]. cbn [map]. rewrite IH, H. reflexivity.
Qed.
