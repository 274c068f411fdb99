(** Confusion matrices: the matrix and its margins. *)
From Coq Require Import Ascii String.
From Verif Require Import Base F64 Env EnvLemmas Utils Tree Options Train Spec SpecTrain Text Confu SpecConfu TrainMore TrainThms.
From Coq Require Import List.
Open Scope Z_scope.

Lemma nth_ext_err {A} (l l' : list A) : (forall i, nth_error l i = nth_error l' i) -> l = l'.
Proof.
  revert l'; induction l as [|x l IH]; intros [|y l'] H; auto.
  - specialize (H O). discriminate H.
  - specialize (H O). discriminate H.
  - pose proof (H O) as H0. injection H0 as ->. f_equal. apply IH. intros i. exact (H (S i)).
Qed.

(** ** the label map *)
Lemma fillMap_out labels i m k : ~ In k labels -> mapGet (fillMap labels i m) k = mapGet m k.
Proof.
  revert i m; induction labels as [|v t IH]; intros i m H; cbn [fillMap]; auto.
  rewrite IH by (intros HH; apply H; right; auto). cbn [mapGet]. destruct (Z.eqb_spec v k) as [->|]; auto. exfalso. apply H. left; auto.
Qed.
Lemma fillMap_get labels : NoDup labels -> forall i m q l, nth_error labels q = Some l -> mapGet (fillMap labels i m) l = i + Z.of_nat q.
Proof.
  induction 1 as [|v t Hv HN IH]; intros i m q l Hq; [destruct q; discriminate Hq|]. cbn [fillMap]. destruct q as [|q].
  - injection Hq as <-. rewrite fillMap_out by auto. cbn [mapGet]. rewrite Z.eqb_refl. simpl. lia.
  - rewrite (IH _ _ q l Hq). lia.
Qed.

(** ** rows of the matrix *)
Section Rows.
Context (predicted labels : list Z) (m : list (Z * Z)) (n : nat).
Hypothesis HM : forall q l, nth_error labels q = Some l -> mapGet m l = Z.of_nat q.
Hypothesis HND : NoDup labels.
Hypothesis HP : forall p, In p predicted -> In p labels.
Let bump := fun row w => p <- idx predicted w ;; let k := mapGet m p in x <- idx row k ;; upd row k (x + 1).

Lemma countPairs_cons w a p rest v l : countPairs (w :: a) (p :: rest) v l = (if (w =? v) && (p =? l) then 1 else 0) + countPairs a rest v l.
Proof. unfold countPairs. cbn [combine filter fst snd]. destruct ((w =? v) && (p =? l)); cbn [length]; lia. Qed.
Lemma countPairs_none a v l rest : ~ In v a -> countPairs a rest v l = 0.
Proof.
  revert rest; induction a as [|w a IH]; intros [|p rest] H; auto. rewrite countPairs_cons, IH by (intros HH; apply H; right; auto).
  destruct (Z.eqb_spec w v) as [->|]; auto. exfalso. apply H. left; auto.
Qed.

Lemma row_spec v : forall actual rest j row, length row = length labels -> 0 <= j ->
  (forall i, nth_error predicted (Z.to_nat j + i) = nth_error rest i) ->
  (forall i, nth_error actual i = Some v -> (i < length rest)%nat) ->
  exists row', foldM bump row (positions actual v j) = Ok row' /\ length row' = length row /\
    forall q l x, nth_error labels q = Some l -> nth_error row q = Some x -> nth_error row' q = Some (x + countPairs actual rest v l).
Proof.
  induction actual as [|w a IH]; intros rest j row HL Hj Hr Hlt; cbn [positions].
  - exists row. cbn [foldM]. split; [auto|]. split; [auto|]. intros q l x _ Hx. unfold countPairs. simpl. rewrite Z.add_0_r. auto.
  - assert (Hr' : forall i, nth_error predicted (Z.to_nat (j + 1) + i) = nth_error (tl rest) i).
    { intros i. replace (Z.to_nat (j + 1) + i)%nat with (Z.to_nat j + S i)%nat by lia. rewrite Hr. destruct rest as [|x r]; [destruct i; auto|auto]. }
    assert (Hlt' : forall i, nth_error a i = Some v -> (i < length (tl rest))%nat).
    { intros i Hi. pose proof (Hlt (S i) Hi). destruct rest; simpl in *; lia. }
    destruct (Z.eqb_spec w v) as [->|Hne].
    + pose proof (Hlt O eq_refl) as H0. destruct rest as [|p rest]; [simpl in H0; lia|]. cbn [tl] in *.
      cbn [foldM]. unfold bump at 1. assert (Hip : idx predicted j = Ok p).
      { apply idx_Ok. split; auto. specialize (Hr O). rewrite Nat.add_0_r in Hr. exact Hr. }
      rewrite Hip. cbn [bind]. assert (HIn : In p labels) by (apply HP; apply idx_Ok in Hip as [_ Hip]; eapply nth_error_In; eauto).
      apply In_nth_error in HIn as [k Hk]. cbv zeta. rewrite (HM k p Hk).
      assert (Hkl : (k < length row)%nat) by (rewrite HL; apply nth_error_Some; congruence).
      destruct (nth_error row k) as [x|] eqn:Ex; [|apply nth_error_None in Ex; lia].
      assert (Hix : idx row (Z.of_nat k) = Ok x) by (apply idx_of_nat; auto). rewrite Hix. cbn [bind].
      assert (HU : upd row (Z.of_nat k) (x + 1) = Ok (upd_nat row k (x + 1))) by (apply upd_Ok; rewrite Nat2Z.id; split; [lia|auto]).
      rewrite HU. cbn [bind].
      destruct (IH rest (j + 1) (upd_nat row k (x + 1))) as (row' & HF & HL' & HC); auto; [rewrite upd_nat_length; auto|lia|].
      exists row'. split; [exact HF|]. split; [rewrite HL', upd_nat_length; auto|]. intros q l y Hl Hy. rewrite countPairs_cons, Z.eqb_refl. cbn [andb].
      destruct (Nat.eq_dec q k) as [->|Hqk].
      * assert (l = p) by congruence. assert (y = x) by congruence. subst l y. rewrite Z.eqb_refl.
        rewrite (HC k p (x + 1) Hl); [f_equal; lia|]. rewrite upd_nat_nth, Nat.eqb_refl.
        assert (E : Nat.ltb k (length row) = true) by (apply Nat.ltb_lt; auto). rewrite E. auto.
      * assert (Hpl : p <> l).
        { intros ->. apply Hqk. eapply (proj1 (NoDup_nth_error labels)); auto; [apply nth_error_Some; congruence|congruence]. }
        apply Z.eqb_neq in Hpl. rewrite Hpl. rewrite (HC q l y Hl); [f_equal; lia|].
        rewrite upd_nat_nth. apply Nat.eqb_neq in Hqk. rewrite Hqk. auto.
    + destruct (IH (tl rest) (j + 1) row) as (row' & HF & HL' & HC); auto; [lia|]. exists row'. split; [exact HF|]. split; [auto|].
      intros q l y Hl Hy. rewrite (HC q l y Hl Hy). f_equal. f_equal. destruct rest as [|p rest].
      * cbn [tl]. unfold countPairs. destruct a; auto.
      * rewrite countPairs_cons. apply Z.eqb_neq in Hne. rewrite Hne. cbn [andb]. simpl. lia.
Qed.
Lemma row_panic v : forall actual rest j row, length row = length labels -> 0 <= j ->
  (forall i, nth_error predicted (Z.to_nat j + i) = nth_error rest i) ->
  (exists i, nth_error actual i = Some v /\ (length rest <= i)%nat) -> foldM bump row (positions actual v j) = Panic.
Proof.
  induction actual as [|w a IH]; intros rest j row HL Hj Hr (i & Hi & Hlt); [destruct i; discriminate Hi|]. cbn [positions].
  assert (Hr' : forall i, nth_error predicted (Z.to_nat (j + 1) + i) = nth_error (tl rest) i).
  { intros k. replace (Z.to_nat (j + 1) + k)%nat with (Z.to_nat j + S k)%nat by lia. rewrite Hr. destruct rest as [|x r]; [destruct k; auto|auto]. }
  destruct rest as [|p rest].
  - destruct i as [|i].
    + injection Hi as ->. rewrite Z.eqb_refl. cbn [foldM]. unfold bump at 1. assert (HPn : idx predicted j = Panic).
      { apply idx_Panic. specialize (Hr O). rewrite Nat.add_0_r in Hr. simpl in Hr. apply nth_error_None in Hr. lia. }
      rewrite HPn. auto.
    + assert (HI : foldM bump row (positions a v (j + 1)) = Panic) by (apply (IH []); auto; [lia|exists i; simpl; split; [auto|lia]]).
      destruct (w =? v); [|auto]. cbn [foldM]. unfold bump at 1. assert (HPn : idx predicted j = Panic).
      { apply idx_Panic. specialize (Hr O). rewrite Nat.add_0_r in Hr. simpl in Hr. apply nth_error_None in Hr. lia. }
      rewrite HPn. auto.
  - destruct i as [|i]; [simpl in Hlt; lia|]. cbn [nth_error length] in *.
    assert (HEX : exists i, nth_error a i = Some v /\ (length rest <= i)%nat) by (exists i; split; [auto|lia]).
    destruct (w =? v); [|apply (IH rest); auto; lia]. cbn [foldM]. unfold bump at 1.
    assert (Hip : idx predicted j = Ok p).
    { apply idx_Ok. split; auto. specialize (Hr O). rewrite Nat.add_0_r in Hr. exact Hr. }
    rewrite Hip. cbn [bind]. assert (HIn : In p labels) by (apply HP; apply idx_Ok in Hip as [_ Hip]; eapply nth_error_In; eauto).
    apply In_nth_error in HIn as [k Hk]. cbv zeta. rewrite (HM k p Hk).
    assert (Hkl : (k < length row)%nat) by (rewrite HL; apply nth_error_Some; congruence).
    destruct (nth_error row k) as [x|] eqn:Ex; [|apply nth_error_None in Ex; lia].
    assert (Hix : idx row (Z.of_nat k) = Ok x) by (apply idx_of_nat; auto). rewrite Hix. cbn [bind].
    assert (HU : upd row (Z.of_nat k) (x + 1) = Ok (upd_nat row k (x + 1))) by (apply upd_Ok; rewrite Nat2Z.id; split; [lia|auto]).
    rewrite HU. cbn [bind]. apply (IH rest); auto; [rewrite upd_nat_length; auto|lia].
Qed.
End Rows.

(** ** a Confusions made by MCConfusions *)
Record made (C : Confusions) : Prop := {
  md_map : forall q l, nth_error (cf_labels C) q = Some l -> mapGet (cf_m C) l = Z.of_nat q;
  md_nodup : NoDup (cf_labels C);
  md_pred : forall p, In p (cf_predicted C) -> In p (cf_labels C);
  md_rows : forall i l, nth_error (cf_actual C) i = Some l -> In l (cf_labels C) -> (i < length (cf_predicted C))%nat
}.
Definition matrixOf (C : Confusions) : list (list Z) := map (countsFor (cf_labels C) (cf_actual C) (cf_predicted C)) (cf_labels C).
Lemma confRow_ok C v : made C -> In v (cf_labels C) -> confRow C v = Ok (countsFor (cf_labels C) (cf_actual C) (cf_predicted C) v).
Proof.
  intros HC Hv. unfold confRow.
  destruct (row_spec (cf_predicted C) (cf_labels C) (cf_m C) (md_map C HC) (md_nodup C HC) (md_pred C HC) v (cf_actual C) (cf_predicted C) 0
             (repeat 0 (length (cf_labels C)))) as (row' & HF & HL & HN); [apply repeat_length|lia|auto| |].
  - intros i Hi. apply (md_rows C HC i v); auto.
  - etransitivity; [exact HF|]. f_equal. apply nth_ext_err. intros q. unfold countsFor. rewrite nth_error_map.
    destruct (nth_error (cf_labels C) q) as [l|] eqn:El; cbn [option_map].
    + rewrite (HN q l 0 El); [auto|]. assert (q < length (cf_labels C))%nat by (apply nth_error_Some; congruence).
      rewrite nth_error_repeat by auto. auto.
    + apply nth_error_None in El. apply nth_error_None. rewrite HL, repeat_length. auto.
Qed.
Lemma mapM_all {A B} (f : A -> res B) (g : A -> B) l : (forall a, In a l -> f a = Ok (g a)) -> mapM f l = Ok (map g l).
Proof. intros H. apply mapM_Ok. induction l as [|a t IH]; constructor; [apply H; left; auto|]. apply IH. intros; apply H; right; auto. Qed.
Lemma rows_ok C : made C -> mapM (confRow C) (cf_labels C) = Ok (matrixOf C).
Proof. intros HC. apply mapM_all. intros v Hv. apply confRow_ok; auto. Qed.

Lemma MCConfusions_inv {K} M (D : DataBunch K) C : MCConfusions M D = Ok C ->
  cf_actual C = Labels D /\ cf_labels C = ClassLabels M /\ Forall2 (predictsLabel M) (Data D) (cf_predicted C) /\
  cf_matrix C = None /\ cf_tmpvals C = None /\ cf_tmpindx C = None /\ cf_m C = fillMap (ClassLabels M) 0 [].
Proof.
  unfold MCConfusions. intros H. apply bind_Ok in H as (ps & Hp & H). injection H as <-. simpl. repeat split; auto.
  apply mapM_Ok in Hp. induction Hp as [|v p rows ps H HF IH]; constructor; auto.
  apply bind_Ok in H as ((k & b) & Hk & H). exists k, [], b. split; [exact Hk|]. apply idx_Ok in H. exact H.
Qed.
Lemma F2_in {A B} (R : A -> B -> Prop) l l' b : Forall2 R l l' -> In b l' -> exists a, In a l /\ R a b.
Proof. induction 1 as [|x y l l' H HF IH]; intros Hb; [destruct Hb|]. destruct Hb as [<-|Hb]; [exists x; simpl; auto|]. destruct (IH Hb) as (a & Ha & HR). exists a. simpl. auto. Qed.
Lemma F2_len {A B} (R : A -> B -> Prop) l l' : Forall2 R l l' -> length l = length l'.
Proof. induction 1; simpl; auto. Qed.
Lemma preds_in M row l : predictsLabel M row l -> In l (ClassLabels M).
Proof. intros (k & b & b' & _ & Hl). unfold look in Hl. destruct Hl as [_ Hl]. eapply nth_error_In; eauto. Qed.

Lemma MC_made {K} M (D : DataBunch K) C : MCConfusions M D = Ok C -> NoDup (ClassLabels M) -> ~ knownBeyond M D -> made C.
Proof.
  intros HC HN HB. destruct (MCConfusions_inv M D C HC) as (Ha & Hl & HF & _ & _ & _ & Hm). split.
  - intros q l Hq. rewrite Hl in Hq. rewrite Hm. rewrite (fillMap_get _ HN 0 [] q l Hq). lia.
  - rewrite Hl. exact HN.
  - intros p Hp. rewrite Hl. destruct (F2_in _ _ _ _ HF Hp) as (row & _ & HR). eapply preds_in; eauto.
  - intros i l Hi Hin. rewrite Ha in Hi. rewrite Hl in Hin. rewrite <- (F2_len _ _ _ HF).
    destruct (Nat.lt_ge_cases i (length (Data D))); auto. exfalso. apply HB. exists i, l. auto.
Qed.

Lemma mapM_panic {A B} (f : A -> res B) l a : In a l -> f a = Panic -> (forall x, In x l -> f x <> Diverge) -> mapM f l = Panic.
Proof.
  induction l as [|x t IH]; intros Ha Hf HD; [destruct Ha|]. cbn [mapM]. destruct (f x) as [y| |] eqn:E; cbn [bind]; auto.
  - destruct Ha as [->|Ha]; [congruence|]. rewrite (IH Ha Hf); auto. intros z Hz. apply HD. right; auto.
  - exfalso. apply (HD x); [left; auto|auto].
Qed.

Lemma classic_rows (actual predicted : list Z) v :
  (forall i, nth_error actual i = Some v -> (i < length predicted)%nat) \/ exists i, nth_error actual i = Some v /\ (length predicted <= i)%nat.
Proof.
  destruct (in_dec Z.eq_dec v (skipn (length predicted) actual)) as [H|H].
  - right. apply In_nth_error in H as [k Hk]. exists (length predicted + k)%nat. split; [|lia].
    rewrite <- (firstn_skipn (length predicted) actual).
    assert (HL : (length predicted < length actual)%nat).
    { destruct (Nat.lt_ge_cases (length predicted) (length actual)); auto. rewrite skipn_all2 in Hk by auto. destruct k; discriminate Hk. }
    rewrite nth_error_app2; rewrite firstn_length_le by lia; [|lia]. replace (length predicted + k - length predicted)%nat with k by lia. auto.
  - left. intros i Hi. destruct (Nat.lt_ge_cases i (length predicted)) as [|Hge]; auto. exfalso. apply H.
    rewrite <- (firstn_skipn (length predicted) actual) in Hi.
    assert (HL : (i < length actual)%nat).
    { rewrite <- (firstn_skipn (length predicted) actual). apply nth_error_Some. congruence. }
    rewrite nth_error_app2 in Hi; rewrite firstn_length_le in * by lia; [eapply nth_error_In; eauto|lia].
Qed.

(** C72 *)
Theorem matrix_counts {K} M (D : DataBunch K) C : MCConfusions M D = Ok C -> NoDup (ClassLabels M) -> ~ knownBeyond M D ->
  exists preds m C', Forall2 (predictsLabel M) (Data D) preds /\ Matrix C = Ok (m, C') /\ Matrix C' = Ok (m, C') /\
  m = map (fun a => map (fun p => countPairs (Labels D) preds a p) (ClassLabels M)) (ClassLabels M).
Proof.
  intros HC HN HB. pose proof (MC_made M D C HC HN HB) as HMd. destruct (MCConfusions_inv M D C HC) as (Ha & Hl & HF & Hmx & _).
  exists (cf_predicted C), (matrixOf C), (setMatrix C (matrixOf C)). split; [exact HF|]. split; [unfold Matrix; rewrite Hmx, rows_ok by auto; auto|].
  split; [auto|]. unfold matrixOf, countsFor. rewrite Ha, Hl. auto.
Qed.
Theorem matrix_panics {K} M (D : DataBunch K) C : MCConfusions M D = Ok C -> NoDup (ClassLabels M) -> knownBeyond M D -> Matrix C = Panic.
Proof.
  intros HC HN (i & l & Hi & Hge & Hin). destruct (MCConfusions_inv M D C HC) as (Ha & Hl & HF & Hmx & _ & _ & Hm).
  assert (HM : forall q l, nth_error (cf_labels C) q = Some l -> mapGet (cf_m C) l = Z.of_nat q).
  { intros q x Hq. rewrite Hl in Hq. rewrite Hm. rewrite (fillMap_get _ HN 0 [] q x Hq). lia. }
  assert (HND : NoDup (cf_labels C)) by (rewrite Hl; auto).
  assert (HP : forall p, In p (cf_predicted C) -> In p (cf_labels C)).
  { intros p Hp. rewrite Hl. destruct (F2_in _ _ _ _ HF Hp) as (row & _ & HR). eapply preds_in; eauto. }
  unfold Matrix. rewrite Hmx. rewrite (mapM_panic (confRow C) (cf_labels C) l); auto.
  - rewrite Hl; auto.
  - unfold confRow. eapply row_panic; eauto; [apply repeat_length|lia|]. exists i. rewrite Ha. rewrite <- (F2_len _ _ _ HF). auto.
  - intros v Hv. unfold confRow. destruct (classic_rows (cf_actual C) (cf_predicted C) v) as [HY|HY].
    + destruct (row_spec (cf_predicted C) (cf_labels C) (cf_m C) HM HND HP v (cf_actual C) (cf_predicted C) 0
             (repeat 0 (length (cf_labels C)))) as (row' & HFd & _); [apply repeat_length|lia|auto|exact HY|]. intros HX. pose proof (eq_trans (eq_sym HX) HFd) as HD. discriminate HD.
    + intros HX. assert (HQ := row_panic (cf_predicted C) (cf_labels C) (cf_m C) HM HP v (cf_actual C) (cf_predicted C) 0
             (repeat 0 (length (cf_labels C))) (repeat_length _ _) (Z.le_refl 0) (fun i => eq_refl) HY).
      pose proof (eq_trans (eq_sym HX) HQ) as HD. discriminate HD.
Qed.

(** ** margins (C73) *)
Lemma sumZ_app a b : sumZ (a ++ b) = sumZ a + sumZ b.
Proof. unfold sumZ. induction a as [|x a IH]; simpl; [auto|]. rewrite IH. lia. Qed.
Lemma sumZ_add {A} (f g : A -> Z) l : sumZ (map (fun x => f x + g x) l) = sumZ (map f l) + sumZ (map g l).
Proof. unfold sumZ. induction l as [|x l IH]; simpl; [auto|]. rewrite IH. lia. Qed.
Lemma sumZ_zero {A} (f : A -> Z) l : (forall x, In x l -> f x = 0) -> sumZ (map f l) = 0.
Proof. unfold sumZ. induction l as [|x l IH]; simpl; intros H; [auto|]. rewrite H, IH by auto. auto. Qed.
Lemma sumZ_ext {A} (f g : A -> Z) l : (forall x, In x l -> f x = g x) -> sumZ (map f l) = sumZ (map g l).
Proof. intros H. f_equal. apply map_ext_in. exact H. Qed.
(** a label occurs once in the list of labels *)
Lemma sum_one labels x : NoDup labels -> In x labels -> sumZ (map (fun l => if x =? l then 1 else 0) labels) = 1.
Proof.
  induction 1 as [|v t Hv HN IH]; intros Hx; [destruct Hx|]. cbn [map]. unfold sumZ. cbn [fold_right]. fold (sumZ (map (fun l => if x =? l then 1 else 0) t)).
  destruct Hx as [<-|Hx].
  - rewrite Z.eqb_refl, sumZ_zero; [auto|]. intros l Hl. destruct (Z.eqb_spec v l) as [->|]; auto. tauto.
  - destruct (Z.eqb_spec x v) as [->|]; [tauto|]. rewrite IH by auto. auto.
Qed.
Definition known (labels l : list Z) : Prop := forall x, In x l -> In x labels.
Lemma row_sum labels actual preds v : NoDup labels -> known labels preds ->
  sumZ (countsFor labels actual preds v) = Z.of_nat (length (filter (fun x => fst x =? v) (combine actual preds))).
Proof.
  intros HN. unfold countsFor. revert preds; induction actual as [|w a IH]; intros preds HK.
  - rewrite sumZ_zero; auto.
  - destruct preds as [|p preds]; [rewrite sumZ_zero; auto|].
    rewrite (sumZ_ext _ (fun l => (if (w =? v) && (p =? l) then 1 else 0) + countPairs a preds v l)) by (intros; apply countPairs_cons).
    rewrite sumZ_add, (IH preds) by (intros x Hx; apply HK; right; auto). cbn [combine filter fst]. destruct (w =? v); cbn [andb].
    + rewrite sum_one by (auto; apply HK; left; auto). cbn [length]. lia.
    + rewrite sumZ_zero; auto.
Qed.
Lemma filter_count (actual preds : list Z) v : (forall i, nth_error actual i = Some v -> (i < length preds)%nat) ->
  Z.of_nat (length (filter (fun x => fst x =? v) (combine actual preds))) = count actual v.
Proof.
  unfold count. revert preds; induction actual as [|w a IH]; intros preds H; [auto|]. destruct preds as [|p preds].
  - cbn [combine filter length]. destruct (count_occ Z.eq_dec (w :: a) v) eqn:E; [auto|].
    assert (HI : In v (w :: a)) by (apply (count_occ_In Z.eq_dec); lia). apply In_nth_error in HI as [i Hi]. specialize (H i Hi). simpl in H. lia.
  - cbn [combine filter fst count_occ]. assert (H' : forall i, nth_error a i = Some v -> (i < length preds)%nat) by (intros i Hi; specialize (H (S i) Hi); simpl in H; lia).
    specialize (IH preds H'). destruct (Z.eqb_spec w v), (Z.eq_dec w v); try contradiction; cbn [length]; lia.
Qed.
Lemma total_count labels actual : NoDup labels -> known labels actual -> sumZ (map (count actual) labels) = Z.of_nat (length actual).
Proof.
  intros HN. unfold count. induction actual as [|w a IH]; intros HK.
  - rewrite sumZ_zero; auto.
  - rewrite (sumZ_ext _ (fun l => (if w =? l then 1 else 0) + Z.of_nat (count_occ Z.eq_dec a l))).
    + rewrite sumZ_add, IH, sum_one by (auto; intros x Hx; apply HK; right; auto) || (apply HK; left; auto). cbn [length]. lia.
    + intros l _. cbn [count_occ]. destruct (Z.eqb_spec w l), (Z.eq_dec w l); try contradiction; lia.
Qed.
Lemma diag_right labels actual preds : NoDup labels -> known labels preds ->
  sumZ (map (fun l => countPairs actual preds l l) labels) = Z.of_nat (length (filter (fun p => fst p =? snd p) (combine preds actual))).
Proof.
  intros HN. revert preds; induction actual as [|w a IH]; intros preds HK.
  - rewrite sumZ_zero; [|auto]. destruct preds; auto.
  - destruct preds as [|p preds]; [rewrite sumZ_zero; auto|].
    rewrite (sumZ_ext _ (fun l => (if (p =? w) then (if p =? l then 1 else 0) else 0) + countPairs a preds l l)).
    + rewrite sumZ_add, (IH preds) by (intros x Hx; apply HK; right; auto). cbn [combine filter fst snd]. destruct (p =? w).
      * rewrite sum_one by (auto; apply HK; left; auto). cbn [length]. lia.
      * rewrite sumZ_zero; auto.
    + intros l _. rewrite countPairs_cons. f_equal. destruct (Z.eqb_spec w l), (Z.eqb_spec p l), (Z.eqb_spec p w); subst; simpl; auto; congruence.
Qed.
Lemma diagonal_of labels (f : Z -> Z -> Z) : diagonal (map (fun a => map (f a) labels) labels) = map (fun l => f l l) labels.
Proof.
  unfold diagonal. rewrite map_length. apply nth_ext_err. intros i. rewrite !nth_error_map.
  destruct (nth_error labels i) as [l|] eqn:E.
  - assert (Hi : (i < length labels)%nat) by (apply nth_error_Some; congruence).
    rewrite (nth_error_nth' (seq 0 (length labels)) O) by (rewrite seq_length; auto). rewrite seq_nth by auto. cbn [option_map plus]. f_equal.
    erewrite (nth_error_nth (map (fun a => map (f a) labels) labels)); [|rewrite nth_error_map, E; reflexivity].
    erewrite nth_error_nth; [|rewrite nth_error_map, E; reflexivity]. auto.
  - assert (HN : nth_error (seq 0 (length labels)) i = None) by (apply nth_error_None; rewrite seq_length; apply nth_error_None; auto). rewrite HN. auto.
Qed.
Lemma known_preds {K} M (D : DataBunch K) preds : Forall2 (predictsLabel M) (Data D) preds -> known (ClassLabels M) preds.
Proof. intros HF x Hx. destruct (F2_in _ _ _ _ HF Hx) as (row & _ & HR). eapply preds_in; eauto. Qed.
Lemma predicts_fun M row l l' : predictsLabel M row l -> predictsLabel M row l' -> l = l'.
Proof.
  intros (k & b & b' & H & _ & Hl) (k2 & b2 & b2' & H2 & _ & Hl2). pose proof (PredictSingleClass_bufs M row b b2) as HB. rewrite H, H2 in HB.
  destruct HB as (<- & _). congruence.
Qed.
Lemma predicts_list M rows ps ps' : Forall2 (predictsLabel M) rows ps -> Forall2 (predictsLabel M) rows ps' -> ps = ps'.
Proof.
  intros H; revert ps'; induction H as [|r p rows ps H HF IH]; intros ps' H'; inversion H'; subst; auto. f_equal; [eapply predicts_fun; eauto|auto].
Qed.
Theorem matrix_margins {K} M (D : DataBunch K) C m C' : MCConfusions M D = Ok C -> NoDup (ClassLabels M) -> Matrix C = Ok (m, C') ->
  map sumZ m = map (count (Labels D)) (ClassLabels M) /\
  (known (ClassLabels M) (Labels D) -> sumZ (map sumZ m) = Z.of_nat (length (Labels D))) /\
  (forall a, Accuracy M D = Ok a -> a = fmul (fofZ 100) (fdiv (fofZ (sumZ (diagonal m))) (fofZ (Z.of_nat (length (Data D)))))).
Proof.
  intros HC HN Hm.
  assert (HB : ~ knownBeyond M D) by (intros HB; rewrite (matrix_panics M D C HC HN HB) in Hm; discriminate Hm).
  destruct (matrix_counts M D C HC HN HB) as (preds & m' & C2 & HF & Hm' & _ & Em). rewrite Hm in Hm'. injection Hm' as <- _. subst m.
  pose proof (known_preds M D preds HF) as HK.
  assert (HR : map sumZ (map (fun a => map (fun p => countPairs (Labels D) preds a p) (ClassLabels M)) (ClassLabels M)) = map (count (Labels D)) (ClassLabels M)).
  { rewrite map_map. apply map_ext_in. intros v Hv. pose proof (row_sum (ClassLabels M) (Labels D) preds v HN HK) as HS. unfold countsFor in HS.
    etransitivity; [exact HS|]. apply filter_count. intros i Hi. rewrite <- (F2_len _ _ _ HF).
    destruct (Nat.lt_ge_cases i (length (Data D))); auto. exfalso. apply HB. exists i, v. auto. }
  split; [exact HR|]. split.
  - intros HKl. rewrite HR. apply total_count; auto.
  - intros a Ha. destruct (c37_lemma M D a Ha) as (ps & HFp & _ & Hr & _). rewrite Hr.
    rewrite (predicts_list M (Data D) ps preds HFp HF). rewrite diagonal_of, diag_right by auto. auto.
Qed.

(** ** top positions (C74) *)
Lemma idxLess_swo l : swo idxLess l.
Proof.
  unfold idxLess. split; [|split].
  - intros a _. apply Z.ltb_irrefl.
  - intros a b c _ _ _ H1 H2. apply Z.ltb_lt in H1, H2. apply Z.ltb_lt. lia.
  - intros a b c _ _ _ H1 H2. apply Z.ltb_ge in H1, H2. apply Z.ltb_ge. lia.
Qed.
Lemma combine_iota_in (row : list Z) q x : In (q, x) (combine (iota (length row)) row) <-> idx row q = Ok x.
Proof.
  assert (HC : forall s, In (q, x) (combine (map Z.of_nat (seq s (length row))) row) <-> (Z.of_nat s <= q /\ nth_error row (Z.to_nat q - s) = Some x)).
  { induction row as [|y row IH]; intros s; cbn [length seq map combine].
    - split; [intros []|]. intros [_ H]. destruct (Z.to_nat q - s)%nat; discriminate H.
    - cbn [In]. rewrite IH. split.
      + intros [[= <- <-]|[H1 H2]]; [rewrite Nat2Z.id, Nat.sub_diag; split; [lia|auto]|]. split; [lia|].
        replace (Z.to_nat q - s)%nat with (S (Z.to_nat q - S s)) by lia. auto.
      + intros [H1 H2]. destruct (Z.eq_dec q (Z.of_nat s)) as [->|Hne].
        * left. rewrite Nat2Z.id, Nat.sub_diag in H2. injection H2 as ->. auto.
        * right. split; [lia|]. replace (Z.to_nat q - s)%nat with (S (Z.to_nat q - S s)) in H2 by lia. auto. }
  unfold iota. rewrite HC, idx_Ok, Nat.sub_0_r. simpl. tauto.
Qed.
Lemma map_fst_combine {A B} (l : list A) (l' : list B) : length l = length l' -> map fst (combine l l') = l.
Proof. revert l'; induction l as [|x l IH]; intros [|y l'] H; try discriminate H; simpl; f_equal; auto. Qed.
Lemma nth_error_rev {A} (l : list A) i x : nth_error (rev l) i = Some x -> nth_error l (length l - S i) = Some x /\ (i < length l)%nat.
Proof.
  intros H. assert (Hi : (i < length l)%nat) by (rewrite <- rev_length; apply nth_error_Some; congruence). split; auto.
  rewrite (nth_error_nth' _ x) in H by (rewrite rev_length; auto). rewrite rev_nth in H by auto. injection H as H. transitivity (Some (nth (length l - S i) l x)); [|congruence].
  apply nth_error_nth'. lia.
Qed.
Lemma nth_error_cut {A} (l : list A) n i x : nth_error (firstn n l) i = Some x -> nth_error l i = Some x /\ (i < n)%nat.
Proof.
  intros H. assert (Hi : (i < length (firstn n l))%nat) by (apply nth_error_Some; congruence). rewrite firstn_length in Hi. split; [|lia].
  rewrite <- (firstn_skipn n l), nth_error_app1 by (rewrite firstn_length; lia). auto.
Qed.
Lemma NoDup_firstn {A} n (l : list A) : NoDup l -> NoDup (firstn n l).
Proof.
  revert n; induction l as [|x l IH]; intros [|n] H; cbn [firstn]; try constructor; inversion H; subst; auto.
  intros Hx. match goal with HH : ~ In x l |- _ => apply HH end. rewrite <- (firstn_skipn n l). apply in_app_iff. auto.
Qed.
Lemma top_sorted E row n : EnvOk E -> let '(si, sv) := memIntSort E row in topOf row n (firstn n (rev si)) (firstn n (rev sv)).
Proof.
  intros HE. unfold memIntSort. set (s := e_sort E (Z * Z) idxLess (combine (iota (length row)) row)).
  assert (HP : Permutation (combine (iota (length row)) row) s) by (apply ok_sort_perm; auto).
  assert (HI : no_inversion idxLess s) by (apply ok_sort_sorted; [auto|apply idxLess_swo]).
  assert (HLi : length (iota (length row)) = length row) by (unfold iota; rewrite map_length, seq_length; auto).
  assert (HLs : length s = length row) by (rewrite <- (Permutation_length HP), combine_length; lia).
  assert (HS : forall q x, In (q, x) s <-> idx row q = Ok x).
  { intros q x. rewrite <- combine_iota_in. split; apply Permutation_in; auto using Permutation_sym. }
  rewrite <- !map_rev, !firstn_map. set (t := firstn n (rev s)).
  assert (Ht : forall i p, nth_error t i = Some p -> nth_error (rev s) i = Some p /\ (i < n)%nat) by (intros i p; apply nth_error_cut).
  assert (Hord : forall i j a b, (i < j)%nat -> nth_error (rev s) i = Some a -> nth_error (rev s) j = Some b -> snd b <= snd a).
  { intros i j a b Hij Ha Hb. apply nth_error_rev in Ha as [Ha Ha'], Hb as [Hb Hb'].
    assert (HX : idxLess a b = false) by (apply (HI (length s - S j)%nat (length s - S i)%nat); auto; lia).
    unfold idxLess in HX. apply Z.ltb_ge in HX. lia. }
  split; [|split; [|split; [|split]]].
  - rewrite map_length. unfold t. rewrite firstn_length, rev_length. lia.
  - assert (HNd : NoDup (map fst (rev s))).
    { apply (Permutation_NoDup (l := iota (length row))); [|unfold iota; apply FinFun.Injective_map_NoDup; [exact Nat2Z.inj|apply seq_NoDup]].
      rewrite <- (map_fst_combine (iota (length row)) row) by auto. apply Permutation_map. rewrite HP. apply Permutation_rev. }
    unfold t. rewrite <- firstn_map. apply NoDup_firstn. exact HNd.
  - assert (HT : forall p, In p t -> idx row (fst p) = Ok (snd p)).
    { intros [q x] Hp. apply HS. apply in_rev. unfold t in Hp. rewrite <- (firstn_skipn n (rev s)). apply in_app_iff. auto. }
    clear -HT. induction t as [|p t IH]; cbn [map]; constructor; [apply HT; left; auto|]. apply IH. intros; apply HT; right; auto.
  - intros i j a b Hij Ha Hb. rewrite nth_error_map in Ha, Hb. destruct (nth_error t i) as [pa|] eqn:Ea; [|discriminate Ha].
    destruct (nth_error t j) as [pb|] eqn:Eb; [|discriminate Hb]. injection Ha as <-. injection Hb as <-. apply Ht in Ea as [Ea _], Eb as [Eb _].
    eapply Hord; eauto.
  - intros q x Hq Hn c Hc. apply HS in Hq. apply in_rev in Hq. rewrite <- (firstn_skipn n (rev s)) in Hq. apply in_app_iff in Hq as [Hq|Hq].
    + exfalso. apply Hn. apply in_map_iff. exists (q, x). auto.
    + apply in_map_iff in Hc as ([q' c'] & <- & Hc). apply In_nth_error in Hq as [j Hj], Hc as [i Hi]. apply Ht in Hi as [Hi Hin].
      assert (Hlen : (n <= length (rev s))%nat).
      { destruct (Nat.le_gt_cases n (length (rev s))); auto. rewrite skipn_all2 in Hj by lia. destruct j; discriminate Hj. }
      apply (Hord i (n + j)%nat (q', c') (q, x)); auto; [lia|].
      rewrite <- (firstn_skipn n (rev s)), nth_error_app2; rewrite firstn_length_le by auto; [|lia]. replace (n + j - n)%nat with j by lia. auto.
Qed.
