(** Proof support for the properties of the utils package (C18-C22, C80). *)
From Verif Require Import Base F64 F64Lemmas Env EnvLemmas Utils Tree Spec UtilsProofs TreeThms Examples.
Open Scope Z_scope.

Lemma nth_firstn {A} (l : list A) n k : (n < k)%nat -> nth_error (firstn k l) n = nth_error l n.
Proof.
  revert n k; induction l as [|x l IH]; intros [|n] [|k] H; simpl; auto; try lia. apply IH. lia.
Qed.
Lemma nth_skipn {A} (l : list A) n k : nth_error (skipn k l) n = nth_error l (k + n).
Proof.
  revert k; induction l as [|x l IH]; intros [|k]; simpl; auto. destruct n; auto.
Qed.

(** ** C18 *)
Lemma c18_lemma E a : EnvOk E ->
  let '(ix, v) := ArgSort E a in
  Permutation ix (iota (length a)) /\ Forall2 (look a) ix v /\
  ((forall x, In x a -> fnanb x = false) ->
     forall i j x y, (i <= j)%nat -> nth_error v i = Some x -> nth_error v j = Some y -> fleb x y = true) /\
  (forall bi bv, length bi = length a -> length bv = length a -> MemArgSort E a bi bv = Ok (ix, v)).
Proof.
  intros HE. destruct (ArgSort E a) as [ix v] eqn:Ea. split; [|split; [|split]].
  - pose proof (ArgSort_perm E HE a) as H. rewrite Ea in H. apply Permutation_sym. exact H.
  - pose proof (ArgSort_look E HE a) as H. rewrite Ea in H. exact H.
  - intros HN. pose proof (ArgSort_sorted E HE a HN) as H. rewrite Ea in H. exact H.
  - intros bi bv H1 H2. rewrite <- Ea. apply MemArgSort_ArgSort; auto.
Qed.

(** ** C19 *)
Lemma c19_slice_lemma {A} (s : list A) ix :
  (forall r, SampleSlice s ix = Ok r <-> (length ix <= length s)%nat /\ Forall2 (look s) ix r) /\
  (SampleSlice s ix = Panic <-> (length s < length ix)%nat \/ exists v, In v ix /\ ~ 0 <= v < Z.of_nat (length s)) /\
  SampleSlice s ix <> Diverge.
Proof.
  split; [intros r; apply SampleSlice_Ok|]. split; [apply SampleSlice_Panic|apply SampleSlice_not_Diverge].
Qed.
Lemma c19_matrix_lemma {A} (m : list (list A)) rs cs r :
  SampleMatrix m rs cs = Ok r <->
  Forall2 (fun v out => exists row, look m v row /\ (length cs <= length row)%nat /\ Forall2 (look row) cs out) rs r.
Proof. apply SampleMatrix_Ok. Qed.

(** ** C20 *)
Lemma transpose_ex {A} (m : list (list A)) r0 rest c : m = r0 :: rest -> rect m c ->
  exists t, TransposeFloats m = Ok t /\ length t = c /\ rect t (length m) /\
  forall i j tr mr, nth_error t i = Some tr -> nth_error m j = Some mr -> nth_error tr j = nth_error mr i.
Proof.
  intros Hm HR.
  assert (H0 : length r0 = c) by (apply HR; subst; left; auto).
  assert (HT : exists t, TransposeFloats m = Ok t).
  { rewrite Hm. unfold TransposeFloats. rewrite <- Hm. apply mapM_all_Ok. intros i Hi. apply mapM_all_Ok. intros row Hrow.
    apply idx_range. apply iota_In in Hi. rewrite (HR _ Hrow). lia. }
  destruct HT as [t HT]. exists t. split; [auto|].
  destruct (TransposeFloats_Ok _ _ HT) as (r0' & rest' & E & HL & HN).
  rewrite Hm in E. injection E as <- <-. split; [lia|]. split.
  - intros row Hrow. apply In_nth_error in Hrow as [i Hi]. specialize (HN _ _ Hi). symmetry. eapply Forall2_len; eauto.
  - intros i j tr mr Ht Hmr. specialize (HN _ _ Ht).
    destruct (Forall2_nth1 _ _ _ HN j mr Hmr) as (x & Hx & Hy). congruence.
Qed.

Lemma list_ext {A} (l l' : list A) : (forall n, nth_error l n = nth_error l' n) -> l = l'.
Proof.
  revert l'; induction l as [|x l IH]; intros [|y l'] H; auto.
  - specialize (H O); discriminate.
  - specialize (H O); discriminate.
  - pose proof (H O) as H0. injection H0 as ->. f_equal. apply IH. intros n. apply (H (S n)).
Qed.

Lemma c20_lemma {A} (m : list (list A)) c : m <> [] -> rect m c -> (0 < c)%nat ->
  exists t, TransposeFloats m = Ok t /\ length t = c /\ rect t (length m) /\
  (forall i j x, cell m j i x <-> cell t i j x) /\
  TransposeFloats t = Ok m.
Proof.
  intros Hne HR Hc. destruct m as [|r0 rest] eqn:Em; [congruence|]. rewrite <- Em in *.
  destruct (transpose_ex m r0 rest c Em HR) as (t & HT & HL & HRt & HN).
  exists t. do 3 (split; [assumption|]). split.
  - intros i j x. split.
    + intros (row & [Hj Hrow] & [Hi Hx]).
      assert (Hlt : (Z.to_nat i < length t)%nat).
      { rewrite HL. rewrite <- (HR row) by (eapply nth_error_In; eauto). apply nth_error_Some. congruence. }
      destruct (nth_error t (Z.to_nat i)) as [tr|] eqn:Et; [|apply nth_error_None in Et; lia].
      exists tr. split; [split; auto|]. split; auto. rewrite (HN _ _ _ _ Et Hrow). exact Hx.
    + intros (tr & [Hi Htr] & [Hj Hx]).
      assert (Hlt : (Z.to_nat j < length m)%nat).
      { rewrite <- (HRt tr) by (eapply nth_error_In; eauto). apply nth_error_Some. congruence. }
      destruct (nth_error m (Z.to_nat j)) as [row|] eqn:Er; [|apply nth_error_None in Er; lia].
      exists row. split; [split; auto|]. split; auto. rewrite <- (HN _ _ _ _ Htr Er). exact Hx.
  - destruct t as [|t0 trest] eqn:Et; [simpl in HL; lia|]. rewrite <- Et in *.
    destruct (transpose_ex t t0 trest (length m) Et HRt) as (m' & HT' & HL' & HRm & HN').
    rewrite HT'. f_equal. apply list_ext. intros j.
    destruct (nth_error m j) as [row|] eqn:Er.
    + assert (Hj : (j < length m)%nat) by (apply nth_error_Some; congruence).
      destruct (nth_error m' j) as [row'|] eqn:Er'; [|apply nth_error_None in Er'; lia].
      f_equal. apply list_ext. intros i.
      destruct (nth_error t i) as [tr|] eqn:Etr.
      * rewrite (HN' _ _ _ _ Er' Etr). apply (HN _ _ _ _ Etr Er).
      * apply nth_error_None in Etr. rewrite HL in Etr.
        assert (length row = c) by (apply HR; eapply nth_error_In; eauto).
        assert (length row' = c) by (rewrite (HRm row') by (eapply nth_error_In; eauto); lia).
        transitivity (@None A); [|symmetry]; apply nth_error_None; lia.
    + apply nth_error_None in Er. apply nth_error_None. lia.
Qed.

Lemma c20_panic_lemma {A} (m : list (list A)) :
  (m = [] -> TransposeFloats m = Panic) /\
  (forall r0 rest row, m = r0 :: rest -> In row m -> (length row < length r0)%nat -> TransposeFloats m = Panic).
Proof.
  split; [intros ->; reflexivity|]. intros r0 rest row Hm Hrow Hlt. rewrite Hm. unfold TransposeFloats. rewrite <- Hm.
  assert (HD : forall i, mapM (fun r => idx r i) m <> Diverge).
  { intros i. clear. induction m as [|r m IH]; simpl; [congruence|].
    destruct (idx r i) eqn:Er; simpl; try congruence.
    - destruct (mapM _ m); simpl; congruence.
    - exfalso; eapply idx_not_Diverge; eauto. }
  apply mapM_Panic_ex; [intros; apply HD|].
  exists (Z.of_nat (length row)). split; [apply iota_In; lia|].
  apply mapM_Panic_ex; [intros; apply idx_not_Diverge|]. exists row. split; auto.
  apply idx_Panic. lia.
Qed.

(** ** C21 *)
(** entry (i,j) of a matrix *)
Lemma steps_from_spec n : forall fuel start step len, (n <= fuel)%nat -> 0 < step ->
  (forall i, (i < n)%nat -> start + Z.of_nat i * step < len) -> len <= start + Z.of_nat n * step ->
  steps_from fuel start step len = map (fun i => start + Z.of_nat i * step) (seq 0 n).
Proof.
  induction n as [|n IH]; intros fuel start step len Hf Hs H1 H2.
  - destruct fuel as [|f]; [reflexivity|]. cbn [steps_from]. destruct (Z.ltb_spec start len); [lia|reflexivity].
  - destruct fuel as [|f]; [lia|]. cbn [steps_from]. destruct (Z.ltb_spec start len) as [_|Hge].
    + rewrite (IH f (start + step) step len); [|lia|lia| |lia].
      * cbn [seq map]. rewrite <- seq_shift, map_map. f_equal; [lia|]. apply map_ext. intros i. lia.
      * intros i Hi. specialize (H1 (S i)). lia.
    + specialize (H1 O). lia.
Qed.

Lemma strided_spec D col : wfDense D -> (col <= d_c D)%nat ->
  strided col (d_c D) (length (d_data D)) =
  map (fun i => Z.of_nat (i * d_c D + col)) (seq 0 (if Nat.ltb col (d_c D) then d_r D else d_r D - 1)).
Proof.
  intros (Hr & Hc & HL) Hcol. unfold strided. rewrite HL.
  set (n := if Nat.ltb col (d_c D) then d_r D else (d_r D - 1)%nat).
  rewrite (steps_from_spec n).
  - apply map_ext. intros i. nia.
  - subst n. destruct (Nat.ltb_spec col (d_c D)); nia.
  - lia.
  - intros i Hi. subst n. destruct (Nat.ltb_spec col (d_c D)); nia.
  - subst n. destruct (Nat.ltb_spec col (d_c D)); nia.
Qed.

Lemma Forall2_map_seq {B} (P : nat -> B -> Prop) s n l :
  Forall2 P (seq s n) l -> length l = n /\ forall i v, nth_error l i = Some v -> P (s + i)%nat v.
Proof.
  revert s l; induction n as [|n IH]; intros s l H; simpl in H.
  - inversion H. split; auto. intros [|i] v; discriminate.
  - inversion H as [|x y t l' H1 H2]; subst. apply IH in H2 as [H2 H3]. split; [simpl; lia|].
    intros [|i] v Hv; simpl in Hv.
    + injection Hv as <-. rewrite Nat.add_0_r. auto.
    + apply H3 in Hv. replace (s + S i)%nat with (S s + i)%nat by lia. auto.
Qed.
Lemma Forall2_map_l {A B C} (P : B -> C -> Prop) (f : A -> B) l l' :
  Forall2 P (map f l) l' <-> Forall2 (fun a c => P (f a) c) l l'.
Proof.
  revert l'; induction l as [|x l IH]; intros l'; simpl; split; intros H; inversion H; subst; constructor; auto; apply IH; auto.
Qed.

Lemma DenseCol_gen D col : wfDense D -> (col <= d_c D)%nat ->
  let n := if Nat.ltb col (d_c D) then d_r D else (d_r D - 1)%nat in
  exists l, mapM (fun i => idx (d_data D) i) (strided col (d_c D) (length (d_data D))) = Ok l /\
  length l = n /\ forall i v, nth_error l i = Some v -> nth_error (d_data D) (i * d_c D + col) = Some v.
Proof.
  intros HW Hcol n. rewrite strided_spec by auto. fold n.
  assert (HB : forall i, (i < n)%nat -> (i * d_c D + col < length (d_data D))%nat).
  { intros i Hi. destruct HW as (Hr & Hc & HL). rewrite HL. subst n. destruct (Nat.ltb_spec col (d_c D)); nia. }
  destruct (mapM_all_Ok (fun i => idx (d_data D) i) (map (fun i => Z.of_nat (i * d_c D + col)) (seq 0 n))) as [l Hl].
  { intros a Ha. apply in_map_iff in Ha as (i & <- & Hi). apply in_seq in Hi. apply idx_range. specialize (HB i). lia. }
  exists l. split; [exact Hl|]. apply mapM_Ok in Hl. apply Forall2_map_l in Hl. apply Forall2_map_seq in Hl as [H1 H2].
  split; [auto|]. intros i v Hv. apply H2 in Hv. apply idx_of_nat in Hv. exact Hv.
Qed.

Lemma c21_densecol_lemma D : wfDense D ->
  (forall col, (col < d_c D)%nat -> exists l, DenseCol D (Z.of_nat col) = Ok l /\ length l = d_r D /\
     forall i v, nth_error l i = Some v <-> (i < d_r D)%nat /\ entry D i col v) /\
  (forall col, col < 0 \/ Z.of_nat (d_c D) < col -> DenseCol D col = Panic) /\
  (* the off-by-one in the guard *)
  (d_r D = 1%nat -> DenseCol D (Z.of_nat (d_c D)) = Panic) /\
  ((1 < d_r D)%nat -> exists l, DenseCol D (Z.of_nat (d_c D)) = Ok l /\ length l = (d_r D - 1)%nat /\
     forall i v, nth_error l i = Some v <-> (S i < d_r D)%nat /\ entry D (S i) 0 v).
Proof.
  intros HW. pose proof HW as (Hr & Hc & HL). split; [|split; [|split]].
  - intros col Hcol. destruct (DenseCol_gen D col HW) as (l & H1 & H2 & H3); [lia|].
    destruct (Nat.ltb_spec col (d_c D)) as [_|]; [|lia].
    exists l. unfold DenseCol. destruct (Z.ltb_spec (Z.of_nat (d_c D)) (Z.of_nat col)); [lia|].
    destruct (Z.ltb_spec (Z.of_nat col) 0); [lia|]. simpl. rewrite Nat2Z.id, H1. simpl.
    destruct l as [|x l']; [simpl in H2; lia|]. split; [auto|]. split; [auto|]. intros i v. split.
    + intros Hv. assert (i < length (x :: l'))%nat by (apply nth_error_Some; congruence).
      split; [lia|]. split; auto.
    + intros (Hi & _ & He). rewrite <- H2 in Hi. destruct (nth_error (x :: l') i) as [w|] eqn:Ew.
      * apply H3 in Ew. congruence.
      * apply nth_error_None in Ew. lia.
  - intros col H. unfold DenseCol. destruct (Z.ltb_spec (Z.of_nat (d_c D)) col), (Z.ltb_spec col 0); simpl; auto; lia.
  - intros Hr1. destruct (DenseCol_gen D (d_c D) HW) as (l & H1 & H2 & H3); [lia|].
    rewrite Nat.ltb_irrefl in H2. unfold DenseCol. rewrite Z.ltb_irrefl.
    destruct (Z.ltb_spec (Z.of_nat (d_c D)) 0); [lia|]. simpl. rewrite Nat2Z.id, H1. simpl.
    destruct l; [reflexivity|simpl in H2; lia].
  - intros Hr1. destruct (DenseCol_gen D (d_c D) HW) as (l & H1 & H2 & H3); [lia|].
    rewrite Nat.ltb_irrefl in H2. exists l. unfold DenseCol. rewrite Z.ltb_irrefl.
    destruct (Z.ltb_spec (Z.of_nat (d_c D)) 0); [lia|]. simpl. rewrite Nat2Z.id, H1. simpl.
    destruct l as [|x l']; [simpl in H2; lia|]. split; [auto|]. split; [auto|]. intros i v.
    assert (Ei : (S i * d_c D + 0 = i * d_c D + d_c D)%nat) by lia. split.
    + intros Hv. assert (i < length (x :: l'))%nat by (apply nth_error_Some; congruence).
      split; [lia|]. split; auto. rewrite Ei. auto.
    + intros (Hi & _ & He). rewrite Ei in He. destruct (nth_error (x :: l') i) as [w|] eqn:Ew.
      * apply H3 in Ew. congruence.
      * apply nth_error_None in Ew. lia.
Qed.

(** the loop of AddToCol over positions [k, k+1, ...) * c + col *)
Lemma addLoop_spec c col s n : forall k data, (0 < c)%nat ->
  (forall i, (k <= i < k + n)%nat -> (i * c + col < length data)%nat /\ (i < length s)%nat) ->
  exists data', addLoop data (map (fun i => Z.of_nat (i * c + col)) (seq k n)) s k = Ok data' /\
  length data' = length data /\
  (forall i v x, (k <= i < k + n)%nat -> nth_error data (i * c + col) = Some v -> nth_error s i = Some x ->
     nth_error data' (i * c + col) = Some (fadd v x)) /\
  (forall p, (forall i, (k <= i < k + n)%nat -> p <> (i * c + col)%nat) -> nth_error data' p = nth_error data p).
Proof.
  induction n as [|n IH]; intros k data Hc HB.
  - exists data. split; [reflexivity|]. split; [auto|]. split; [intros; lia|auto].
  - cbn [seq map addLoop]. destruct (HB k) as [B1 B2]; [lia|].
    destruct (nth_error data (k * c + col)) as [old|] eqn:Eo; [|apply nth_error_None in Eo; lia].
    destruct (nth_error s k) as [x|] eqn:Ex; [|apply nth_error_None in Ex; lia].
    pose proof (proj2 (idx_of_nat _ _ _) Eo) as Io. pose proof (proj2 (idx_of_nat _ _ _) Ex) as Ix.
    rewrite Io, Ix. cbn [bind].
    assert (HU : upd data (Z.of_nat (k * c + col)) (fadd old x) = Ok (upd_nat data (k * c + col) (fadd old x))).
    { apply upd_Ok. rewrite Nat2Z.id. split; [lia|auto]. }
    rewrite HU. cbn [bind].
    destruct (IH (S k) (upd_nat data (k * c + col) (fadd old x)) Hc) as (data' & H1 & H2 & H3 & H4).
    { intros i Hi. rewrite upd_nat_length. apply HB. lia. }
    exists data'. split; [exact H1|]. split; [rewrite H2; apply upd_nat_length|]. split.
    + intros i v y Hi Hv Hy. destruct (Nat.eq_dec i k) as [->|Hne].
      * rewrite H4.
        -- rewrite upd_nat_nth, Nat.eqb_refl. destruct (Nat.ltb_spec (k * c + col) (length data)); [|lia]. congruence.
        -- intros i Hi'. nia.
      * apply H3; [lia| |auto]. rewrite upd_nat_nth. destruct (Nat.eqb_spec (i * c + col) (k * c + col)); [nia|auto].
    + intros p Hp. rewrite H4.
      * rewrite upd_nat_nth. destruct (Nat.eqb_spec p (k * c + col)) as [->|]; auto. exfalso. apply (Hp k); lia.
      * intros i Hi. apply Hp. lia.
Qed.

Lemma AddToCol_gen D s col : wfDense D -> (col <= d_c D)%nat -> length s = d_r D ->
  let n := if Nat.ltb col (d_c D) then d_r D else (d_r D - 1)%nat in
  exists D', AddToCol D s (Z.of_nat col) = Ok D' /\ d_r D' = d_r D /\ d_c D' = d_c D /\ wfDense D' /\
  (forall i v x, (i < n)%nat -> nth_error (d_data D) (i * d_c D + col) = Some v -> nth_error s i = Some x ->
     nth_error (d_data D') (i * d_c D + col) = Some (fadd v x)) /\
  (forall p, (forall i, (i < n)%nat -> p <> (i * d_c D + col)%nat) -> nth_error (d_data D') p = nth_error (d_data D) p).
Proof.
  intros HW Hcol Hs n. pose proof HW as (Hr & Hc & HL). unfold AddToCol.
  destruct (Z.ltb_spec (Z.of_nat (d_c D)) (Z.of_nat col)); [lia|].
  destruct (Z.ltb_spec (Z.of_nat col) 0); [lia|]. simpl.
  rewrite Hs, Nat.eqb_refl. simpl. rewrite Nat2Z.id, strided_spec by auto. fold n.
  destruct (addLoop_spec (d_c D) col s n 0 (d_data D) Hc) as (data' & H1 & H2 & H3 & H4).
  { intros i Hi. rewrite HL, Hs. subst n. destruct (Nat.ltb_spec col (d_c D)); nia. }
  rewrite H1. simpl. eexists. split; [reflexivity|]. simpl. split; [auto|]. split; [auto|].
  split; [split; [auto|]; split; [auto|]; simpl; congruence|]. split.
  - intros i v x Hi. apply H3. lia.
  - intros p Hp. apply H4. intros i Hi. apply Hp. lia.
Qed.

Lemma divmod_eq (c i i' j j' : nat) : (j < c)%nat -> (j' < c)%nat -> (i * c + j = i' * c + j')%nat -> i = i' /\ j = j'.
Proof.
  intros Hj Hj' H. assert (i = i').
  { destruct (Nat.lt_trichotomy i i') as [|[|]]; auto; nia. }
  subst. split; lia.
Qed.

Lemma c21_addtocol_lemma D s : wfDense D -> length s = d_r D ->
  (forall col, (col < d_c D)%nat -> exists D', AddToCol D s (Z.of_nat col) = Ok D' /\ d_r D' = d_r D /\ d_c D' = d_c D /\ wfDense D' /\
     (forall i v x, entry D i col v -> nth_error s i = Some x -> entry D' i col (fadd v x)) /\
     (forall i j v, j <> col -> entry D i j v <-> entry D' i j v)) /\
  (forall col, col < 0 \/ Z.of_nat (d_c D) < col -> AddToCol D s col = Panic) /\
  (* the off-by-one in the guard: entries (i+1, 0) receive s[i] *)
  (exists D', AddToCol D s (Z.of_nat (d_c D)) = Ok D' /\ d_r D' = d_r D /\ d_c D' = d_c D /\
     (forall i v x, entry D (S i) 0 v -> nth_error s i = Some x -> entry D' (S i) 0 (fadd v x)) /\
     (forall i j v, j <> O \/ i = O -> entry D i j v <-> entry D' i j v)).
Proof.
  intros HW Hs. pose proof HW as (Hr & Hc & HL). split; [|split].
  - intros col Hcol. destruct (AddToCol_gen D s col HW) as (D' & H1 & H2 & H3 & H4 & H5 & H6); [lia|auto|].
    destruct (Nat.ltb_spec col (d_c D)) as [_|]; [|lia].
    exists D'. do 4 (split; [auto|]). split.
    + intros i v x [_ He] Hx. split; [lia|]. rewrite H3. apply H5; auto.
      assert (i * d_c D + col < length (d_data D))%nat by (apply nth_error_Some; congruence). nia.
    + intros i j v Hne. unfold entry. rewrite H3. split; intros [Hj He]; split; auto.
      * rewrite H6; auto. intros i' _ Heq. apply divmod_eq in Heq; lia.
      * rewrite H6 in He; auto. intros i' _ Heq. apply divmod_eq in Heq; lia.
  - intros col H. unfold AddToCol. destruct (Z.ltb_spec (Z.of_nat (d_c D)) col), (Z.ltb_spec col 0); simpl; auto; lia.
  - destruct (AddToCol_gen D s (d_c D) HW) as (D' & H1 & H2 & H3 & H4 & H5 & H6); [lia|auto|].
    rewrite Nat.ltb_irrefl in H5, H6. exists D'. do 3 (split; [auto|]). split.
    + intros i v x [_ He] Hx. split; [lia|]. rewrite H3.
      replace (S i * d_c D + 0)%nat with (i * d_c D + d_c D)%nat in * by lia. apply H5; auto.
      assert (i * d_c D + d_c D < length (d_data D))%nat by (apply nth_error_Some; congruence). nia.
    + intros i j v Hne. unfold entry. rewrite H3.
      assert (HD : (j < d_c D)%nat -> nth_error (d_data D') (i * d_c D + j) = nth_error (d_data D) (i * d_c D + j)).
      { intros Hj. apply H6. intros i' _ Heq.
        replace (i' * d_c D + d_c D)%nat with (S i' * d_c D + 0)%nat in Heq by lia.
        apply divmod_eq in Heq; lia. }
      split; intros [Hj He]; split; auto; [rewrite HD|rewrite HD in He]; auto.
Qed.

(** ** C22 *)
Lemma contains_iff l v : contains l v = true <-> In v l.
Proof.
  unfold contains. rewrite existsb_exists. split.
  - intros (x & H & E). apply Z.eqb_eq in E. subst; auto.
  - intros H. exists v. split; auto. apply Z.eqb_refl.
Qed.

Lemma distinct_snoc l v : distinctElements (l ++ [v]) =
  if contains (distinctElements l) v then distinctElements l else distinctElements l ++ [v].
Proof. unfold distinctElements. rewrite fold_left_app. reflexivity. Qed.

Lemma nth_snoc {A} (l : list A) v n x : nth_error (l ++ [v]) n = Some x <->
  nth_error l n = Some x \/ n = length l /\ x = v.
Proof.
  destruct (Nat.lt_trichotomy n (length l)) as [H|[H|H]].
  - rewrite nth_error_app1 by lia. split; auto. intros [?|[? _]]; auto; lia.
  - subst. rewrite nth_error_app2, Nat.sub_diag by lia. simpl. split.
    + intros [= ->]. auto.
    + intros [Hc|[_ ->]]; auto. assert (length l < length l)%nat by (apply nth_error_Some; congruence). lia.
  - split.
    + intros Hc. assert (n < length (l ++ [v]))%nat by (apply nth_error_Some; congruence). rewrite app_length in *; simpl in *; lia.
    + intros [Hc|[-> _]]; [|lia]. assert (n < length l)%nat by (apply nth_error_Some; congruence). lia.
Qed.

Lemma before_snoc l v x y : before l x y -> before (l ++ [v]) x y.
Proof.
  intros (i & Hi & H). exists i. split; [apply nth_snoc; auto|]. intros j Hj Hy.
  apply nth_snoc in Hy as [Hy|[-> ->]]; [eapply H; eauto|].
  assert (i < length l)%nat by (apply nth_error_Some; congruence). lia.
Qed.

Lemma distinct_spec l : firstOccurrences l (distinctElements l).
Proof.
  induction l as [|v l (IH1 & IH2 & IH3)] using rev_ind.
  - split; [constructor|]. split; [tauto|]. intros [|a] [|b] x y; simpl; intros; try discriminate; lia.
  - unfold firstOccurrences. rewrite distinct_snoc. destruct (contains (distinctElements l) v) eqn:Ec.
    + apply contains_iff in Ec. split; [auto|]. split.
      * intros x. rewrite in_app_iff, IH2. simpl. split; auto. intros [H|[<-|[]]]; auto. apply IH2; auto.
      * intros a b x y Hab Ha Hb. apply before_snoc. eauto.
    + assert (Hn : ~ In v (distinctElements l)) by (intros H; apply contains_iff in H; congruence).
      split; [|split].
      * eapply Permutation_NoDup; [apply Permutation_cons_append|]. constructor; auto.
      * intros x. rewrite !in_app_iff, IH2. tauto.
      * intros a b x y Hab Ha Hb. apply nth_snoc in Ha, Hb.
        destruct Ha as [Ha|[-> ->]].
        2: { destruct Hb as [Hb|[-> _]]; [|lia]. assert (b < length (distinctElements l))%nat by (apply nth_error_Some; congruence). lia. }
        destruct Hb as [Hb|[-> ->]]; [apply before_snoc; eauto|].
        assert (Hx : In x l) by (apply IH2; eapply nth_error_In; eauto).
        apply In_nth_error in Hx as [i Hi]. exists i. split; [apply nth_snoc; auto|].
        assert (i < length l)%nat by (apply nth_error_Some; congruence).
        intros j Hj Hy. apply nth_snoc in Hy as [Hy|[-> _]]; [|lia]. apply Hn, IH2. eapply nth_error_In; eauto.
Qed.

Lemma sliceIndexFrom_spec l v k : In v l ->
  exists j, sliceIndexFrom l v k = k + Z.of_nat j /\ nth_error l j = Some v /\ (forall j', (j' < j)%nat -> nth_error l j' <> Some v).
Proof.
  revert k; induction l as [|x l IH]; intros k H; [destruct H|]. simpl.
  destruct (Z.eqb_spec x v) as [->|Hne].
  - exists O. split; [lia|]. split; [reflexivity|]. intros; lia.
  - destruct H as [->|H]; [congruence|]. destruct (IH (k + 1) H) as (j & E & Hj & Hm). exists (S j). split; [lia|].
    split; [auto|]. intros [|j'] Hj'; simpl; [congruence|]. apply Hm. lia.
Qed.
Lemma sliceIndex_spec l v : In v l -> exists j, sliceIndex l v = Z.of_nat j /\ nth_error l j = Some v /\
  (forall j', (j' < j)%nat -> nth_error l j' <> Some v).
Proof. intros H. destruct (sliceIndexFrom_spec l v 0 H) as (j & E & Hj). exists j. split; [unfold sliceIndex; lia|auto]. Qed.
Lemma sliceIndex_absent l v k : ~ In v l -> sliceIndexFrom l v k = -1.
Proof.
  revert k; induction l as [|x l IH]; intros k H; simpl; auto. destruct (Z.eqb_spec x v) as [->|]; [exfalso; apply H; left; auto|].
  apply IH. intros Hv; apply H; right; auto.
Qed.

Lemma NoDup_nth_inj {A} (l : list A) i j x : NoDup l -> nth_error l i = Some x -> nth_error l j = Some x -> i = j.
Proof.
  intros HN Hi Hj. eapply (proj1 (NoDup_nth_error l) HN); [|congruence].
  apply nth_error_Some. congruence.
Qed.

Lemma oheFill_spec de labels : forall i D, NoDup de -> (forall v, In v labels -> In v de) ->
  d_c D = length de -> length (d_data D) = (d_r D * d_c D)%nat -> (i + length labels <= d_r D)%nat ->
  (forall p, (i * d_c D <= p < d_r D * d_c D)%nat -> nth_error (d_data D) p = Some fzero) ->
  exists D', oheFill D de labels i = Ok D' /\ d_r D' = d_r D /\ d_c D' = d_c D /\ length (d_data D') = length (d_data D) /\
  (forall p, (p < i * d_c D)%nat -> nth_error (d_data D') p = nth_error (d_data D) p) /\
  (forall k v j w, nth_error labels k = Some v -> nth_error de j = Some w ->
     nth_error (d_data D') ((i + k) * d_c D + j) = Some (if w =? v then fone else fzero)).
Proof.
  induction labels as [|v t IH]; intros i D HN HI Hc HL Hr HZ.
  - exists D. simpl. repeat (split; [auto|]). intros [|k] v j w; discriminate.
  - cbn [oheFill]. destruct (sliceIndex_spec de v) as (j0 & Ej & Hj0 & _); [apply HI; left; auto|].
    assert (Hlt : (j0 < length de)%nat) by (apply nth_error_Some; congruence).
    rewrite Ej. simpl length in Hr.
    destruct (Z.ltb_spec (Z.of_nat j0) 0) as [Q|_]; [lia|]. destruct (Z.leb_spec (Z.of_nat (d_c D)) (Z.of_nat j0)) as [Q|_]; [lia|].
    destruct (Nat.leb_spec (d_r D) i) as [Q|_]; [lia|]. cbn [orb]. rewrite Nat2Z.id.
    destruct (IH (S i) (Dense (d_r D) (d_c D) (upd_nat (d_data D) (i * d_c D + j0) fone))) as (D' & H1 & H2 & H3 & H4 & H5 & H6).
    + auto.
    + intros w Hw. apply HI. right; auto.
    + auto.
    + simpl. rewrite upd_nat_length. auto.
    + simpl. lia.
    + simpl. intros p Hp. rewrite upd_nat_nth. destruct (Nat.eqb_spec p (i * d_c D + j0)); [lia|]. apply HZ. lia.
    + cbn [d_r d_c d_data] in *. rewrite upd_nat_length in H4. exists D'. do 4 (split; [auto|]). split.
      * intros p Hp. rewrite H5 by lia. rewrite upd_nat_nth. destruct (Nat.eqb_spec p (i * d_c D + j0)); [lia|auto].
      * intros [|k] u j w Hu Hw; cbn [nth_error] in Hu.
        -- injection Hu as <-. rewrite Nat.add_0_r. assert (j < length de)%nat by (apply nth_error_Some; congruence).
           rewrite H5 by lia. rewrite upd_nat_nth.
           destruct (Nat.eqb_spec (i * d_c D + j) (i * d_c D + j0)) as [E|E].
           ++ assert (j = j0) by lia. subst j. assert (w = v) by congruence. subst w. rewrite Z.eqb_refl.
              destruct (Nat.ltb_spec (i * d_c D + j0) (length (d_data D))); [auto|nia].
           ++ destruct (Z.eqb_spec w v) as [->|].
              ** exfalso. apply E. f_equal. eapply NoDup_nth_inj; eauto.
              ** apply HZ. nia.
        -- replace (i + S k)%nat with (S i + k)%nat by lia. eapply H6; eauto.
Qed.

Lemma c22_lemma labels :
  (labels = [] -> oneHotEncodeDense labels = Panic) /\
  (labels <> [] -> exists D de, oneHotEncodeDense labels = Ok (D, de) /\ firstOccurrences labels de /\
     wfDense D /\ d_r D = length labels /\ d_c D = length de /\
     forall i j l w, nth_error labels i = Some l -> nth_error de j = Some w ->
       entry D i j (if w =? l then fone else fzero)).
Proof.
  split; [intros ->; reflexivity|]. intros Hne.
  pose proof (distinct_spec labels) as HD. pose proof HD as (HN & HI & _).
  assert (Hr : (0 < length labels)%nat) by (destruct labels; [congruence|simpl; lia]).
  assert (Hc : (0 < length (distinctElements labels))%nat).
  { destruct labels as [|v l] eqn:El; [congruence|]. rewrite <- El in *.
    assert (H : In v (distinctElements labels)) by (apply HI; rewrite El; left; auto).
    destruct (distinctElements labels); [destruct H|simpl; lia]. }
  unfold oneHotEncodeDense, NewDense. rewrite repeat_length, Nat.eqb_refl.
  destruct (Nat.eqb_spec (length labels) 0); [lia|]. destruct (Nat.eqb_spec (length (distinctElements labels)) 0); [lia|].
  cbn [orb bind].
  set (D0 := Dense _ _ _).
  destruct (oheFill_spec (distinctElements labels) labels 0 D0) as (D' & H1 & H2 & H3 & H4 & H5 & H6); auto.
  - intros v Hv. apply HI; auto.
  - simpl. apply repeat_length.
  - intros p Hp. simpl in *. apply nth_error_repeat. lia.
  - rewrite H1. cbn [bind]. do 2 eexists. split; [reflexivity|]. split; [auto|].
    split; [split; [rewrite H2; auto|split; [rewrite H3; auto|]]; rewrite H2, H3, H4; simpl; apply repeat_length|].
    split; [auto|]. split; [auto|].
    intros i j l w Hl Hw. split.
    + rewrite H3. simpl. apply nth_error_Some. congruence.
    + rewrite H3. apply (H6 i l j w Hl Hw).
Qed.

(** ** C80 *)
Lemma firstn_skipn_len {A} (l : list A) a n : (a + n <= length l)%nat -> length (firstn n (skipn a l)) = n.
Proof. intros H. rewrite firstn_length, skipn_length. lia. Qed.

Lemma rowView_len D i : (i < d_r D)%nat -> length (d_data D) = (d_r D * d_c D)%nat -> length (rowView D i) = d_c D.
Proof. intros Hi HL. unfold rowView. apply firstn_skipn_len. nia. Qed.

Lemma skipn_app_exact {A} (l1 l2 : list A) n : n = length l1 -> skipn n (l1 ++ l2) = l2.
Proof. intros ->. rewrite skipn_app, skipn_all, Nat.sub_diag. reflexivity. Qed.
Lemma firstn_app_exact {A} (l1 l2 : list A) n : n = length l1 -> firstn n (l1 ++ l2) = l1.
Proof. intros ->. rewrite firstn_app, firstn_all, Nat.sub_diag. simpl. apply app_nil_r. Qed.

Lemma rowView_set D i p k : length (d_data D) = (d_r D * d_c D)%nat -> (i < d_r D)%nat -> (k < d_r D)%nat -> length p = d_c D ->
  let data' := firstn (i * d_c D) (d_data D) ++ p ++ skipn ((i + 1) * d_c D) (d_data D) in
  length data' = length (d_data D) /\
  rowView (Dense (d_r D) (d_c D) data') k = if Nat.eqb k i then p else rowView D k.
Proof.
  intros HL Hi Hk Hp data'.
  assert (Hd : length data' = length (d_data D)).
  { unfold data'. rewrite !app_length, firstn_length, skipn_length. nia. }
  split; [exact Hd|]. apply list_ext. intros n. unfold rowView. cbn [d_c d_data].
  assert (Hnth : forall (l : list f64) a c, nth_error (firstn c (skipn a l)) n = if Nat.ltb n c then nth_error l (a + n) else None).
  { intros l a c. destruct (Nat.ltb_spec n c) as [H|H].
    - rewrite nth_firstn by auto. apply nth_skipn.
    - apply nth_error_None. rewrite firstn_length. lia. }
  rewrite Hnth.
  assert (Hdn : forall q, nth_error data' q =
     if Nat.ltb q (i * d_c D) then nth_error (d_data D) q else
     if Nat.ltb q ((i + 1) * d_c D) then nth_error p (q - i * d_c D) else nth_error (d_data D) q).
  { intros q. unfold data'.
    assert (Hf : length (firstn (i * d_c D) (d_data D)) = (i * d_c D)%nat) by (rewrite firstn_length; nia).
    destruct (Nat.ltb_spec q (i * d_c D)) as [H|H].
    - rewrite nth_error_app1 by lia. apply nth_firstn. auto.
    - rewrite nth_error_app2 by lia. rewrite Hf. destruct (Nat.ltb_spec q ((i + 1) * d_c D)) as [H'|H'].
      + rewrite nth_error_app1 by nia. auto.
      + rewrite nth_error_app2 by nia. rewrite nth_skipn. f_equal. nia. }
  rewrite Hdn. destruct (Nat.eqb_spec k i) as [->|Hne].
  - destruct (Nat.ltb_spec n (d_c D)) as [H|H].
    + destruct (Nat.ltb_spec (i * d_c D + n) (i * d_c D)); [lia|]. destruct (Nat.ltb_spec (i * d_c D + n) ((i + 1) * d_c D)); [|nia].
      f_equal. lia.
    + symmetry. apply nth_error_None. lia.
  - rewrite Hnth. destruct (Nat.ltb_spec n (d_c D)) as [H|H]; auto.
    destruct (Nat.ltb_spec (k * d_c D + n) (i * d_c D)); auto. destruct (Nat.ltb_spec (k * d_c D + n) ((i + 1) * d_c D)); auto. nia.
Qed.

Lemma activationRows_spec E act f O : length (d_data O) = (d_r O * d_c O)%nat ->
  (forall p q, length q = length p -> act p q = Ok (f p)) -> (forall p, length (f p) = length p) ->
  forall n i D, d_r D = d_r O -> d_c D = d_c O -> length (d_data D) = (d_r D * d_c D)%nat -> (i + n = d_r O)%nat ->
  exists D', activationRows E act O D n i = Ok D' /\ d_r D' = d_r D /\ d_c D' = d_c D /\ length (d_data D') = length (d_data D) /\
  (forall k, (k < i)%nat -> rowView D' k = rowView D k) /\
  (forall k, (i <= k < d_r O)%nat -> rowView D' k = f (rowView O k)).
Proof.
  intros HLO Hact Hlen. induction n as [|n IH]; intros i D Hr Hc HL Hi.
  - exists D. simpl. repeat (split; [auto|]). intros; lia.
  - cbn [activationRows]. destruct (Nat.leb_spec (d_r D) i); [lia|].
    assert (L1 : length (rowView O i) = d_c O) by (apply rowView_len; auto; lia).
    rewrite Hact by (rewrite L1, rowView_len; auto; lia). cbn [bind].
    rewrite Hlen, L1, Hc, Nat.eqb_refl.
    assert (L2 : length (f (rowView O i)) = d_c D) by (rewrite Hlen, L1; auto).
    set (data' := _ ++ _ ++ _).
    assert (HS : forall k, (k < d_r D)%nat -> length data' = length (d_data D) /\
       rowView (Dense (d_r D) (d_c D) data') k = if Nat.eqb k i then f (rowView O i) else rowView D k).
    { intros k Hk. subst data'. rewrite <- Hc. apply rowView_set; auto. }
    destruct (IH (S i) (Dense (d_r D) (d_c O) data')) as (D' & H1 & H2 & H3 & H4 & H5 & H6); cbn [d_r d_c d_data]; auto.
    + destruct (HS i) as [HSl _]; [lia|]. rewrite HSl. congruence.
    + lia.
    + cbn [d_r d_c d_data] in *. exists D'. split; [exact H1|]. split; [auto|]. split; [congruence|].
      destruct (HS i) as [HSl _]; [lia|]. split; [congruence|]. split.
      * intros k Hk. rewrite H5 by lia. rewrite <- Hc. destruct (HS k) as [_ ->]; [lia|].
        destruct (Nat.eqb_spec k i); [lia|auto].
      * intros k Hk. destruct (Nat.eq_dec k i) as [->|Hne].
        -- rewrite H5 by lia. rewrite <- Hc. destruct (HS i) as [_ ->]; [lia|]. rewrite Nat.eqb_refl. auto.
        -- apply H6. lia.
Qed.

Lemma SoftMax_same E p q : length q = length p -> SoftMax E p q = Ok (softmax F (e_exp E) (e_sum E) p).
Proof.
  intros H. unfold SoftMax. rewrite H, Nat.ltb_irrefl. rewrite skipn_all2 by lia. rewrite app_nil_r.
  rewrite firstn_all2 by (rewrite map_length; lia). rewrite skipn_all2 by (rewrite map_length; lia). rewrite app_nil_r. reflexivity.
Qed.
Lemma Normalization_same p q : length q = length p -> Normalization p q = Ok (normalization F p).
Proof.
  intros H. unfold Normalization. rewrite H, Nat.ltb_irrefl. rewrite skipn_all2 by lia. rewrite app_nil_r. reflexivity.
Qed.

Lemma activationDense_spec E act f O D : wfDense O ->
  (forall p q, length q = length p -> act p q = Ok (f p)) -> (forall p, length (f p) = length p) ->
  (forall d, D = Some d -> wfDense d /\ d_r d = d_r O /\ d_c d = d_c O) ->
  exists D', activationDense E act O D = Ok D' /\ wfDense D' /\ d_r D' = d_r O /\ d_c D' = d_c O /\
  forall k, (k < d_r O)%nat -> rowView D' k = f (rowView O k).
Proof.
  intros (Hr & Hc & HL) Hact Hlen HD. unfold activationDense.
  set (D0 := match D with Some d => d | None => _ end).
  assert (H0 : d_r D0 = d_r O /\ d_c D0 = d_c O /\ length (d_data D0) = (d_r D0 * d_c D0)%nat).
  { subst D0. destruct D as [d|].
    - destruct (HD d eq_refl) as ((_ & _ & ?) & ? & ?). auto.
    - simpl. rewrite repeat_length. auto. }
  destruct H0 as (H1 & H2 & H3).
  destruct (activationRows_spec E act f O HL Hact Hlen (d_r O) 0 D0 H1 H2 H3) as (D' & K1 & K2 & K3 & K4 & _ & K6); [lia|].
  exists D'. split; [auto|]. split.
  - split; [congruence|]. split; [congruence|]. congruence.
  - split; [congruence|]. split; [congruence|]. intros k Hk. apply K6. lia.
Qed.

Lemma c80_lemma E O D : wfDense O -> (forall d, D = Some d -> wfDense d /\ d_r d = d_r O /\ d_c d = d_c O) ->
  exists D', SoftMaxDense E O D = Ok D' /\ wfDense D' /\ d_r D' = d_r O /\ d_c D' = d_c O /\
  forall k, (k < d_r O)%nat -> SoftMax E (rowView O k) (repeat fzero (d_c O)) = Ok (rowView D' k).
Proof.
  intros HO HD. destruct (activationDense_spec E (SoftMax E) (softmax F (e_exp E) (e_sum E)) O D HO) as (D' & H1 & H2 & H3 & H4 & H5); auto.
  - intros; apply SoftMax_same; auto.
  - intros p. unfold softmax. rewrite !map_length. auto.
  - exists D'. repeat (split; [auto|]). intros k Hk. rewrite H5 by auto. apply SoftMax_same.
    rewrite repeat_length, rowView_len; auto. apply HO.
Qed.
