(** C128: with exact sums the order of the rows does not matter. *)
From Coq Require Import Reals Lra Permutation.
From Flocq Require Import Core IEEE754.BinarySingleNaN.
From Verif Require Import Base F64 F64Lemmas Env EnvLemmas Utils Tree Spec UtilsProofs TreeProofs TreeSplit TreeMid UtilsThms ErrProofs MiscProofs SpecRow.
From Coq Require Import List Sorting.Sorted.
Open Scope Z_scope.

(** ** Exact sums *)
Section Flit.
Context (k : Z) (Hk : -1074 <= k <= 971).
Lemma flit_val m : Z.abs m < 2 ^ 53 -> ffinite (flit m k) = true /\ B2R (flit m k) = (IZR m * bpow radix2 k)%R /\ Bsign (flit m k) = (m <? 0).
Proof.
  intros H. pose proof (binary_normalize_correct 53 1024 Hprec Hemax mode_NE m k false) as Hb. cbv zeta in Hb. fold (flit m k) in Hb.
  assert (Hg : generic_format radix2 (SpecFloat.fexp 53 1024) (F2R (Float radix2 m k))).
  { apply (generic_format_FLT radix2 (-1074) 53). exists (Float radix2 m k); [reflexivity|exact H|simpl; lia]. }
  rewrite round_generic in Hb by auto with typeclass_instances. rewrite Rlt_bool_true in Hb.
  - destruct Hb as (H1 & H2 & H3). split; [exact H2|]. split; [exact H1|]. rewrite H3. unfold F2R; cbn [Fnum Fexp].
    destruct (Rcompare_spec (IZR m * bpow radix2 k) 0) as [Hc|Hc|Hc].
    + symmetry. apply Z.ltb_lt. apply lt_IZR. pose proof (bpow_gt_0 radix2 k). nra.
    + symmetry. apply Z.ltb_ge. apply le_IZR. pose proof (bpow_gt_0 radix2 k). nra.
    + symmetry. apply Z.ltb_ge. apply le_IZR. pose proof (bpow_gt_0 radix2 k). nra.
  - rewrite <- F2R_Zabs. apply Rlt_le_trans with (bpow radix2 53 * bpow radix2 k)%R.
    + unfold F2R; cbn [Fnum Fexp]. apply Rmult_lt_compat_r; [apply bpow_gt_0|]. replace (bpow radix2 53) with (IZR (2 ^ 53)) by (simpl; reflexivity). apply IZR_lt, H.
    + rewrite <- bpow_plus. apply bpow_le. lia.
Qed.
Lemma sum_real a b : (IZR a * bpow radix2 k + IZR b * bpow radix2 k = IZR (a + b) * bpow radix2 k)%R.
Proof. rewrite plus_IZR. ring. Qed.
Lemma rnd_exact m : Z.abs m < 2 ^ 53 -> round radix2 (SpecFloat.fexp 53 1024) (round_mode mode_NE) (IZR m * bpow radix2 k) = (IZR m * bpow radix2 k)%R.
Proof. intros H. destruct (flit_val m H) as (_ & <- & _). apply rnd_B2R. Qed.
Lemma small_real m : Z.abs m < 2 ^ 53 -> Rlt_bool (Rabs (IZR m * bpow radix2 k)) (bpow radix2 1024) = true.
Proof. intros H. destruct (flit_val m H) as (_ & <- & _). apply Rlt_bool_true. apply abs_B2R_lt. Qed.
Lemma cmp_real m : Rcompare (IZR m * bpow radix2 k) 0 = (m ?= 0).
Proof.
  pose proof (bpow_gt_0 radix2 k). destruct (Z.compare_spec m 0) as [->|Hm|Hm].
  - apply Rcompare_Eq. ring.
  - apply Rcompare_Lt. apply IZR_lt in Hm. nra.
  - apply Rcompare_Gt. apply IZR_lt in Hm. nra.
Qed.
Lemma flit_add a b : Z.abs a < 2 ^ 53 -> Z.abs b < 2 ^ 53 -> Z.abs (a + b) < 2 ^ 53 -> fadd (flit a k) (flit b k) = flit (a + b) k.
Proof.
  intros Ha Hb Hab. destruct (flit_val a Ha) as (F1 & R1 & S1). destruct (flit_val b Hb) as (F2 & R2 & S2). destruct (flit_val _ Hab) as (F3 & R3 & S3).
  pose proof (Bplus_correct 53 1024 _ _ mode_NE (flit a k) (flit b k) F1 F2) as H. fold (fadd (flit a k) (flit b k)) in H.
  rewrite R1, R2, sum_real, rnd_exact, small_real in H by exact Hab. destruct H as (H1 & H2 & H3).
  apply B2R_Bsign_inj64; [exact H2|exact F3|congruence|]. rewrite H3, S1, S2, S3, cmp_real.
  destruct (Z.compare_spec (a + b) 0) as [H0|H0|H0]; [|symmetry; apply Z.ltb_lt; exact H0|symmetry; apply Z.ltb_ge; lia].
  rewrite H0. change (0 <? 0) with false. destruct (Z.ltb_spec a 0); destruct (Z.ltb_spec b 0); try reflexivity; exfalso; lia.
Qed.
Lemma flit_sub a b : Z.abs a < 2 ^ 53 -> Z.abs b < 2 ^ 53 -> Z.abs (a - b) < 2 ^ 53 -> fsub (flit a k) (flit b k) = flit (a - b) k.
Proof.
  intros Ha Hb Hab. destruct (flit_val a Ha) as (F1 & R1 & S1). destruct (flit_val b Hb) as (F2 & R2 & S2). destruct (flit_val _ Hab) as (F3 & R3 & S3).
  pose proof (Bminus_correct 53 1024 _ _ mode_NE (flit a k) (flit b k) F1 F2) as H. fold (fsub (flit a k) (flit b k)) in H.
  replace (B2R (flit a k) - B2R (flit b k))%R with (IZR (a - b) * bpow radix2 k)%R in H by (rewrite R1, R2, minus_IZR; ring).
  rewrite rnd_exact, small_real in H by exact Hab. destruct H as (H1 & H2 & H3).
  apply B2R_Bsign_inj64; [exact H2|exact F3|congruence|]. rewrite H3, S1, S2, S3, cmp_real.
  destruct (Z.compare_spec (a - b) 0) as [H0|H0|H0]; [|symmetry; apply Z.ltb_lt; exact H0|symmetry; apply Z.ltb_ge; lia].
  rewrite H0. change (0 <? 0) with false. destruct (Z.ltb_spec a 0); destruct (Z.ltb_spec b 0); try reflexivity; exfalso; lia.
Qed.

Definition lsum (ms : list Z) : Z := fold_right Z.add 0 ms.
Definition labs (ms : list Z) : Z := fold_right (fun m s => Z.abs m + s) 0 ms.
Lemma labs_pos ms : Z.abs (lsum ms) <= labs ms.
Proof. induction ms as [|m ms IH]; cbn [lsum labs fold_right]; [lia|]. fold (lsum ms) (labs ms). lia. Qed.
Lemma lsum_app a b : lsum (a ++ b) = lsum a + lsum b.
Proof. induction a as [|m a IH]; cbn [lsum fold_right app]; [reflexivity|]. fold (lsum (a ++ b)) (lsum a). lia. Qed.
Lemma labs_app a b : labs (a ++ b) = labs a + labs b.
Proof. induction a as [|m a IH]; cbn [labs fold_right app]; [reflexivity|]. fold (labs (a ++ b)) (labs a). lia. Qed.
Lemma lsum_perm a b : Permutation a b -> lsum a = lsum b.
Proof. induction 1; unfold lsum in *; cbn [fold_right] in *; lia. Qed.
Lemma labs_perm a b : Permutation a b -> labs a = labs b.
Proof. induction 1; unfold labs in *; cbn [fold_right] in *; lia. Qed.
Lemma sum_exact l s : is_sum l s -> forall ms, l = map (fun m => flit m k) ms -> labs ms < 2 ^ 53 -> s = flit (lsum ms) k.
Proof.
  induction 1 as [|x|l1 l2 a b H1 IH1 H2 IH2|l1 l2 a HP H1 IH1]; intros ms Hms HB.
  - destruct ms; [reflexivity|discriminate].
  - destruct ms as [|m [|? ?]]; try discriminate. injection Hms as ->. cbn [lsum fold_right]. rewrite Z.add_0_r. reflexivity.
  - symmetry in Hms. apply map_eq_app in Hms as (m1 & m2 & -> & E1 & E2). rewrite labs_app in HB.
    pose proof (labs_pos m1). pose proof (labs_pos m2).
    rewrite (IH1 m1), (IH2 m2) by (auto; lia). rewrite lsum_app. apply flit_add; lia.
  - rewrite Hms in HP. apply Permutation_map_inv in HP as (m1 & E1 & HP). rewrite (IH1 m1 E1); [f_equal; apply lsum_perm; symmetry; exact HP|].
    rewrite <- (labs_perm _ _ HP). exact HB.
Qed.
Lemma fold_add_exact ms : forall a, Z.abs a + labs ms < 2 ^ 53 -> fold_left fadd (map (fun m => flit m k) ms) (flit a k) = flit (a + lsum ms) k.
Proof.
  induction ms as [|m ms IH]; intros a H; cbn [map fold_left lsum labs fold_right] in *; [rewrite Z.add_0_r; reflexivity|]. fold (lsum ms) in *. fold (labs ms) in *.
  pose proof (labs_pos ms). rewrite flit_add by lia. rewrite IH by lia. f_equal. lia.
Qed.
Lemma fold_sub_exact ms : forall a, Z.abs a + labs ms < 2 ^ 53 -> fold_left fsub (map (fun m => flit m k) ms) (flit a k) = flit (a - lsum ms) k.
Proof.
  induction ms as [|m ms IH]; intros a H; cbn [map fold_left lsum labs fold_right] in *; [rewrite Z.sub_0_r; reflexivity|]. fold (lsum ms) in *. fold (labs ms) in *.
  pose proof (labs_pos ms). rewrite flit_sub by lia. rewrite IH by lia. f_equal. lia.
Qed.
End Flit.

(** the lists that can be summed exactly with unit [2^k] *)
Definition exact (k : Z) (l : list f64) : Prop := exists ms, l = map (fun m => flit m k) ms /\ labs ms < 2 ^ 53.
Lemma exact_perm k l l' : Permutation l l' -> exact k l -> exact k l'.
Proof.
  intros HP (ms & -> & H). apply Permutation_sym, Permutation_map_inv in HP as (m1 & E1 & HP). exists m1. split; [exact E1|]. rewrite <- (labs_perm _ _ HP). exact H.
Qed.
Lemma labs_nn ms : 0 <= labs ms.
Proof. pose proof (labs_pos ms). lia. Qed.
Lemma exact_app k l1 l2 : exact k (l1 ++ l2) -> exact k l1.
Proof.
  intros (ms & E & H). symmetry in E. apply map_eq_app in E as (m1 & m2 & -> & <- & <-). exists m1. split; [reflexivity|]. rewrite labs_app in H. pose proof (labs_nn m2). lia.
Qed.
Lemma exact_sum k l l' s s' : -1074 <= k <= 971 -> exact k l -> Permutation l l' -> is_sum l s -> is_sum l' s' -> s = s'.
Proof.
  intros Hk HX HP H1 H2. destruct (exact_perm _ _ _ HP HX) as (m2 & E2 & B2). destruct HX as (m1 & E1 & B1).
  eapply is_sum_perm in H1; [|exact HP]. rewrite (sum_exact k Hk _ _ H1 m2 E2 B2), (sum_exact k Hk _ _ H2 m2 E2 B2). reflexivity.
Qed.
(** the running sums on both sides of a boundary *)
Lemma fold_add_sum l : forall a, is_sum l (fold_left fadd l fzero) /\ (forall l0, is_sum l0 a -> is_sum (l0 ++ l) (fold_left fadd l a)).
Proof. intros a. split; [apply sum_left_ok|]. intros l0 H. apply sum_left_acc, H. Qed.
Lemma exact_left k l l' : -1074 <= k <= 971 -> exact k l -> Permutation l l' -> fold_left fadd l fzero = fold_left fadd l' fzero.
Proof. intros Hk HX HP. eapply exact_sum; [exact Hk|exact HX|exact HP|apply sum_left_ok|apply sum_left_ok]. Qed.
Lemma exact_right k l r l' r' s s' : -1074 <= k <= 971 -> exact k (l ++ r) -> Permutation l l' -> Permutation (l ++ r) (l' ++ r') -> is_sum (l ++ r) s -> is_sum (l' ++ r') s' ->
  fold_left fsub l s = fold_left fsub l' s'.
Proof.
  intros Hk HX HP HA H1 H2. rewrite <- (exact_sum k _ _ _ _ Hk HX HA H1 H2). destruct HX as (ms & E & HB). pose proof (sum_exact k Hk _ _ H1 ms E HB) as Es. rewrite Es. clear H1 H2 Es.
  symmetry in E. apply map_eq_app in E as (m1 & m2 & -> & <- & <-). apply Permutation_sym, Permutation_map_inv in HP as (m1' & -> & HP).
  rewrite labs_app in HB. rewrite lsum_app. pose proof (labs_nn m2). pose proof (labs_pos m1). pose proof (labs_pos m2). pose proof (labs_perm _ _ HP). pose proof (lsum_perm _ _ HP).
  assert (G : forall m, labs m <= labs m1 -> lsum m = lsum m1 -> fold_left fsub (map (fun m => flit m k) m) (flit (lsum m1 + lsum m2) k) = flit (lsum m2) k).
  { clear -Hk HB. intros m L S. rewrite <- S. clear S. revert L HB. generalize (labs m1) as A. intros A.
    enough (G : forall m z, Z.abs (lsum m + z) < 2 ^ 53 - 0 -> labs m + Z.abs z < 2 ^ 53 -> fold_left fsub (map (fun m => flit m k) m) (flit (lsum m + z) k) = flit z k).
    { intros. pose proof (labs_pos m). pose proof (labs_pos m2). apply G; lia. }
    clear m m1 m2 A. induction m as [|x m IH]; intros z H1 H2; cbn [map fold_left]; [reflexivity|]. unfold lsum, labs in *. cbn [fold_right] in *. fold (lsum m) in *. fold (labs m) in *.
    pose proof (labs_pos m). rewrite flit_sub by (try exact Hk; lia). replace (x + lsum m + z - x) with (lsum m + z) by lia. apply IH; lia. }
  rewrite (G m1), (G m1') by lia. reflexivity.
Qed.

(** ** Boundaries in sorted lists *)
Lemma filter_perm {A} (p : A -> bool) l l' : Permutation l l' -> Permutation (filter p l) (filter p l').
Proof.
  induction 1 as [|x l l' HP IH|x y l|l1 l2 l3 H1 IH1 H2 IH2]; cbn [filter]; [constructor| | |eapply Permutation_trans; eauto].
  - destruct (p x); [constructor; exact IH|exact IH].
  - destruct (p x), (p y); try apply Permutation_refl. apply perm_swap.
Qed.
Section Prefix.
Context {P : Type}.
Definition ordered (Z : list (f64 * P)) : Prop := forall i j x y, (i <= j)%nat -> nth_error Z i = Some x -> nth_error Z j = Some y -> fleb (fst x) (fst y) = true.
Lemma ordered_tl x l : ordered (x :: l) -> ordered l.
Proof. intros H i j a b Hij Ha Hb. apply (H (Datatypes.S i) (Datatypes.S j)); auto. lia. Qed.
Lemma ordered_filter a l : ordered l -> filter (fun q => fleb (fst q) a) l = firstn (length (filter (fun q => fleb (fst q) a) l)) l /\
  filter (fun q => negb (fleb (fst q) a)) l = skipn (length (filter (fun q => fleb (fst q) a) l)) l.
Proof.
  induction l as [|x l IH]; intros H; [split; reflexivity|]. cbn [filter]. destruct (fleb (fst x) a) eqn:E; cbn [negb length firstn skipn].
  - destruct (IH (ordered_tl _ _ H)) as [I1 I2]. split; [f_equal; exact I1|exact I2].
  - assert (HN : filter (fun q => fleb (fst q) a) l = [] /\ filter (fun q => negb (fleb (fst q) a)) l = l).
    { assert (HA : forall y, In y l -> fleb (fst y) a = false).
      { intros y Hy. apply In_nth_error in Hy as [j Hj]. specialize (H 0%nat (Datatypes.S j) x y ltac:(lia) eq_refl Hj).
        destruct (fleb (fst y) a) eqn:Ey; [|reflexivity]. rewrite (fleb_trans _ _ _ H Ey) in E. discriminate. }
      clear -HA. induction l as [|y l IH]; [split; reflexivity|]. cbn [filter]. rewrite (HA y) by (left; auto). cbn [negb].
      destruct IH as [I1 I2]; [intros; apply HA; right; auto|]. rewrite I1, I2. split; reflexivity. }
    destruct HN as [-> ->]. split; reflexivity.
Qed.
Lemma boundary_perm Z Z' i a b pa pb : ordered Z -> ordered Z' -> Permutation Z Z' -> (0 < i)%nat ->
  nth_error Z (i - 1) = Some (a, pa) -> nth_error Z i = Some (b, pb) -> feqb a b = false ->
  exists a' b' pa' pb', nth_error Z' (i - 1) = Some (a', pa') /\ nth_error Z' i = Some (b', pb') /\ feqb a a' = true /\ feqb b b' = true /\
    Permutation (firstn i Z) (firstn i Z') /\ Permutation (skipn i Z) (skipn i Z').
Proof.
  intros S S' HP Hi Ha Hb Hab. pose proof (S (i - 1)%nat i _ _ ltac:(lia) Ha Hb) as Hle. cbn [fst] in Hle.
  assert (Hlt : fltb a b = true). { rewrite fleb_split in Hle. apply orb_prop in Hle as [Hle|Hle]; [exact Hle|congruence]. }
  pose proof (fltb_nnan _ _ Hlt) as [Na Nb].
  destruct (ordered_filter a Z S) as [E1 E2]. destruct (ordered_filter a Z' S') as [E1' E2'].
  set (p := fun q : f64 * P => fleb (fst q) a) in *. change (fun q : f64 * P => negb (fleb (fst q) a)) with (fun q : f64 * P => negb (p q)) in *.
  assert (Hlen : length (filter p Z) = i).
  { assert (Hn : length (filter p Z) = i \/ (length (filter p Z) < i)%nat \/ (i < length (filter p Z))%nat) by lia. destruct Hn as [Hn|[Hn|Hn]]; [exact Hn|exfalso..].
    - assert (HI : In (a, pa) (filter (fun q => negb (p q)) Z)).
      { rewrite E2. apply nth_error_In with (n := (i - 1 - length (filter p Z))%nat). rewrite nth_skipn. rewrite <- Ha. f_equal. lia. }
      apply filter_In in HI as [_ HI]. unfold p in HI. cbn [fst] in HI. rewrite fleb_refl in HI by auto. discriminate.
    - assert (HI : In (b, pb) (filter p Z)).
      { rewrite E1. apply nth_error_In with (n := i). rewrite nth_firstn by lia. exact Hb. }
      apply filter_In in HI as [_ HI]. unfold p in HI. cbn [fst] in HI. pose proof (fltb_leb_trans _ _ _ Hlt HI) as HH. rewrite fltb_irrefl in HH. discriminate. }
  assert (Hlen' : length (filter p Z') = i) by (rewrite <- Hlen; symmetry; apply filter_perm_len, HP).
  rewrite Hlen in E1, E2. rewrite Hlen' in E1', E2'.
  assert (P1 : Permutation (firstn i Z) (firstn i Z')) by (rewrite <- E1, <- E1'; apply filter_perm, HP).
  assert (P2 : Permutation (skipn i Z) (skipn i Z')) by (rewrite <- E2, <- E2'; apply filter_perm, HP).
  assert (HL : length Z = length Z') by (apply Permutation_length, HP).
  assert (Hi2 : (i < length Z)%nat) by (apply nth_error_Some; congruence).
  destruct (nth_error Z' (i - 1)) as [[a' pa']|] eqn:Ea'; [|apply nth_error_None in Ea'; lia].
  destruct (nth_error Z' i) as [[b' pb']|] eqn:Eb'; [|apply nth_error_None in Eb'; lia].
  exists a', b', pa', pb'. split; [reflexivity|]. split; [reflexivity|].
  assert (LE : forall x y, fleb x y = true -> fleb y x = true -> feqb x y = true).
  { intros x y Hx Hy. rewrite fleb_split in Hx. apply orb_prop in Hx as [Hx|Hx]; [|exact Hx]. pose proof (fltb_leb_trans _ _ _ Hx Hy) as HH. rewrite fltb_irrefl in HH. discriminate. }
  split; [|split; [|auto]].
  - apply LE.
    + assert (HI : In (a, pa) (firstn i Z')).
      { eapply Permutation_in; [exact P1|]. apply nth_error_In with (n := (i - 1)%nat). rewrite nth_firstn by lia. exact Ha. }
      apply In_nth_error in HI as [j Hj]. assert (Hji : (j < i)%nat). { assert (j < length (firstn i Z'))%nat by (apply nth_error_Some; congruence). rewrite firstn_length in *. lia. }
      rewrite nth_firstn in Hj by lia. apply (S' j (i - 1)%nat (a, pa) (a', pa')); auto. lia.
    + assert (HI : In (a', pa') (filter p Z')). { rewrite E1'. apply nth_error_In with (n := (i - 1)%nat). rewrite nth_firstn by lia. exact Ea'. }
      apply filter_In in HI as [_ HI]. exact HI.
  - apply LE.
    + assert (HI : In (b', pb') (skipn i Z)).
      { eapply Permutation_in; [apply Permutation_sym; exact P2|]. apply nth_error_In with (n := 0%nat). rewrite nth_skipn. rewrite <- Eb'. f_equal. lia. }
      apply In_nth_error in HI as [j Hj]. rewrite nth_skipn in Hj. apply (S i (i + j)%nat (b, pb) (b', pb')); auto. lia.
    + assert (HI : In (b, pb) (skipn i Z')).
      { eapply Permutation_in; [exact P2|]. apply nth_error_In with (n := 0%nat). rewrite nth_skipn. rewrite <- Hb. f_equal. lia. }
      apply In_nth_error in HI as [j Hj]. rewrite nth_skipn in Hj. apply (S' i (i + j)%nat (b', pb') (b, pb)); auto. lia.
Qed.
End Prefix.

(** ** Midpoints of equal numbers *)
Lemma feqb_cases a a' : feqb a a' = true -> a = a' \/ exists s s', a = B754_zero s /\ a' = B754_zero s'.
Proof.
  intros H. destruct a as [s|s| |s m e He], a' as [s'|s'| |s' m' e' He']; try (right; exists s, s'; split; reflexivity);
    try (exfalso; try destruct s; try destruct s'; cbv in H; discriminate H).
  - left. destruct s, s'; try reflexivity; exfalso; cbv in H; discriminate H.
  - left. apply feqb_true in H as (_ & _ & H). rewrite !ext_finite in H by reflexivity. apply B2R_inj; [reflexivity|reflexivity|exact H].
Qed.
Lemma midpoint_eq a b a' b' : fltb a b = true -> feqb a a' = true -> feqb b b' = true -> fdiv (fadd a b) (fofZ 2) = fdiv (fadd a' b') (fofZ 2).
Proof.
  intros H Ha Hb. f_equal. apply feqb_cases in Ha as [->|(s & s' & -> & ->)]; apply feqb_cases in Hb as [->|(r & r' & -> & ->)]; try reflexivity.
  - rewrite (fadd_comm a' (B754_zero r)), (fadd_comm a' (B754_zero r')). destruct a' as [s|s| |s m e He]; try reflexivity. exfalso; destruct s, r; cbv in H; discriminate H.
  - destruct b' as [r|r| |r m e He]; try reflexivity. exfalso; destruct s, r; cbv in H; discriminate H.
  - exfalso; destruct s, r; cbv in H; discriminate H.
Qed.

(** ** Sorted lists with their payload *)
Lemma Forall2_impl2 {A B C} (R : A -> B -> Prop) (Q : A -> C -> Prop) (g : B -> C) l l' : (forall a b, R a b -> Q a (g b)) -> Forall2 R l l' -> Forall2 Q l (map g l').
Proof. intros H. induction 1; cbn [map]; constructor; auto. Qed.
Lemma look_map {A B} (g : A -> B) l j v : look l j v -> look (map g l) j (g v).
Proof. intros [H1 H2]. split; [exact H1|]. rewrite nth_error_map, H2. reflexivity. Qed.
Lemma looks_map {A B} (g : A -> B) l ix c : Forall2 (look l) ix c -> Forall2 (look (map g l)) ix (map g c).
Proof. apply Forall2_impl2. intros. apply look_map; auto. Qed.
Lemma sorted_zip {P} E col (pl : list P) : EnvOk E -> length pl = length col -> (forall x, In x col -> fnanb x = false) ->
  exists SZ, Permutation (combine col pl) SZ /\ ordered SZ /\ snd (ArgSort E col) = map fst SZ /\ Forall2 (look pl) (fst (ArgSort E col)) (map snd SZ).
Proof.
  intros HE HL HN. pose proof (ArgSort_perm E HE col) as HP. pose proof (ArgSort_look E HE col) as HK. pose proof (ArgSort_sorted E HE col HN) as HS.
  set (Z := combine col pl). assert (HZ : length Z = length col) by (unfold Z; rewrite combine_length; lia).
  assert (H0 : Forall2 (look Z) (iota (length col)) Z) by (rewrite <- HZ; apply look_iota_self).
  destruct (Permutation_Forall2 HP H0) as (SZ & P1 & F1). exists SZ.
  assert (M1 : map fst Z = col) by (unfold Z; clear -HL; revert pl HL; induction col as [|c col IH]; intros [|p pl] HL; cbn in *; try lia; [reflexivity|]; f_equal; apply IH; lia).
  assert (M2 : map snd Z = pl) by (unfold Z; clear -HL; revert pl HL; induction col as [|c col IH]; intros [|p pl] HL; cbn in *; try lia; [reflexivity|]; f_equal; apply IH; lia).
  assert (F2 : snd (ArgSort E col) = map fst SZ). { eapply looks_fun; [exact HK|]. rewrite <- M1 at 1. apply looks_map, F1. }
  split; [exact P1|]. split; [|split; [exact F2|rewrite <- M2 at 1; apply looks_map, F1]].
  intros i j x y Hij Hx Hy. apply (HS i j); [exact Hij| |]; rewrite F2, nth_error_map; [rewrite Hx|rewrite Hy]; reflexivity.
Qed.

(** ** Candidates *)
Lemma Forall2_split {A B C} (R : A -> B -> Prop) (Q : A -> C -> Prop) l l1 l2 : Forall2 R l l1 -> Forall2 Q l l2 -> Forall2 (fun a q => R a (fst q) /\ Q a (snd q)) l (combine l1 l2).
Proof. intros H. revert l2. induction H; intros l2 H2; inversion H2; subst; cbn [combine]; constructor; auto. Qed.
Lemma Forall2_map_eq {A B} (g : A -> option B) l l' : Forall2 (fun a b => g a = Some b) l l' <-> map g l = map Some l'.
Proof.
  split.
  - induction 1 as [|a b l l' H1 H2 IH]; cbn [map]; [reflexivity|]. rewrite H1, IH. reflexivity.
  - revert l'. induction l as [|a l IH]; intros [|b l'] H; try discriminate; constructor; cbn [map] in H; injection H; auto.
Qed.
(** what is read of a sample for feature [f] *)
Definition readX (f : Z) (s : option (list f64) * (option f64 * option f64)) : option (f64 * (f64 * f64)) :=
  match fst s with
  | Some row => match nth_error row (Z.to_nat f), fst (snd s), snd (snd s) with Some v, Some g, Some h => Some (v, (g, h)) | _, _, _ => None end
  | None => None
  end.
Definition readY (f : Z) (s : option (list f64) * (option f64 * option f64)) : option (f64 * f64) :=
  match fst s with
  | Some row => match nth_error row (Z.to_nat f), fst (snd s) with Some v, Some g => Some (v, g) | _, _ => None end
  | None => None
  end.
Lemma read_perm {A} (g : option (list f64) * (option f64 * option f64) -> option A) (i1 i2 : Z -> option (list f64) * (option f64 * option f64)) ix ix' Z0 :
  Permutation (map i1 ix) (map i2 ix') -> Forall2 (fun j z => g (i1 j) = Some z) ix Z0 ->
  exists Z1, Permutation Z0 Z1 /\ Forall2 (fun j z => g (i2 j) = Some z) ix' Z1.
Proof.
  intros HP HF. apply Forall2_map_eq in HF. apply (Permutation_map g) in HP. rewrite !map_map in HP. rewrite HF in HP. apply Permutation_sym, Permutation_map_inv in HP as (Z1 & E1 & HP).
  exists Z1. split; [exact HP|]. apply Forall2_map_eq. exact E1.
Qed.
Lemma Forall2_impl' {A B} (R Q : A -> B -> Prop) l l' : (forall a b, In a l -> R a b -> Q a b) -> Forall2 R l l' -> Forall2 Q l l'.
Proof. intros H HF. induction HF; constructor; [apply H; [left; auto|auto]|apply IHHF; intros; apply H; [right; auto|auto]]. Qed.
Lemma combine_split' {A B} (l : list (A * B)) : combine (map fst l) (map snd l) = l.
Proof. induction l as [|[a b] l IH]; cbn; [reflexivity|]. f_equal. exact IH. Qed.

Section Cand.
Context (E E' : Env) (HE : EnvOk E) (HE' : EnvOk E').
Context (X X' : list (list f64)) (HN : forall i f v, cell X i f v -> fnanb v = false) (HN' : forall i f v, cell X' i f v -> fnanb v = false).
Definition exactNode (k1 k2 : Z) (o : TreeOptions) (ix : list Z) : Prop :=
  -1074 <= k1 <= 971 /\ -1074 <= k2 <= 971 /\
  if to_xgb o then (forall g, Forall2 (look (orNil (to_grads o))) ix g -> exact k1 g) /\ (forall h, Forall2 (look (orNil (to_hess o))) ix h -> exact k2 h)
  else forall y, Forall2 (look (to_y o)) ix y -> exact k1 y.

Lemma candidate_perm k1 k2 o o' ix ix' f i sc thr : to_xgb o' = to_xgb o -> to_mcw o' = to_mcw o -> to_lambda o' = to_lambda o -> to_gamma o' = to_gamma o ->
  Permutation (map (sampleInfo X o) ix) (map (sampleInfo X' o') ix') -> (forall j, In j ix' -> 0 <= j) -> exactNode k1 k2 o ix ->
  candidate E X o ix f i sc thr -> candidate E' X' o' ix' f i sc thr.
Proof.
  intros Ex Em El Eg HP Hpos (K1 & K2 & HX) (col & a & b & Hcol & Hi & Ha & Hb & Hab & M1 & M2 & Hthr & HC).
  assert (Hlen : length ix = length ix') by (apply Permutation_length in HP; rewrite !map_length in HP; exact HP).
  assert (Hf : 0 <= f). { destruct Hcol as [|j v ix0 col0 (row & _ & Hv) _]; [cbn in Hi; lia|]. apply Hv. }
  pose proof (Forall2_len _ _ _ Hcol) as Lc.
  assert (NNc : forall x, In x col -> fnanb x = false).
  { intros x Hx. apply In_nth_error in Hx as [n Hn]. assert (HH : exists j, nth_error ix n = Some j). { destruct (nth_error ix n) eqn:EE; [eauto|]. apply nth_error_None in EE. assert (n < length col)%nat by (apply nth_error_Some; congruence). lia. }
    destruct HH as [j Hj]. destruct (Forall2_nth1 _ _ _ Hcol _ _ Hj) as (x' & Hx' & Hc). assert (x' = x) by congruence. subst x'. eapply HN; eauto. }
  unfold candidate. rewrite Ex, Em, El, Eg. unfold sampleInfo in HP. rewrite Ex in HP. destruct (to_xgb o) eqn:EX.
  - destruct HC as (g & h & sg & sh & Hg & Hh & Hsg & Hsh & ->). destruct HX as [HXg HXh]. specialize (HXg _ Hg). specialize (HXh _ Hh).
    pose proof (Forall2_len _ _ _ Hg) as Lg. pose proof (Forall2_len _ _ _ Hh) as Lh.
    destruct (read_perm (readX f) _ _ ix ix' (combine col (combine g h)) HP) as (Z1 & HPZ & HF1).
    { pose proof (Forall2_split _ _ _ _ _ Hcol (Forall2_split _ _ _ _ _ Hg Hh)) as HF. revert HF. apply Forall2_impl'. intros j [v [gg hh]] _ ((row & [_ R1] & [_ R2]) & [_ R3] & [_ R4]).
      cbn [fst snd] in *. unfold readX; cbn [fst snd]. rewrite R1, R2, R3, R4. reflexivity. }
    assert (HF : Forall2 (fun j z => cell X' j f (fst z) /\ look (orNil (to_grads o')) j (fst (snd z)) /\ look (orNil (to_hess o')) j (snd (snd z))) ix' Z1).
    { revert HF1. apply Forall2_impl'. intros j z Hj Hz. specialize (Hpos j Hj). unfold readX in Hz. cbn [fst snd] in Hz.
      destruct (nth_error X' (Z.to_nat j)) as [row|] eqn:R1; [|discriminate]. destruct (nth_error row (Z.to_nat f)) as [v|] eqn:R2; [|discriminate].
      destruct (nth_error (orNil (to_grads o')) (Z.to_nat j)) as [gg|] eqn:R3; [|discriminate]. destruct (nth_error (orNil (to_hess o')) (Z.to_nat j)) as [hh|] eqn:R4; [|discriminate].
      injection Hz as <-. cbn [fst snd]. split; [exists row; repeat split; auto|]. repeat split; auto. }
    set (col' := map fst Z1). set (pl' := map snd Z1). set (g' := map fst pl'). set (h' := map snd pl').
    assert (C1 : Forall2 (fun j v => cell X' j f v) ix' col') by (unfold col'; eapply Forall2_impl2; [|exact HF]; cbn beta; tauto).
    assert (C2 : Forall2 (look (orNil (to_grads o'))) ix' g') by (unfold g', pl'; rewrite map_map; eapply Forall2_impl2; [|exact HF]; cbn beta; tauto).
    assert (C3 : Forall2 (look (orNil (to_hess o'))) ix' h') by (unfold h', pl'; rewrite map_map; eapply Forall2_impl2; [|exact HF]; cbn beta; tauto).
    assert (NNc' : forall x, In x col' -> fnanb x = false).
    { intros x Hx. apply In_nth_error in Hx as [n Hn]. destruct (nth_error ix' n) as [j|] eqn:Hj.
      - destruct (Forall2_nth1 _ _ _ C1 _ _ Hj) as (x' & Hx' & Hc). assert (x' = x) by congruence. subst x'. eapply HN'; eauto.
      - apply nth_error_None in Hj. assert (n < length col')%nat by (apply nth_error_Some; congruence). pose proof (Forall2_len _ _ _ C1). lia. }
    destruct (sorted_zip E col (combine g h) HE) as (SZ & S1 & S2 & S3 & S4); [rewrite combine_length; lia|exact NNc|].
    destruct (sorted_zip E' col' pl' HE') as (SZ' & T1 & T2 & T3 & T4); [unfold pl', col'; rewrite !map_length; reflexivity|exact NNc'|].
    unfold col', pl' in T1. rewrite combine_split' in T1.
    assert (PS : Permutation SZ SZ') by (rewrite <- S1, HPZ; exact T1).
    assert (Lsz : length SZ = length ix) by (apply Permutation_length in S1; rewrite !combine_length in S1; lia).
    rewrite S3, nth_error_map in Ha, Hb. destruct (nth_error SZ (i - 1)) as [[a0 pa]|] eqn:Ea; [|discriminate]. destruct (nth_error SZ i) as [[b0 pb]|] eqn:Eb; [|discriminate].
    cbn in Ha, Hb. injection Ha as ->. injection Hb as ->.
    destruct (boundary_perm SZ SZ' i a b pa pb S2 T2 PS ltac:(lia) Ea Eb Hab) as (a' & b' & pa' & pb' & Ea' & Eb' & Qa & Qb & PF & PK).
    exists col', a', b'. split; [exact C1|]. split; [rewrite <- Hlen; exact Hi|]. split; [rewrite T3, nth_error_map, Ea'; reflexivity|]. split; [rewrite T3, nth_error_map, Eb'; reflexivity|].
    assert (Hlt : fltb a b = true).
    { pose proof (S2 (i - 1)%nat i _ _ ltac:(lia) Ea Eb) as HH. cbn [fst] in HH. rewrite fleb_split in HH. apply orb_prop in HH as [HH|HH]; [exact HH|congruence]. }
    split. { destruct (feqb a' b') eqn:EE; [|reflexivity]. apply feqb_true in EE as (_ & _ & EE). apply feqb_true in Qa as (_ & _ & Qa). apply feqb_true in Qb as (_ & _ & Qb). apply fltb_true in Hlt as (_ & _ & Hlt). lra. }
    rewrite <- Hlen. split; [exact M1|]. split; [exact M2|]. split; [rewrite Hthr; apply midpoint_eq; auto|].
    assert (Esg : sg = map (fun q => fst (snd q)) SZ).
    { eapply looks_fun; [exact Hsg|]. apply (looks_map fst) in S4. rewrite map_map in S4. replace (map fst (combine g h)) with g in S4; [exact S4|]. symmetry. apply combine_map_fst. lia. }
    assert (Esh : sh = map (fun q => snd (snd q)) SZ).
    { eapply looks_fun; [exact Hsh|]. apply (looks_map snd) in S4. rewrite map_map in S4. replace (map snd (combine g h)) with h in S4; [exact S4|]. symmetry. apply combine_map_snd. lia. }
    exists g', h', (map (fun q => fst (snd q)) SZ'), (map (fun q => snd (snd q)) SZ').
    split; [exact C2|]. split; [exact C3|]. split; [apply (looks_map fst) in T4; rewrite map_map in T4; exact T4|]. split; [apply (looks_map snd) in T4; rewrite map_map in T4; exact T4|].
    assert (Pg : Permutation g g').
    { apply (Permutation_map (fun q => fst (snd q))) in HPZ. unfold g', pl'. rewrite map_map. rewrite <- HPZ. rewrite <- (map_map snd fst). rewrite combine_map_snd by (rewrite combine_length; lia). rewrite combine_map_fst by lia. reflexivity. }
    assert (Ph : Permutation h h').
    { apply (Permutation_map (fun q => snd (snd q))) in HPZ. unfold h', pl'. rewrite map_map. rewrite <- HPZ. rewrite <- (map_map snd snd). rewrite combine_map_snd by (rewrite combine_length; lia). rewrite combine_map_snd by lia. reflexivity. }
    assert (Pg2 : Permutation g sg). { rewrite Esg. apply (Permutation_map (fun q => fst (snd q))) in S1. rewrite <- S1. rewrite <- (map_map snd fst). rewrite combine_map_snd by (rewrite combine_length; lia). rewrite combine_map_fst by lia. reflexivity. }
    assert (Ph2 : Permutation h sh). { rewrite Esh. apply (Permutation_map (fun q => snd (snd q))) in S1. rewrite <- S1. rewrite <- (map_map snd snd). rewrite combine_map_snd by (rewrite combine_length; lia). rewrite combine_map_snd by lia. reflexivity. }
    assert (Pg3 : Permutation g' (map (fun q => fst (snd q)) SZ')). { unfold g', pl'. rewrite map_map. apply Permutation_map. exact T1. }
    assert (Ph3 : Permutation h' (map (fun q => snd (snd q)) SZ')). { unfold h', pl'. rewrite map_map. apply Permutation_map. exact T1. }
    assert (Sg : e_sum E g = e_sum E' g') by (eapply exact_sum; [exact K1|exact HXg|exact Pg|apply HE|apply HE']).
    assert (Sh : e_sum E h = e_sum E' h') by (eapply exact_sum; [exact K2|exact HXh|exact Ph|apply HE|apply HE']).
    assert (side : forall k s s' v v' (m : f64 * (f64 * f64) -> f64), -1074 <= k <= 971 -> exact k s -> s = map m SZ -> s' = map m SZ' -> is_sum s v -> is_sum s' v' ->
      fold_left fadd (firstn i s) fzero = fold_left fadd (firstn i s') fzero /\ fold_left fsub (firstn i s) v = fold_left fsub (firstn i s') v').
    { clear -PF PK PS. intros k s s' v v' m Hk HX -> -> V V'. assert (F : Permutation (firstn i (map m SZ)) (firstn i (map m SZ'))) by (rewrite !firstn_map; apply Permutation_map, PF).
      split.
      - apply (exact_left k); [exact Hk| |exact F]. rewrite <- (firstn_skipn i (map m SZ)) in HX. eapply exact_app, HX.
      - eapply (exact_right k _ (skipn i (map m SZ)) _ (skipn i (map m SZ'))); [exact Hk| |exact F|..]; rewrite ?firstn_skipn; auto. apply Permutation_map, PS. }
    destruct (side k1 sg (map (fun q => fst (snd q)) SZ') (e_sum E g) (e_sum E' g') (fun q => fst (snd q)) K1) as [G1 G2]; [eapply exact_perm; eauto|exact Esg|reflexivity|eapply is_sum_perm; [exact Pg2|apply HE]|eapply is_sum_perm; [exact Pg3|apply HE']|].
    destruct (side k2 sh (map (fun q => snd (snd q)) SZ') (e_sum E h) (e_sum E' h') (fun q => snd (snd q)) K2) as [H1 H2]; [eapply exact_perm; eauto|exact Esh|reflexivity|eapply is_sum_perm; [exact Ph2|apply HE]|eapply is_sum_perm; [exact Ph3|apply HE']|].
    cbv zeta. rewrite G1, G2, H1, H2, Sg, Sh. reflexivity.
  - destruct HC as (y & sy & Hy & Hsy & ->). specialize (HX _ Hy). pose proof (Forall2_len _ _ _ Hy) as Ly.
    destruct (read_perm (readY f) _ _ ix ix' (combine col y) HP) as (Z1 & HPZ & HF1).
    { pose proof (Forall2_split _ _ _ _ _ Hcol Hy) as HF. revert HF. apply Forall2_impl'. intros j [v yy] _ ((row & [_ R1] & [_ R2]) & [_ R3]).
      cbn [fst snd] in *. unfold readY; cbn [fst snd]. rewrite R1, R2, R3. reflexivity. }
    assert (HF : Forall2 (fun j z => cell X' j f (fst z) /\ look (to_y o') j (snd z)) ix' Z1).
    { revert HF1. apply Forall2_impl'. intros j z Hj Hz. specialize (Hpos j Hj). unfold readY in Hz. cbn [fst snd] in Hz.
      destruct (nth_error X' (Z.to_nat j)) as [row|] eqn:R1; [|discriminate]. destruct (nth_error row (Z.to_nat f)) as [v|] eqn:R2; [|discriminate].
      destruct (nth_error (to_y o') (Z.to_nat j)) as [yy|] eqn:R3; [|discriminate].
      injection Hz as <-. cbn [fst snd]. split; [exists row; repeat split; auto|]. repeat split; auto. }
    set (col' := map fst Z1). set (y' := map snd Z1).
    assert (C1 : Forall2 (fun j v => cell X' j f v) ix' col') by (unfold col'; eapply Forall2_impl2; [|exact HF]; cbn beta; tauto).
    assert (C2 : Forall2 (look (to_y o')) ix' y') by (unfold y'; eapply Forall2_impl2; [|exact HF]; cbn beta; tauto).
    assert (NNc' : forall x, In x col' -> fnanb x = false).
    { intros x Hx. apply In_nth_error in Hx as [n Hn]. destruct (nth_error ix' n) as [j|] eqn:Hj.
      - destruct (Forall2_nth1 _ _ _ C1 _ _ Hj) as (x' & Hx' & Hc). assert (x' = x) by congruence. subst x'. eapply HN'; eauto.
      - apply nth_error_None in Hj. assert (n < length col')%nat by (apply nth_error_Some; congruence). pose proof (Forall2_len _ _ _ C1). lia. }
    destruct (sorted_zip E col y HE) as (SZ & S1 & S2 & S3 & S4); [lia|exact NNc|].
    destruct (sorted_zip E' col' y' HE') as (SZ' & T1 & T2 & T3 & T4); [unfold y', col'; rewrite !map_length; reflexivity|exact NNc'|].
    unfold col', y' in T1. rewrite combine_split' in T1.
    assert (PS : Permutation SZ SZ') by (rewrite <- S1, HPZ; exact T1).
    rewrite S3, nth_error_map in Ha, Hb. destruct (nth_error SZ (i - 1)) as [[a0 pa]|] eqn:Ea; [|discriminate]. destruct (nth_error SZ i) as [[b0 pb]|] eqn:Eb; [|discriminate].
    cbn in Ha, Hb. injection Ha as ->. injection Hb as ->.
    destruct (boundary_perm SZ SZ' i a b pa pb S2 T2 PS ltac:(lia) Ea Eb Hab) as (a' & b' & pa' & pb' & Ea' & Eb' & Qa & Qb & PF & PK).
    exists col', a', b'. split; [exact C1|]. split; [rewrite <- Hlen; exact Hi|]. split; [rewrite T3, nth_error_map, Ea'; reflexivity|]. split; [rewrite T3, nth_error_map, Eb'; reflexivity|].
    assert (Hlt : fltb a b = true).
    { pose proof (S2 (i - 1)%nat i _ _ ltac:(lia) Ea Eb) as HH. cbn [fst] in HH. rewrite fleb_split in HH. apply orb_prop in HH as [HH|HH]; [exact HH|congruence]. }
    split. { destruct (feqb a' b') eqn:EE; [|reflexivity]. apply feqb_true in EE as (_ & _ & EE). apply feqb_true in Qa as (_ & _ & Qa). apply feqb_true in Qb as (_ & _ & Qb). apply fltb_true in Hlt as (_ & _ & Hlt). lra. }
    rewrite <- Hlen. split; [exact M1|]. split; [exact M2|]. split; [rewrite Hthr; apply midpoint_eq; auto|].
    assert (Esy : sy = map snd SZ) by (eapply looks_fun; [exact Hsy|exact S4]).
    exists y', (map snd SZ'). split; [exact C2|]. split; [exact T4|].
    assert (Py : Permutation y y'). { apply (Permutation_map snd) in HPZ. unfold y'. rewrite <- HPZ. rewrite combine_map_snd by lia. reflexivity. }
    assert (Py2 : Permutation y sy). { rewrite Esy. apply (Permutation_map snd) in S1. rewrite <- S1. rewrite combine_map_snd by lia. reflexivity. }
    assert (Py3 : Permutation y' (map snd SZ')). { unfold y'. apply Permutation_map. exact T1. }
    assert (PPS : Permutation sy (map snd SZ')) by (rewrite <- Py2, Py; exact Py3).
    assert (HXs : exact k1 sy) by (eapply exact_perm; eauto).
    assert (Sy : e_sum E sy = e_sum E' (map snd SZ')) by (eapply exact_sum; [exact K1|exact HXs|exact PPS|apply HE|apply HE']).
    assert (F : Permutation (firstn i sy) (firstn i (map snd SZ'))) by (rewrite Esy, !firstn_map; apply Permutation_map, PF).
    assert (G1 : fold_left fadd (firstn i sy) fzero = fold_left fadd (firstn i (map snd SZ')) fzero).
    { apply (exact_left k1); [exact K1| |exact F]. rewrite <- (firstn_skipn i sy) in HXs. eapply exact_app, HXs. }
    assert (G2 : fold_left fsub (firstn i sy) (e_sum E sy) = fold_left fsub (firstn i (map snd SZ')) (e_sum E' (map snd SZ'))).
    { eapply (exact_right k1 _ (skipn i sy) _ (skipn i (map snd SZ'))); [exact K1| |exact F|..]; rewrite ?firstn_skipn; auto; [apply HE|apply HE']. }
    cbv zeta. rewrite G1, G2, Sy. reflexivity.
Qed.
End Cand.

(** ** Nodes *)
Lemma exact_filter {k} (l : list f64) ix ga p g : Forall2 (look l) ix ga -> exact k ga -> Forall2 (look l) (filter p ix) g -> exact k g.
Proof.
  intros HG HX HF. destruct (Permutation_Forall2 (filter_split_perm p ix) HG) as (ga' & HP & HA).
  apply Forall2_app_inv_l in HA as (g1 & g2 & A1 & A2 & ->). rewrite (looks_fun _ _ _ _ HF A1). eapply exact_app, exact_perm; eauto.
Qed.
Lemma looks_perm (l l' : list f64) ix ix' g' : Permutation (map (fun j => nth_error l (Z.to_nat j)) ix) (map (fun j => nth_error l' (Z.to_nat j)) ix') ->
  (forall j, In j ix -> 0 <= j) -> Forall2 (look l') ix' g' -> exists g, Forall2 (look l) ix g /\ Permutation g g'.
Proof.
  intros HP Hpos HF. assert (HE : map (fun j => nth_error l' (Z.to_nat j)) ix' = map Some g').
  { apply Forall2_map_eq. revert HF. apply Forall2_impl'. intros j v _ [_ H]. exact H. }
  rewrite HE in HP. apply Permutation_map_inv in HP as (g & E1 & HP). exists g. split; [|apply Permutation_sym; exact HP].
  apply Forall2_map_eq in E1. revert E1. apply Forall2_impl'. intros j v Hj H. split; [apply Hpos; auto|exact H].
Qed.
Definition belowInfo (f : Z) (thr : f64) (s : option (list f64) * (option f64 * option f64)) : bool :=
  match fst s with Some row => match nth_error row (Z.to_nat f) with Some v => fleb v thr | None => false end | None => false end.
Lemma filter_info X o f thr (q : bool -> bool) ix :
  map (sampleInfo X o) (filter (fun i => q (below X f thr i)) ix) = filter (fun s => q (belowInfo f thr s)) (map (sampleInfo X o) ix).
Proof.
  induction ix as [|i ix IH]; [reflexivity|]. cbn [filter map]. replace (belowInfo f thr (sampleInfo X o i)) with (below X f thr i) by reflexivity.
  destruct (q (below X f thr i)); cbn [map]; rewrite IH; reflexivity.
Qed.
Lemma nodes_noSamples t : nodes (noSamples t) = nodes t.
Proof. induction t as [|d l IHl r IHr]; [reflexivity|]. cbn [noSamples nodes]. rewrite IHl, IHr. reflexivity. Qed.
Section Tree.
Context (E E' : Env) (HE : EnvOk E) (HE' : EnvOk E').
Context (X X' : list (list f64)) (HN : forall i f v, cell X i f v -> fnanb v = false) (HN' : forall i f v, cell X' i f v -> fnanb v = false).
Context (w : nat) (Hw : forall row, In row X -> length row = w) (Hw' : forall row, In row X' -> length row = w).

Definition paired (o o' : TreeOptions) : Prop :=
  to_xgb o' = to_xgb o /\ to_mcw o' = to_mcw o /\ to_allowed o' = to_allowed o /\ to_lambda o' = to_lambda o /\ to_gamma o' = to_gamma o /\
  Permutation (map (sampleInfo X o) (initialSamples X o)) (map (sampleInfo X' o') (initialSamples X' o')) /\
  (forall j, In j (initialSamples X o) -> 0 <= j) /\ (forall j, In j (initialSamples X' o') -> 0 <= j).
Lemma info_fst o ix : map (fun s => fst (snd s)) (map (sampleInfo X o) ix) = if to_xgb o then map (fun j => nth_error (orNil (to_grads o)) (Z.to_nat j)) ix else map (fun j => nth_error (to_y o) (Z.to_nat j)) ix.
Proof. rewrite map_map. unfold sampleInfo. destruct (to_xgb o); reflexivity. Qed.
Lemma paired_looks o o' : paired o o' ->
  if to_xgb o then
    Permutation (map (fun j => nth_error (orNil (to_grads o)) (Z.to_nat j)) (initialSamples X o)) (map (fun j => nth_error (orNil (to_grads o')) (Z.to_nat j)) (initialSamples X' o')) /\
    Permutation (map (fun j => nth_error (orNil (to_hess o)) (Z.to_nat j)) (initialSamples X o)) (map (fun j => nth_error (orNil (to_hess o')) (Z.to_nat j)) (initialSamples X' o'))
  else Permutation (map (fun j => nth_error (to_y o) (Z.to_nat j)) (initialSamples X o)) (map (fun j => nth_error (to_y o') (Z.to_nat j)) (initialSamples X' o')).
Proof.
  intros (Ex & _ & _ & _ & _ & HP & _). pose proof (Permutation_map (fun s => fst (snd s)) HP) as P1. pose proof (Permutation_map (fun s => snd (snd s)) HP) as P2.
  rewrite !map_map in P1, P2. unfold sampleInfo in P1, P2. rewrite Ex in P1, P2. destruct (to_xgb o); cbn [fst snd] in P1, P2; [split; assumption|assumption].
Qed.
Lemma exactNode_perm k1 k2 o o' : paired o o' -> exactNode k1 k2 o (initialSamples X o) -> exactNode k1 k2 o' (initialSamples X' o').
Proof.
  intros HP (K1 & K2 & HX). pose proof (paired_looks o o' HP) as HL. destruct HP as (Ex & _ & _ & _ & _ & _ & Hpos & _). split; [exact K1|]. split; [exact K2|]. rewrite Ex. destruct (to_xgb o).
  - destruct HX as [X1 X2]. destruct HL as [L1 L2]. split.
    + intros g' Hg. destruct (looks_perm _ _ _ _ _ L1 Hpos Hg) as (g & G1 & G2). eapply exact_perm; eauto.
    + intros g' Hg. destruct (looks_perm _ _ _ _ _ L2 Hpos Hg) as (g & G1 & G2). eapply exact_perm; eauto.
  - intros g' Hg. destruct (looks_perm _ _ _ _ _ HL Hpos Hg) as (g & G1 & G2). eapply exact_perm; eauto.
Qed.
Lemma value_same k1 k2 o o' v s v' s' : paired o o' -> exactNode k1 k2 o (initialSamples X o) ->
  nodeValue E (prepare X o) (initialSamples X o) = Ok (v, s) -> nodeValue E' (prepare X' o') (initialSamples X' o') = Ok (v', s') -> v = v'.
Proof.
  intros HP (K1 & K2 & HX) H H'. pose proof (paired_looks o o' HP) as HL. destruct HP as (Ex & _ & _ & El & _ & _ & Hpos & Hpos').
  unfold nodeValue in H, H'. cbn [prepare to_xgb to_grads to_hess to_y to_lambda] in H, H'. rewrite Ex in H'. destruct (to_xgb o).
  - apply bind_Ok in H as (g & Hg & H). apply bind_Ok in H as (h & Hh & H). apply bind_Ok in H' as (g' & Hg' & H'). apply bind_Ok in H' as (h' & Hh' & H').
    apply SampleSlice_Ok in Hg as [_ Hg]. apply SampleSlice_Ok in Hh as [_ Hh]. apply SampleSlice_Ok in Hg' as [_ Hg']. apply SampleSlice_Ok in Hh' as [_ Hh'].
    destruct HX as [X1 X2]. destruct HL as [L1 L2].
    destruct (looks_perm _ _ _ _ _ L1 Hpos Hg') as (g1 & G1 & G2). rewrite (looks_fun _ _ _ _ G1 Hg) in G2.
    destruct (looks_perm _ _ _ _ _ L2 Hpos Hh') as (h1 & H1 & H2). rewrite (looks_fun _ _ _ _ H1 Hh) in H2.
    assert (Sg : e_sum E g = e_sum E' g') by (eapply exact_sum; [exact K1|apply X1; exact Hg|exact G2|apply HE|apply HE']).
    assert (Sh : e_sum E h = e_sum E' h') by (eapply exact_sum; [exact K2|apply X2; exact Hh|exact H2|apply HE|apply HE']).
    rewrite El, <- Sg, <- Sh in H'. clear -H H'. rewrite H in H'. injection H' as ->. reflexivity.
  - apply bind_Ok in H as (y & Hy & H). apply bind_Ok in H' as (y' & Hy' & H'). apply SampleSlice_Ok in Hy as [_ Hy]. apply SampleSlice_Ok in Hy' as [_ Hy'].
    destruct (looks_perm _ _ _ _ _ HL Hpos Hy') as (y1 & Y1 & Y2). rewrite (looks_fun _ _ _ _ Y1 Hy) in Y2.
    assert (Sy : e_sum E y = e_sum E' y') by (eapply exact_sum; [exact K1|apply HX; exact Hy|exact Y2|apply HE|apply HE']).
    rewrite <- Sy, <- (Permutation_length Y2) in H'. clear -H H'. rewrite H in H'. injection H' as ->. reflexivity.
Qed.
Lemma paired_sym_perm o o' f i sc thr k1 k2 : paired o o' -> exactNode k1 k2 o (initialSamples X o) ->
  candidate E X o (initialSamples X o) f i sc thr <-> candidate E' X' o' (initialSamples X' o') f i sc thr.
Proof.
  intros HP HX. pose proof (exactNode_perm _ _ _ _ HP HX) as HX'. destruct HP as (Ex & Em & Ea & El & Eg & HP & P1 & P2). split.
  - apply (candidate_perm E E' HE HE' X X' HN HN' k1 k2); auto.
  - apply (candidate_perm E' E HE' HE X' X HN' HN k1 k2); auto. apply Permutation_sym. exact HP.
Qed.
Lemma candidate_fun o ix f i sc thr sc' thr' : candidate E X o ix f i sc thr -> candidate E X o ix f i sc' thr' -> sc = sc' /\ thr = thr'.
Proof.
  intros (c & a & b & H1 & _ & H2 & H3 & _ & _ & _ & -> & HC) (c' & a' & b' & H1' & _ & H2' & H3' & _ & _ & _ & -> & HC').
  rewrite (col_fun _ _ _ _ _ H1' H1) in *. rewrite H2 in H2'. rewrite H3 in H3'. injection H2' as ->. injection H3' as ->. split; [|reflexivity]. destruct (to_xgb o).
  - destruct HC as (g & h & sg & sh & A1 & A2 & A3 & A4 & ->). destruct HC' as (g' & h' & sg' & sh' & B1 & B2 & B3 & B4 & ->).
    rewrite (looks_fun _ _ _ _ B1 A1) in *. rewrite (looks_fun _ _ _ _ B2 A2) in *. rewrite (looks_fun _ _ _ _ B3 A3) in *. rewrite (looks_fun _ _ _ _ B4 A4) in *. reflexivity.
  - destruct HC as (y & sy & A1 & A2 & ->). destruct HC' as (y' & sy' & B1 & B2 & ->). rewrite (looks_fun _ _ _ _ B1 A1) in *. rewrite (looks_fun _ _ _ _ B2 A2) in *. reflexivity.
Qed.
Lemma better_nan xgb x y : betterScore xgb x y = true -> fnanb x = false.
Proof. unfold betterScore. destruct xgb; intros H; apply fltb_nnan in H; tauto. Qed.
Lemma best_same k1 k2 o o' fs b b' : paired o o' -> exactNode k1 k2 o (initialSamples X o) -> StronglySorted Z.lt fs ->
  foldM (findBetterSplit E X (prepare X o) (initialSamples X o)) (b0 (to_xgb o)) fs = Ok b ->
  foldM (findBetterSplit E' X' (prepare X' o') (initialSamples X' o')) (b0 (to_xgb o')) fs = Ok b' -> b = b'.
Proof.
  intros HP HX HS H H'. apply (foldM_cand E HE) in H as [A B]; [|exact HS]. apply (foldM_cand E' HE') in H' as [A' B']; [|exact HS].
  change (to_xgb (prepare X o)) with (to_xgb o) in *. change (to_xgb (prepare X' o')) with (to_xgb o') in *.
  assert (Ex : to_xgb o' = to_xgb o) by apply HP. rewrite Ex in *.
  assert (HC : forall f i sc thr, candidate E X (prepare X o) (initialSamples X o) f i sc thr <-> candidate E' X' (prepare X' o') (initialSamples X' o') f i sc thr).
  { intros. rewrite (candidate_prepare E), (candidate_prepare E'). apply (paired_sym_perm o o' f i sc thr k1 k2 HP HX). }
  destruct B as [->|(f & i & B1 & B2 & B3 & B4 & B5)]; destruct B' as [->|(f' & i' & C1 & C2 & C3 & C4 & C5)].
  - reflexivity.
  - exfalso. apply HC in C2. specialize (A _ _ _ _ C1 C2). congruence.
  - exfalso. apply HC in B2. specialize (A' _ _ _ _ B1 B2). congruence.
  - assert (N1 : fnanb (b_score b) = false) by (eapply better_nan; eauto). assert (N2 : fnanb (b_score b') = false) by (eapply better_nan; eauto).
    assert (Hfi : f = f' /\ i = i').
    { destruct (Z.lt_trichotomy f f') as [Hlt|[->|Hlt]].
      - exfalso. apply HC in B2. destruct (C5 f i _ _ B1 (or_introl Hlt) B2) as [N|N]; [congruence|]. apply HC in C2. specialize (A _ _ _ _ C1 C2). congruence.
      - split; [reflexivity|]. destruct (Nat.lt_trichotomy i i') as [Hlt|[->|Hlt]]; [|reflexivity|]; exfalso.
        + apply HC in B2. destruct (C5 f' i _ _ B1 (or_intror (conj eq_refl Hlt)) B2) as [N|N]; [congruence|]. apply HC in C2. specialize (A _ _ _ _ C1 C2). congruence.
        + apply HC in C2. destruct (B5 f' i' _ _ C1 (or_intror (conj eq_refl Hlt)) C2) as [N|N]; [congruence|]. apply HC in B2. specialize (A' _ _ _ _ B1 B2). congruence.
      - exfalso. apply HC in C2. destruct (B5 f' i' _ _ C1 (or_introl Hlt) C2) as [N|N]; [congruence|]. apply HC in B2. specialize (A' _ _ _ _ B1 B2). congruence. }
    destruct Hfi as [<- <-]. apply HC in C2. destruct (candidate_fun _ _ _ _ _ _ _ _ B2 C2) as [E1 E2]. destruct b as [s1 f1 t1], b' as [s2 f2 t2]. cbn [b_score b_split b_thr] in *. congruence.
Qed.
Lemma row0_len Y (r : list f64) : (forall row, In row Y -> length row = w) -> idx Y 0 = Ok r -> length r = w.
Proof. intros H HI. apply look_idx in HI as [_ HI]. apply H. eapply nth_error_In; eauto. Qed.
Lemma exactNode_child k1 k2 o v p : exactNode k1 k2 o (initialSamples X o) -> nodeValue E (prepare X o) (initialSamples X o) = Ok v ->
  exactNode k1 k2 (childOpts (prepare X o) (filter p (initialSamples X o))) (filter p (initialSamples X o)).
Proof.
  intros (K1 & K2 & HX) HV. split; [exact K1|]. split; [exact K2|]. unfold nodeValue in HV. cbn [prepare to_xgb to_grads to_hess to_y to_lambda] in HV.
  change (to_xgb (childOpts (prepare X o) (filter p (initialSamples X o)))) with (to_xgb o). change (to_grads (childOpts (prepare X o) (filter p (initialSamples X o)))) with (to_grads o).
  change (to_hess (childOpts (prepare X o) (filter p (initialSamples X o)))) with (to_hess o). change (to_y (childOpts (prepare X o) (filter p (initialSamples X o)))) with (to_y o).
  destruct (to_xgb o).
  - apply bind_Ok in HV as (g & Hg & HV). apply bind_Ok in HV as (h & Hh & _). apply SampleSlice_Ok in Hg as [_ Hg]. apply SampleSlice_Ok in Hh as [_ Hh]. destruct HX as [X1 X2].
    split; intros z Hz; [exact (exact_filter _ _ _ _ _ Hg (X1 _ Hg) Hz)|exact (exact_filter _ _ _ _ _ Hh (X2 _ Hh) Hz)].
  - apply bind_Ok in HV as (y & Hy & _). apply SampleSlice_Ok in Hy as [_ Hy]. intros z Hz; exact (exact_filter _ _ _ _ _ Hy (HX _ Hy) Hz).
Qed.
Lemma paired_child o o' f thr (q : bool -> bool) : paired o o' ->
  paired (childOpts (prepare X o) (filter (fun i => q (below X f thr i)) (initialSamples X o))) (childOpts (prepare X' o') (filter (fun i => q (below X' f thr i)) (initialSamples X' o'))).
Proof.
  intros (Ex & Em & Ea & El & Eg & HP & P1 & P2). unfold paired. cbn [childOpts prepare clone to_xgb to_mcw to_allowed to_lambda to_gamma initialSamples to_indexes].
  split; [exact Ex|]. split; [exact Em|]. split; [reflexivity|]. split; [exact El|]. split; [exact Eg|]. split.
  - change (sampleInfo X (childOpts (prepare X o) (filter (fun i => q (below X f thr i)) (initialSamples X o)))) with (sampleInfo X o).
    change (sampleInfo X' (childOpts (prepare X' o') (filter (fun i => q (below X' f thr i)) (initialSamples X' o')))) with (sampleInfo X' o').
    rewrite !filter_info. apply filter_perm. exact HP.
  - split; intros j Hj; apply filter_In in Hj as [Hj _]; auto.
Qed.
Lemma grown_same k1 k2 n : forall o o' t t', paired o o' -> exactNode k1 k2 o (initialSamples X o) -> grown E X n o t -> grown E' X' n o' t' -> noSamples t = noSamples t'.
Proof.
  induction n as [|n IH]; intros o o' t t' HP HX H H'.
  - inversion H as [n1 o1 v row0 b HV H0 HB HL1|]; subst. inversion H' as [n1' o1' v' row0' b' HV' H0' HB' HL1'|]; subst.
    destruct HB as [[_ ->]|[HB _]]; [|congruence]. destruct HB' as [[_ ->]|[HB' _]]; [|congruence].
    pose proof (value_same _ _ _ _ _ _ _ _ HP HX HV HV') as ->. destruct HP as (Ex & _ & _ & _ & _ & HP & _). apply Permutation_length in HP. rewrite !map_length in HP.
    cbn [noSamples t_best t_value t_nsamples t_split t_thr t_xgb t_branches]. rewrite Ex, HP. reflexivity.
  - assert (HB0 : exists v row0 b, nodeValue E (prepare X o) (initialSamples X o) = Ok (v, startScore (to_xgb o)) /\ idx X 0 = Ok row0 /\
        foldM (findBetterSplit E X (prepare X o) (initialSamples X o)) (b0 (to_xgb o)) (scannedColumns (length row0) (to_allowed o)) = Ok b).
    { inversion H as [n1 o1 v row0 b HV H0 HB HL1|n1 o1 v row0 b col l1 r1 HV H0 HF HL1 HC Hl Hr]; subst; exists v, row0, b; [|auto]. destruct HB as [[HB _]|[_ HB]]; [discriminate|auto]. }
    assert (HB0' : exists v row0 b, nodeValue E' (prepare X' o') (initialSamples X' o') = Ok (v, startScore (to_xgb o')) /\ idx X' 0 = Ok row0 /\
        foldM (findBetterSplit E' X' (prepare X' o') (initialSamples X' o')) (b0 (to_xgb o')) (scannedColumns (length row0) (to_allowed o')) = Ok b).
    { inversion H' as [n1 o1 v row0 b HV H0 HB HL1|n1 o1 v row0 b col l1 r1 HV H0 HF HL1 HC Hl Hr]; subst; exists v, row0, b; [|auto]. destruct HB as [[HB _]|[_ HB]]; [discriminate|auto]. }
    destruct HB0 as (v & row0 & b & HV & H0 & HF). destruct HB0' as (v' & row0' & b' & HV' & H0' & HF').
    pose proof (row0_len _ _ Hw H0) as W. pose proof (row0_len _ _ Hw' H0') as W'.
    assert (Ex : to_xgb o' = to_xgb o) by apply HP. assert (Ea : to_allowed o' = to_allowed o) by apply HP.
    assert (Hlen : length (initialSamples X' o') = length (initialSamples X o)) by (destruct HP as (_ & _ & _ & _ & _ & HPP & _); apply Permutation_length in HPP; rewrite !map_length in HPP; auto).
    rewrite W in HF. rewrite W', Ea in HF'. pose proof (best_same k1 k2 o o' _ b b' HP HX (scannedColumns_sorted w (to_allowed o)) HF HF') as Eb. subst b'.
    pose proof (value_same _ _ _ _ _ _ _ _ HP HX HV HV') as Ev. subst v'.
    inversion H as [n1 o1 v1 row1 b1 HV1 H01 HB HL1|n1 o1 v1 row1 b1 col l1 r1 HV1 H01 HF1 HL1 HC Hl Hr]; subst;
    inversion H' as [n1' o1' v1' row1' b1' HV1' H01' HB' HL1'|n1' o1' v1' row1' b1' col' l1' r1' HV1' H01' HF1' HL1' HC' Hl' Hr']; subst.
    + destruct HB as [[HB _]|[_ HB]]; [discriminate|]. destruct HB' as [[HB' _]|[_ HB']]; [discriminate|].
      rewrite H0 in H01. rewrite H0' in H01'. injection H01 as <-. injection H01' as <-. rewrite W' , Ea in HB'. rewrite HF in HB. rewrite HF' in HB'. apply Ok_inj' in HB, HB'. subst b1 b1'.
      rewrite HV in HV1. rewrite HV' in HV1'. injection HV1 as <-. injection HV1' as <-.
      cbn [noSamples t_best t_value t_nsamples t_split t_thr t_xgb t_branches]. rewrite Ex, Hlen. reflexivity.
    + exfalso. destruct HB as [[HB _]|[_ HB]]; [discriminate|]. rewrite H0 in H01. rewrite H0' in H01'. injection H01 as <-. injection H01' as <-. rewrite W', Ea in HF1'. rewrite HF in HB. rewrite HF' in HF1'. apply Ok_inj' in HB, HF1'. subst. rewrite Ex in *. congruence.
    + exfalso. destruct HB' as [[HB' _]|[_ HB']]; [discriminate|]. rewrite H0 in H01. rewrite H0' in H01'. injection H01 as <-. injection H01' as <-. rewrite W', Ea in HB'. rewrite HF in HF1. rewrite HF' in HB'. apply Ok_inj' in HB', HF1. subst. rewrite Ex in *. congruence.
    + rewrite H0 in H01. rewrite H0' in H01'. injection H01 as <-. injection H01' as <-. rewrite W' , Ea in HF1'. rewrite HF in HF1. rewrite HF' in HF1'. apply Ok_inj' in HF1, HF1'. subst b1 b1'.
      rewrite HV in HV1. rewrite HV' in HV1'. injection HV1 as <-. injection HV1' as <-.
      assert (El : noSamples l1 = noSamples l1'). { eapply IH; [apply (paired_child o o' (b_split b) (b_thr b) (fun x => x)); exact HP| |exact Hl|exact Hl']. eapply exactNode_child; eauto. }
      assert (Er : noSamples r1 = noSamples r1'). { eapply IH; [apply (paired_child o o' (b_split b) (b_thr b) negb); exact HP| |exact Hr|exact Hr']. eapply exactNode_child; eauto. }
      assert (Bl : branchesOf l1 = branchesOf l1'). { rewrite (grown_branches _ _ _ _ _ Hl), (grown_branches _ _ _ _ _ Hl'). rewrite <- (nodes_noSamples l1), El, nodes_noSamples. reflexivity. }
      assert (Br : branchesOf r1 = branchesOf r1'). { rewrite (grown_branches _ _ _ _ _ Hr), (grown_branches _ _ _ _ _ Hr'). rewrite <- (nodes_noSamples r1), Er, nodes_noSamples. reflexivity. }
      cbn [noSamples t_best t_value t_nsamples t_split t_thr t_xgb t_branches]. rewrite Ex, Hlen, El, Er, Bl, Br. reflexivity.
Qed.
End Tree.
Lemma predict_noSamples t row : PredictSingle (noSamples t) row = PredictSingle t row.
Proof.
  induction t as [|d l IHl r IHr]; [reflexivity|]. cbn [noSamples PredictSingle t_split t_thr t_value]. unfold t_leaf. cbn [t_xgb t_best]. rewrite IHl, IHr. reflexivity.
Qed.
Lemma c128_lemma E E' X X' o o' t t' w : EnvOk E -> EnvOk E' -> (forall i f v, cell X i f v -> fnanb v = false) -> (forall i f v, cell X' i f v -> fnanb v = false) ->
  (forall row, In row X \/ In row X' -> length row = w) -> sameSamples X o X' o' -> (forall l, summed X o l -> sumsExactly l) ->
  NewTree E X o = Ok t -> NewTree E' X' o' = Ok t' -> noSamples t = noSamples t' /\ forall row, PredictSingle t row = PredictSingle t' row.
Proof.
  intros HE HE' HN HN' Hw (Ex & Em & Ea & El & Eg & Ed & HP) HS H H'.
  assert (HR : noSamples t = noSamples t'); [|split; [exact HR|]; intros row; rewrite <- (predict_noSamples t), HR, predict_noSamples; reflexivity].
  assert (Hpos : forall Y E0 oo tt, NewTree E0 Y oo = Ok tt -> forall j, In j (initialSamples Y oo) -> 0 <= j).
  { clear. intros Y E0 oo tt H j Hj. apply NewTree_grown in H.
    assert (HV : exists v, nodeValue E0 (prepare Y oo) (initialSamples Y oo) = Ok v) by (inversion H; subst; eauto). destruct HV as [v HV]. unfold nodeValue in HV.
    assert (HL : exists (l : list f64) g, Forall2 (look l) (initialSamples Y oo) g).
    { cbn [prepare to_xgb to_grads to_hess to_y to_lambda] in HV. destruct (to_xgb oo); apply bind_Ok in HV as (g & Hg & _); apply SampleSlice_Ok in Hg as [_ Hg]; eauto. }
    destruct HL as (l & g & HL). apply In_nth_error in Hj as [n Hn]. destruct (Forall2_nth1 _ _ _ HL _ _ Hn) as (x & _ & Hx & _). exact Hx. }
  assert (HX : exists k1 k2, exactNode k1 k2 o (initialSamples X o)).
  { pose proof (NewTree_grown _ _ _ _ H) as HG. assert (HV : exists v, nodeValue E (prepare X o) (initialSamples X o) = Ok v) by (inversion HG; subst; eauto). destruct HV as [v HV]. unfold nodeValue in HV.
    cbn [prepare to_xgb to_grads to_hess to_y to_lambda] in HV. unfold summed in HS. unfold exactNode. destruct (to_xgb o).
    - apply bind_Ok in HV as (g & Hg & HV). apply bind_Ok in HV as (h & Hh & _). apply SampleSlice_Ok in Hg as [_ Hg]. apply SampleSlice_Ok in Hh as [_ Hh].
      destruct (HS g (or_introl Hg)) as (k1 & m1 & K1 & E1 & B1). destruct (HS h (or_intror Hh)) as (k2 & m2 & K2 & E2 & B2). exists k1, k2. split; [exact K1|]. split; [exact K2|].
      split; intros z Hz; [rewrite (looks_fun _ _ _ _ Hz Hg); exists m1|rewrite (looks_fun _ _ _ _ Hz Hh); exists m2]; auto.
    - apply bind_Ok in HV as (y & Hy & _). apply SampleSlice_Ok in Hy as [_ Hy]. destruct (HS y Hy) as (k1 & m1 & K1 & E1 & B1). exists k1, k1. split; [exact K1|]. split; [exact K1|].
      intros z Hz. rewrite (looks_fun _ _ _ _ Hz Hy). exists m1. auto. }
  destruct HX as (k1 & k2 & HX).
  assert (HPP : paired X X' o o') by (unfold paired; repeat (split; [assumption|]); split; [eapply Hpos; eauto|eapply Hpos; eauto]).
  apply NewTree_grown in H, H'. rewrite Ed in H'.
  eapply (grown_same E E' HE HE' X X' HN HN' w); eauto.
Qed.
