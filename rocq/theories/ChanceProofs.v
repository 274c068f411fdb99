(** Counting sequences of draws; the distribution of SubSample (proof support for C161, C162). *)
From Coq Require Import Reals Lra Sorted.
From Flocq Require Import Core.
From Verif Require Import Base F64 F64Lemmas Env Utils Tree Options Train ActProofs TrainMore CV CVProofs SpecChance.
Open Scope Z_scope.

Lemma length_flat_map_const {A B} (f : A -> list B) c l : (forall a, In a l -> length (f a) = c) -> length (flat_map f l) = (length l * c)%nat.
Proof. induction l as [|a l IH]; intros H; cbn [flat_map length]; auto. rewrite app_length, IH, (H a (or_introl eq_refl)); [lia|]. intros b Hb. apply H. right. auto. Qed.
Lemma words_length {A} (U : list A) n : length (words U n) = (length U ^ n)%nat.
Proof. induction n as [|n IH]; cbn [words]; auto. rewrite (length_flat_map_const _ (length U ^ n)); [cbn; auto|]. intros a _. rewrite map_length. auto. Qed.
Lemma words_all {A} (U : list A) n : forall w, In w (words U n) <-> length w = n /\ incl w U.
Proof.
  induction n as [|n IH]; intros w; cbn [words].
  - split; [intros [<-|[]]; split; [auto|intros x []]|]. intros [H _]. destruct w; [left; auto|discriminate H].
  - rewrite in_flat_map. split.
    + intros (u & Hu & H). apply in_map_iff in H as (v & <- & Hv). apply IH in Hv as [H1 H2]. split; [cbn; auto|]. intros x [<-|Hx]; auto.
    + intros [H1 H2]. destruct w as [|u w]; [discriminate H1|]. exists u. split; [apply H2; left; auto|]. apply in_map, IH. split; [cbn in H1; lia|].
      intros x Hx. apply H2. right. auto.
Qed.
Lemma filter_map_length {A B} (f : A -> B) (P : B -> bool) l : length (filter P (map f l)) = length (filter (fun a => P (f a)) l).
Proof. induction l as [|a l IH]; cbn [map filter]; auto. destruct (P (f a)); cbn [length]; auto. Qed.
Lemma filter_ext_length {A} (P Q : A -> bool) l : (forall a, In a l -> P a = Q a) -> length (filter P l) = length (filter Q l).
Proof. intros H. rewrite (filter_ext_in _ _ _ H). reflexivity. Qed.
Lemma filter_flat_map {A B} (f : A -> list B) (P : B -> bool) l : filter P (flat_map f l) = flat_map (fun a => filter P (f a)) l.
Proof. induction l as [|a l IH]; cbn [flat_map filter]; auto. rewrite filter_app, IH. auto. Qed.
(** first draw splits the ways *)
Lemma ways_S {A} (U : list A) n P : ways U (S n) P = fold_right Z.add 0 (map (fun u => ways U n (fun w => P (u :: w))) U).
Proof.
  unfold ways. cbn [words]. rewrite filter_flat_map.
  assert (G : forall V, Z.of_nat (length (flat_map (fun a => filter P (map (cons a) (words U n))) V)) = fold_right Z.add 0 (map (fun u => Z.of_nat (length (filter (fun w => P (u :: w)) (words U n)))) V)).
  { induction V as [|u V IH]; cbn [flat_map map fold_right]; auto. rewrite app_length, Nat2Z.inj_add, IH, filter_map_length. auto. }
  apply G.
Qed.
Lemma ways_ext {A} (U : list A) n P Q : (forall w, length w = n -> incl w U -> P w = Q w) -> ways U n P = ways U n Q.
Proof. intros H. unfold ways. f_equal. apply filter_ext_length. intros w Hw. apply words_all in Hw as [H1 H2]. auto. Qed.
Lemma ways_none {A} (U : list A) n : ways U n (fun _ => false) = 0.
Proof. unfold ways. induction (words U n); auto. Qed.
Lemma sum_split {A} (U : list A) b x y : fold_right Z.add 0 (map (fun u => if b u : bool then x else y) U) = Z.of_nat (length (filter b U)) * x + (Z.of_nat (length U) - Z.of_nat (length (filter b U))) * y.
Proof. induction U as [|u U IH]; cbn [map fold_right filter length]; [lia|]. rewrite IH. destruct (b u); cbn [length]; lia. Qed.

(** ** SubSample *)
Definition pattern (b : f64 -> bool) (w : list f64) : list bool := map b w.
Definition chosen (pat : list bool) : list Z := map Z.of_nat (filter (fun i => nth i pat false) (seq 0 (length pat))).
Lemma subsample_pattern n s w : length w = n -> subsampleOf n s w = if ftoZ (fmul (fofZ (Z.of_nat n)) s) + 1 <? 0 then Panic else Ok (chosen (pattern (fun u => fleb u s) w)).
Proof.
  intros H. unfold subsampleOf, SubSample. destruct (_ <? 0); auto. rewrite Nat2Z.id. f_equal. unfold chosen, pattern. rewrite map_length, H. f_equal.
  apply filter_ext_in. intros i Hi. apply in_seq in Hi. rewrite (nth_indep _ false (fleb fzero s)) by (rewrite map_length; lia). rewrite (map_nth (fun u => fleb u s)). auto.
Qed.
Lemma patSeq pat : forall k, filter (fun i => nth (i - k) pat false) (seq k (length pat)) = flat_map (fun ib => if snd ib : bool then [fst ib] else []) (combine (seq k (length pat)) pat).
Proof.
  induction pat as [|b pat IH]; intros k; cbn [length seq filter combine flat_map]; auto. rewrite Nat.sub_diag. change (nth 0 (b :: pat) false) with b. cbn [snd fst].
  rewrite <- (IH (S k)). assert (E : filter (fun i => nth (i - k) (b :: pat) false) (seq (S k) (length pat)) = filter (fun i => nth (i - S k) pat false) (seq (S k) (length pat))).
  { apply filter_ext_in. intros i Hi. apply in_seq in Hi. replace (i - k)%nat with (S (i - S k)) by lia. auto. }
  rewrite E. destruct b; auto.
Qed.
Lemma chosen_In pat i : In i (chosen pat) <-> 0 <= i /\ nth (Z.to_nat i) pat false = true.
Proof.
  unfold chosen. rewrite in_map_iff. split.
  - intros (j & <- & H). apply filter_In in H as [_ H]. rewrite Nat2Z.id. split; [lia|auto].
  - intros [H1 H2]. exists (Z.to_nat i). split; [lia|]. apply filter_In. split; [|auto]. apply in_seq.
    destruct (Nat.lt_ge_cases (Z.to_nat i) (length pat)); [lia|]. rewrite nth_overflow in H2 by auto. discriminate H2.
Qed.
Lemma chosen_inj p q : length p = length q -> chosen p = chosen q -> p = q.
Proof.
  intros HL H. apply (nth_ext _ _ false false HL). intros i Hi. pose proof (chosen_In p (Z.of_nat i)) as H1. pose proof (chosen_In q (Z.of_nat i)) as H2.
  rewrite H in H1. rewrite Nat2Z.id in *. destruct (nth i p false), (nth i q false); auto; [symmetry; apply H2, H1|apply H1, H2]; split; auto; lia.
Qed.
Definition trues (pat : list bool) : nat := length (filter (fun b => b) pat).
Lemma chosen_length pat : length (chosen pat) = trues pat.
Proof.
  unfold chosen, trues. rewrite map_length. rewrite <- (filter_ext (fun i => nth (i - 0) pat false)); [|intros i; rewrite Nat.sub_0_r; auto]. rewrite patSeq.
  generalize 0%nat. induction pat as [|b pat IH]; intros k; cbn [length seq combine flat_map filter]; auto. rewrite app_length, IH. destruct b; auto.
Qed.
(** the pattern of a set of rows *)
Definition patOf (n : nat) (rows : list Z) : list bool := map (fun i => existsb (Z.eqb i) rows) (iota n).
Lemma existsb_In x l : existsb (Z.eqb x) l = true <-> In x l.
Proof. rewrite existsb_exists. split; [intros (y & H & E); apply Z.eqb_eq in E; subst; auto|]. intros H. exists x. split; [auto|apply Z.eqb_refl]. Qed.
Lemma sorted_unique l1 : forall l2, StronglySorted Z.lt l1 -> StronglySorted Z.lt l2 -> (forall i, In i l1 <-> In i l2) -> l1 = l2.
Proof.
  induction l1 as [|a l1 IH]; intros [|b l2] S1 S2 H; auto.
  - exfalso. apply (H b). left; auto.
  - exfalso. apply (H a). left; auto.
  - apply StronglySorted_inv in S1 as [S1 F1], S2 as [S2 F2]. rewrite Forall_forall in F1, F2.
    assert (a = b). { destruct (proj1 (H a) (or_introl eq_refl)) as [E|E]; [auto|]. destruct (proj2 (H b) (or_introl eq_refl)) as [E'|E']; [auto|]. apply F2 in E. apply F1 in E'. lia. }
    subst b. f_equal. apply IH; auto. intros i. split; intros Hi.
    + destruct (proj1 (H i) (or_intror Hi)) as [E|E]; [|auto]. subst i. apply F1 in Hi. lia.
    + destruct (proj2 (H i) (or_intror Hi)) as [E|E]; [|auto]. subst i. apply F2 in Hi. lia.
Qed.
Lemma chosen_sorted pat : StronglySorted Z.lt (chosen pat).
Proof.
  unfold chosen. generalize (fun i => nth i pat false). intros f. generalize 0%nat (length pat). intros k n. revert k. induction n as [|n IH]; intros k; cbn [seq filter map]; [constructor|].
  destruct (f k); [|apply IH]. cbn [map]. constructor; [apply IH|]. apply Forall_forall. intros x Hx. apply in_map_iff in Hx as (j & <- & Hj). apply filter_In in Hj as [Hj _]. apply in_seq in Hj. lia.
Qed.
Lemma chosen_patOf n rows : StronglySorted Z.lt rows -> (forall i, In i rows -> 0 <= i < Z.of_nat n) -> chosen (patOf n rows) = rows.
Proof.
  intros HS HR. apply sorted_unique; [apply chosen_sorted|auto|]. intros i. rewrite chosen_In. unfold patOf.
  destruct (Nat.lt_ge_cases (Z.to_nat i) n) as [Hi|Hi].
  - assert (E : nth (Z.to_nat i) (map (fun i => existsb (Z.eqb i) rows) (iota n)) false = existsb (Z.eqb (Z.of_nat (Z.to_nat i))) rows).
    { apply nth_error_nth. rewrite nth_error_map, iota_nth by auto. auto. }
    rewrite E, existsb_In. split; [intros [H1 H2]; rewrite Z2Nat.id in H2 by auto; auto|]. intros H. pose proof (HR i H). rewrite Z2Nat.id by lia. split; [lia|auto].
  - rewrite nth_overflow by (rewrite map_length, iota_length; auto). split; [intros [_ H]; discriminate H|]. intros H. apply HR in H. lia.
Qed.
Definition beq (p q : list bool) : bool := if list_eq_dec Bool.bool_dec p q then true else false.
Lemma ways_pattern (U : list f64) (b : f64 -> bool) pat : let k := Z.of_nat (length (filter b U)) in
  ways U (length pat) (fun w => beq (pattern b w) pat) = k ^ Z.of_nat (trues pat) * (Z.of_nat (length U) - k) ^ Z.of_nat (length pat - trues pat).
Proof.
  intros k. induction pat as [|c pat IH]; [reflexivity|]. cbn [length]. rewrite ways_S.
  assert (HT : (trues pat <= length pat)%nat) by (unfold trues; clear; induction pat as [|[] pat IH]; cbn; lia).
  assert (E : map (fun u => ways U (length pat) (fun w => beq (pattern b (u :: w)) (c :: pat))) U = map (fun u => if Bool.eqb (b u) c then ways U (length pat) (fun w => beq (pattern b w) pat) else 0) U).
  { apply map_ext. intros u. destruct (Bool.eqb (b u) c) eqn:Ec.
    - apply Bool.eqb_prop in Ec. apply ways_ext. intros w _ _. unfold beq, pattern. cbn [map]. rewrite Ec.
      destruct (list_eq_dec Bool.bool_dec (c :: map b w) (c :: pat)), (list_eq_dec Bool.bool_dec (map b w) pat); auto; congruence.
    - rewrite <- (ways_none U (length pat)). apply ways_ext. intros w _ _. unfold beq, pattern. cbn [map].
      destruct (list_eq_dec Bool.bool_dec (b u :: map b w) (c :: pat)) as [e|]; auto. injection e as e _. rewrite e, Bool.eqb_reflx in Ec. discriminate Ec. }
  rewrite E, IH. clear E IH. destruct c; unfold trues in *; cbn [filter length] in *.
  - rewrite (map_ext _ (fun u => if b u then k ^ Z.of_nat (length (filter (fun b => b) pat)) * (Z.of_nat (length U) - k) ^ Z.of_nat (length pat - length (filter (fun b => b) pat)) else 0)) by (intros u; destruct (b u); auto).
    rewrite sum_split. fold k. rewrite Nat2Z.inj_succ, Z.pow_succ_r by lia. change (S (length pat) - S (length (filter (fun b => b) pat)))%nat with (length pat - length (filter (fun b => b) pat))%nat. ring.
  - rewrite (map_ext _ (fun u => if b u then 0 else k ^ Z.of_nat (length (filter (fun b => b) pat)) * (Z.of_nat (length U) - k) ^ Z.of_nat (length pat - length (filter (fun b => b) pat)))) by (intros u; destruct (b u); auto).
    rewrite sum_split. fold k. replace (S (length pat) - length (filter (fun b => b) pat))%nat with (S (length pat - length (filter (fun b => b) pat))) by lia.
    rewrite Nat2Z.inj_succ, Z.pow_succ_r by lia. ring.
Qed.
Lemma ways_trues (U : list f64) (b : f64 -> bool) : let k := Z.of_nat (length (filter b U)) in forall n j,
  ways U n (fun w => Nat.eqb (trues (pattern b w)) j) = binom n j * k ^ Z.of_nat j * (Z.of_nat (length U) - k) ^ Z.of_nat (n - j).
Proof.
  intros k. assert (HB : forall n j, (n < j)%nat -> binom n j = 0).
  { induction n as [|n IH]; intros [|j] H; try lia; cbn [binom]; auto. rewrite !IH by lia. auto. }
  induction n as [|n IH]; intros j.
  - destruct j as [|j]; unfold ways; cbn [words filter pattern map trues length Nat.eqb]; [reflexivity|]. cbn [binom]. ring.
  - rewrite ways_S. rewrite (map_ext _ (fun u => if b u then ways U n (fun w => Nat.eqb (S (trues (pattern b w))) j) else ways U n (fun w => Nat.eqb (trues (pattern b w)) j))).
    2: { intros u. unfold pattern, trues. cbn [map filter]. destruct (b u); auto. }
    rewrite sum_split. fold k. destruct j as [|j].
    + cbn [Nat.eqb]. rewrite ways_none, IH. cbn [binom]. assert (Eb : binom n 0 = 1) by (destruct n; auto). rewrite Eb, !Nat.sub_0_r, Nat2Z.inj_succ, Z.pow_succ_r by lia. ring.
    + cbn [Nat.eqb]. rewrite !IH. cbn [binom]. change (S n - S j)%nat with (n - j)%nat. rewrite (Nat2Z.inj_succ j), Z.pow_succ_r by lia.
      destruct (Nat.le_gt_cases (S j) n) as [Hj|Hj].
      * replace (n - j)%nat with (S (n - S j)) by lia. rewrite (Nat2Z.inj_succ (n - S j)), Z.pow_succ_r by lia. ring.
      * rewrite (HB n (S j)) by lia. ring.
Qed.
Lemma no_panic n s w l : subsampleOf n s w = Ok l -> (ftoZ (fmul (fofZ (Z.of_nat n)) s) + 1 <? 0) = false.
Proof. unfold subsampleOf, SubSample. destruct (_ <? 0); [discriminate|auto]. Qed.
Lemma law_lemma (U : list f64) n s rows : (exists w l, subsampleOf n s w = Ok l) -> StronglySorted Z.lt rows -> (forall i, In i rows -> 0 <= i < Z.of_nat n) ->
  ways U n (selects n s rows) = keptOf U s ^ Z.of_nat (length rows) * (Z.of_nat (length U) - keptOf U s) ^ Z.of_nat (n - length rows).
Proof.
  intros (w0 & l0 & H0) HS HR. apply no_panic in H0. pose proof (chosen_patOf n rows HS HR) as HC.
  assert (HL : length (patOf n rows) = n) by (unfold patOf; rewrite map_length, iota_length; auto).
  assert (HT : trues (patOf n rows) = length rows) by (rewrite <- chosen_length, HC; auto).
  pose proof (ways_pattern U (fun u => fleb u s) (patOf n rows)) as HW. rewrite HL, HT in HW. unfold keptOf. cbn zeta in HW. rewrite <- HW. apply ways_ext. intros w Hw _.
  unfold selects. rewrite subsample_pattern by auto. rewrite H0. unfold beq.
  destruct (list_eq_dec Z.eq_dec (chosen (pattern (fun u => fleb u s) w)) rows) as [e|ne], (list_eq_dec Bool.bool_dec (pattern (fun u => fleb u s) w) (patOf n rows)) as [e'|ne']; auto.
  - exfalso. apply ne'. apply chosen_inj; [unfold pattern; rewrite map_length; congruence|]. congruence.
  - exfalso. apply ne. rewrite e'. auto.
Qed.
Lemma number_lemma (U : list f64) n s j : (exists w l, subsampleOf n s w = Ok l) ->
  ways U n (selectsMany n s j) = binom n j * keptOf U s ^ Z.of_nat j * (Z.of_nat (length U) - keptOf U s) ^ Z.of_nat (n - j).
Proof.
  intros (w0 & l0 & H0). apply no_panic in H0. unfold keptOf. rewrite <- ways_trues. apply ways_ext. intros w Hw _. unfold selectsMany. rewrite subsample_pattern, H0, chosen_length by auto. auto.
Qed.

(** ** rand.Float64 *)
Lemma rnd_scaled n e : Z.abs n < 2 ^ 53 -> -1074 <= e -> rnd (IZR n * bpow radix2 e) = (IZR n * bpow radix2 e)%R.
Proof.
  intros H He. unfold rnd. apply round_generic; [apply valid_rnd_N|].
  apply (FLT.generic_format_FLT radix2 (-1074) 53). exists (Float radix2 n e); [reflexivity|exact H|exact He].
Qed.
Lemma pow_bpow m : 0 <= m -> IZR (2 ^ m) = bpow radix2 m.
Proof. intros H. rewrite <- IZR_Zpower by auto. reflexivity. Qed.
Lemma fofZ_pow m : 0 <= m <= 53 -> ffinite (fofZ (2 ^ m)) = true /\ B2R (fofZ (2 ^ m)) = bpow radix2 m.
Proof.
  intros H. destruct (fofZ_bound (2 ^ m) 53) as (H1 & _ & H2); [apply Z.pow_nonneg; lia|lia|apply Z.pow_le_mono_r; lia|]. split; auto. rewrite H2, pow_bpow by lia.
  rewrite <- (Rmult_1_l (bpow radix2 m)). apply (rnd_scaled 1 m); lia.
Qed.
Lemma unit_value m k : 0 <= m <= 53 -> 0 <= k < 2 ^ m -> fnanb (fdiv (fofZ k) (fofZ (2 ^ m))) = false /\ ext (fdiv (fofZ k) (fofZ (2 ^ m))) = (IZR k * bpow radix2 (- m))%R.
Proof.
  intros Hm Hk. destruct (fofZ_pow m Hm) as [F2 E2]. assert (Hk' : 0 <= k < 2 ^ 53) by (split; [lia|]; eapply Z.lt_le_trans; [apply Hk|apply Z.pow_le_mono_r; lia]).
  destruct (fofZ_exact k Hk') as [F1 E1]. pose proof (bpow_gt_0 radix2 m) as Hp.
  destruct (fdiv_ext _ _ F1 F2) as [N E]; [rewrite E2; lra|]. split; auto. rewrite E, E1, E2. unfold Rdiv. rewrite <- bpow_opp, rnd_scaled by lia.
  apply clamp_id. assert (0 <= IZR k <= IZR (2 ^ m))%R by (split; apply IZR_le; lia). rewrite pow_bpow in H by lia.
  pose proof (bpow_gt_0 radix2 (- m)) as Hq. assert (E1' : (bpow radix2 m * bpow radix2 (- m) = 1)%R) by (rewrite <- bpow_plus, Z.add_opp_diag_r; reflexivity).
  assert (HM : (1 < Mx)%R). { unfold Mx. apply Rle_lt_trans with (bpow radix2 0); [simpl; lra|apply bpow_lt; lia]. }
  split; nra.
Qed.
Lemma count_le F n : -1 <= F -> Z.of_nat (length (filter (fun k => k <=? F) (iota n))) = Z.min (Z.of_nat n) (F + 1).
Proof.
  intros HF. induction n as [|n IH]; [cbn; lia|]. unfold iota in *. rewrite seq_S, map_app, filter_app, app_length, Nat2Z.inj_add, IH. cbn [map filter Nat.add].
  destruct (Z.leb_spec (Z.of_nat n) F); cbn [length]; lia.
Qed.
Lemma kept_lemma m s : 0 <= m <= 53 -> ffinite s = true -> (0 <= B2R s)%R -> keptOf (unitValues m) s = Z.min (2 ^ m) (Zfloor (B2R s * IZR (2 ^ m)) + 1).
Proof.
  intros Hm Fs Hs. unfold keptOf, unitValues. rewrite filter_map_length. set (F := Zfloor (B2R s * IZR (2 ^ m))).
  assert (HF : 0 <= F). { apply Zfloor_lub. assert (0 <= IZR (2 ^ m))%R by (apply IZR_le, Z.pow_nonneg; lia). simpl. nra. }
  assert (HN : Z.of_nat (Z.to_nat (2 ^ m)) = 2 ^ m) by (apply Z2Nat.id, Z.pow_nonneg; lia).
  rewrite <- HN at 2. rewrite <- count_le by lia. f_equal. apply filter_ext_length. intros k Hk. unfold iota in Hk. apply in_map_iff in Hk as (j & <- & Hj). apply in_seq in Hj.
  assert (Hk : 0 <= Z.of_nat j < 2 ^ m) by lia. destruct (unit_value m _ Hm Hk) as [N E]. rewrite fleb_ext, E, ext_finite by (auto; apply finite_nnan; auto).
  pose proof (bpow_gt_0 radix2 m) as Hp. pose proof (bpow_gt_0 radix2 (- m)) as Hq.
  assert (E1 : (bpow radix2 m * bpow radix2 (- m) = 1)%R) by (rewrite <- bpow_plus, Z.add_opp_diag_r; reflexivity).
  assert (HE : IZR (2 ^ m) = bpow radix2 m) by (apply pow_bpow; lia).
  destruct (Rle_bool_spec (IZR (Z.of_nat j) * bpow radix2 (- m)) (B2R s)) as [HR|HR], (Z.leb_spec (Z.of_nat j) F) as [HZ|HZ]; auto; exfalso.
  - assert (Z.of_nat j <= F); [|lia]. apply Zfloor_lub. rewrite HE. apply Rmult_le_compat_r with (r := bpow radix2 m) in HR; [|lra]. rewrite Rmult_assoc, (Rmult_comm (bpow radix2 (- m))), E1 in HR. lra.
  - apply IZR_le in HZ. pose proof (Zfloor_lb (B2R s * IZR (2 ^ m))) as HL. fold F in HL. rewrite HE in HL. apply Rmult_lt_compat_r with (r := bpow radix2 m) in HR; [|lra].
    rewrite Rmult_assoc, (Rmult_comm (bpow radix2 (- m))), E1 in HR. lra.
Qed.
Lemma kept_close m s : 0 <= m <= 53 -> ffinite s = true -> (0 <= B2R s < 1)%R -> (B2R s * IZR (2 ^ m) < IZR (keptOf (unitValues m) s) <= B2R s * IZR (2 ^ m) + 1)%R.
Proof.
  intros Hm Fs Hs. rewrite kept_lemma by (auto; lra). pose proof (Zfloor_lb (B2R s * IZR (2 ^ m))) as H1. pose proof (Zfloor_ub (B2R s * IZR (2 ^ m))) as H2.
  assert (HP : (0 < IZR (2 ^ m))%R) by (apply IZR_lt, Z.pow_pos_nonneg; lia).
  assert (Zfloor (B2R s * IZR (2 ^ m)) < 2 ^ m) by (apply lt_IZR; nra). rewrite Z.min_r by lia. rewrite plus_IZR. lra.
Qed.
Lemma units_length m : 0 <= m -> Z.of_nat (length (unitValues m)) = 2 ^ m.
Proof. intros H. unfold unitValues. rewrite map_length, iota_length. apply Z2Nat.id, Z.pow_nonneg. lia. Qed.
