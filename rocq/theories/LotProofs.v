(** The chance that rounds are trained, and the columns offered to a root (proof support for C168, C169). *)
From Coq Require Import Sorted.
From Verif Require Import Base F64 Env Utils Tree Options Train Spec SpecTrain UtilsProofs TreeProofs TreeSplit TreeThms TrainProofs TrainThms TrainMore TrainSteps InvMore ColProofs SpecTot TrainTot SpecChance ChanceProofs SpecLot.
Open Scope Z_scope.

(** ** independent trials over any alphabet *)
Definition hits {A} (b : A -> bool) (w : list A) : nat := length (filter b w).
Lemma binom_zero n : forall j, (n < j)%nat -> binom n j = 0.
Proof. induction n as [|n IH]; intros [|j] H; try lia; cbn [binom]; auto. rewrite !IH by lia. auto. Qed.
Lemma ways_hits {A} (U : list A) (b : A -> bool) : let k := Z.of_nat (length (filter b U)) in forall n j,
  ways U n (fun w => Nat.eqb (hits b w) j) = binom n j * k ^ Z.of_nat j * (Z.of_nat (length U) - k) ^ Z.of_nat (n - j).
Proof.
  intros k. induction n as [|n IH]; intros j.
  - destruct j as [|j]; unfold ways; cbn [words filter hits length Nat.eqb]; [reflexivity|]. cbn [binom]. ring.
  - rewrite ways_S. rewrite (map_ext _ (fun u => if b u then ways U n (fun w => Nat.eqb (S (hits b w)) j) else ways U n (fun w => Nat.eqb (hits b w) j))).
    2: { intros u. unfold hits. cbn [filter]. destruct (b u); auto. }
    rewrite sum_split. fold k. destruct j as [|j].
    + cbn [Nat.eqb]. rewrite ways_none, IH. cbn [binom]. assert (Eb : binom n 0 = 1) by (destruct n; auto). rewrite Eb, !Nat.sub_0_r, Nat2Z.inj_succ, Z.pow_succ_r by lia. ring.
    + cbn [Nat.eqb]. rewrite !IH. cbn [binom]. change (S n - S j)%nat with (n - j)%nat. rewrite (Nat2Z.inj_succ j), Z.pow_succ_r by lia.
      destruct (Nat.le_gt_cases (S j) n) as [Hj|Hj].
      * replace (n - j)%nat with (S (n - S j)) by lia. rewrite (Nat2Z.inj_succ (n - S j)), Z.pow_succ_r by lia. ring.
      * rewrite (binom_zero n (S j)) by lia. ring.
Qed.
(** counting by the value of a number *)
Lemma sumFrom_add from n f g : sumFrom from n (fun i => f i + g i) = sumFrom from n f + sumFrom from n g.
Proof. revert from; induction n as [|n IH]; intros from; cbn [sumFrom]; [auto|]. rewrite IH. ring. Qed.
Lemma sumFrom_ext from n f g : (forall i, (from <= i < from + n)%nat -> f i = g i) -> sumFrom from n f = sumFrom from n g.
Proof. revert from; induction n as [|n IH]; intros from H; cbn [sumFrom]; [auto|]. rewrite (H from) by lia. rewrite (IH (S from)); [auto|]. intros i Hi. apply H. lia. Qed.
Lemma sumFrom_zero from n f : (forall i, (from <= i < from + n)%nat -> f i = 0) -> sumFrom from n f = 0.
Proof. revert from; induction n as [|n IH]; intros from H; cbn [sumFrom]; [auto|]. rewrite (H from) by lia. rewrite (IH (S from)); [auto|]. intros i Hi. apply H. lia. Qed.
Lemma sumFrom_one from n j c : (from <= j < from + n)%nat -> sumFrom from n (fun i => if Nat.eqb j i then c else 0) = c.
Proof.
  revert from; induction n as [|n IH]; intros from H; [lia|]. cbn [sumFrom]. destruct (Nat.eqb j from) eqn:E.
  - apply Nat.eqb_eq in E. subst. rewrite sumFrom_zero; [lia|]. intros i Hi. destruct (Nat.eqb from i) eqn:E; auto. apply Nat.eqb_eq in E. lia.
  - apply Nat.eqb_neq in E. rewrite IH by lia. lia.
Qed.
Lemma count_by {B} (c : B -> nat) (P : nat -> bool) n (l : list B) : (forall w, In w l -> (c w < n)%nat) ->
  Z.of_nat (length (filter (fun w => P (c w)) l)) = sumFrom 0 n (fun i => if P i then Z.of_nat (length (filter (fun w => Nat.eqb (c w) i) l)) else 0).
Proof.
  induction l as [|x l IH]; intros H; cbn [filter length].
  - rewrite sumFrom_zero; [auto|]. intros i _. destruct (P i); auto.
  - rewrite (sumFrom_ext 0 n _ (fun i => (if Nat.eqb (c x) i then (if P (c x) then 1 else 0) else 0) + (if P i then Z.of_nat (length (filter (fun w => Nat.eqb (c w) i) l)) else 0))).
    + rewrite sumFrom_add, <- IH by (intros; apply H; right; auto). rewrite sumFrom_one by (specialize (H x (or_introl eq_refl)); lia). destruct (P (c x)); cbn [length]; lia.
    + intros i _. destruct (Nat.eqb (c x) i) eqn:E; [apply Nat.eqb_eq in E; subst i|]; destruct (P (c x)) eqn:EP; try destruct (P i); cbn [length]; lia.
Qed.
Lemma filter_le {A} (b : A -> bool) l : (length (filter b l) <= length l)%nat.
Proof. induction l as [|x l IH]; cbn [filter length]; [lia|]. destruct (b x); cbn [length]; lia. Qed.
Lemma enough_lemma (U : list f64) n s m : ways U n (fun w => m <=? Z.of_nat (hits (fun u => fleb u s) w)) = enoughWays U n s m.
Proof.
  unfold ways, enoughWays. rewrite (count_by (hits (fun u => fleb u s)) (fun i => m <=? Z.of_nat i) (S n)).
  - apply sumFrom_ext. intros i _. destruct (m <=? Z.of_nat i); [|auto]. apply (ways_hits U (fun u => fleb u s) n i).
  - intros w Hw. apply words_all in Hw as [Hl _]. unfold hits. pose proof (filter_le (fun u => fleb u s) w). lia.
Qed.

(** ** rounds *)
Lemma hits_sampled n s w : length w = n -> length (filter (fun i => fleb (nth i w fzero) s) (seq 0 n)) = hits (fun u => fleb u s) w.
Proof.
  intros <-. unfold hits. assert (G : forall k, length (filter (fun i => fleb (nth (i - k) w fzero) s) (seq k (length w))) = length (filter (fun u => fleb u s) w)).
  { induction w as [|x w IH]; intros k; cbn [length seq filter]; [auto|]. rewrite Nat.sub_diag. change (nth 0 (x :: w) fzero) with x.
    assert (E : filter (fun i => fleb (nth (i - k) (x :: w) fzero) s) (seq (S k) (length w)) = filter (fun i => fleb (nth (i - S k) w fzero) s) (seq (S k) (length w))).
    { apply filter_ext_in. intros i Hi. apply in_seq in Hi. replace (i - k)%nat with (S (i - S k)) by lia. reflexivity. }
    rewrite E. destruct (fleb x s); cbn [length]; rewrite IH; reflexivity. }
  rewrite <- (G 0%nat). apply filter_ext_length. intros i _. rewrite Nat.sub_0_r. reflexivity.
Qed.
Lemma filter_nth_length {A} (P : A -> bool) (d : A) ws : length (filter (fun r => P (nth r ws d)) (seq 0 (length ws))) = length (filter P ws).
Proof.
  assert (G : forall k, length (filter (fun r => P (nth (r - k) ws d)) (seq k (length ws))) = length (filter P ws)).
  { induction ws as [|x ws IH]; intros k; cbn [length seq filter]; [auto|]. rewrite Nat.sub_diag. change (nth 0 (x :: ws) d) with x.
    assert (E : filter (fun i => P (nth (i - k) (x :: ws) d)) (seq (S k) (length ws)) = filter (fun i => P (nth (i - S k) ws d)) (seq (S k) (length ws))).
    { apply filter_ext_in. intros i Hi. apply in_seq in Hi. replace (i - k)%nat with (S (i - S k)) by lia. reflexivity. }
    rewrite E. destruct (P x); cbn [length]; rewrite IH; reflexivity. }
  rewrite <- (G 0%nat). apply filter_ext_length. intros i _. rewrite Nat.sub_0_r. reflexivity.
Qed.
Lemma rounds_lemma {K} E cols (D : DataBunch K) O U j : o_xgb O = true -> fltb (o_ss O) fone = true ->
  let n := length (Data D) in let R := Z.to_nat (o_rounds O) in
  (forall ws, In ws (words (words U n) R) -> exists tr, NewMultiClass E (lotDraws cols ws) D O = Ok tr) ->
  ways (words U n) R (trainsRounds E cols D O j) =
  binom R j * enoughWays U n (o_ss O) (o_minsample O) ^ Z.of_nat j * (Z.of_nat (length U) ^ Z.of_nat n - enoughWays U n (o_ss O) (o_minsample O)) ^ Z.of_nat (R - j).
Proof.
  intros HX HS n R HOk. set (b := fun w : list f64 => o_minsample O <=? Z.of_nat (hits (fun u => fleb u (o_ss O)) w)).
  assert (EW : enoughWays U n (o_ss O) (o_minsample O) = Z.of_nat (length (filter b (words U n)))) by (rewrite <- enough_lemma; reflexivity).
  rewrite EW. replace (Z.of_nat (length U) ^ Z.of_nat n) with (Z.of_nat (length (words U n))).
  2: { rewrite words_length. clear. induction n as [|n IH]; [reflexivity|]. rewrite Nat2Z.inj_succ, Z.pow_succ_r by lia. rewrite <- IH. cbn [Nat.pow]. rewrite Nat2Z.inj_mul. reflexivity. }
  rewrite <- (ways_hits (words U n) b R j). unfold ways. f_equal. apply filter_ext_length. intros ws Hws. unfold trainsRounds.
  destruct (HOk ws Hws) as (tr & HT). rewrite HT. f_equal. rewrite (c31_lemma E _ D O tr HT). fold R. fold n.
  apply words_all in Hws as [HL HI]. unfold hits at 1. rewrite <- (filter_nth_length b [] ws), HL. apply filter_ext_length. intros r Hr. apply in_seq in Hr.
  unfold b. f_equal. unfold sampledRows. rewrite HX, HS. cbn [andb]. f_equal. unfold lotDraws. cbn [fst]. apply hits_sampled.
  assert (Hin : In (nth r ws []) (words U n)) by (apply HI, nth_In; lia). apply words_all in Hin as [Hin _]. exact Hin.
Qed.

(** no round at all *)
Lemma nothing_lemma {K} E cols (D : DataBunch K) O U : o_xgb O = true -> fltb (o_ss O) fone = true ->
  let n := length (Data D) in let R := Z.to_nat (o_rounds O) in
  (forall ws, In ws (words (words U n) R) -> exists tr, NewMultiClass E (lotDraws cols ws) D O = Ok tr) ->
  ways (words U n) R (trainsRounds E cols D O 0) = (Z.of_nat (length U) ^ Z.of_nat n - enoughWays U n (o_ss O) (o_minsample O)) ^ Z.of_nat R /\
  forall ws tr, NewMultiClass E (lotDraws cols ws) D O = Ok tr -> trainsRounds E cols D O 0 ws = true ->
    Rounds (tr_model tr) None = Ok (-1) /\ forall row bufs, PredictMC (tr_model tr) row bufs = Panic.
Proof.
  intros HX HS n R HOk. split.
  - unfold n, R. rewrite (rounds_lemma E cols D O U 0 HX HS HOk). assert (Eb : binom (Z.to_nat (o_rounds O)) 0 = 1) by (destruct (Z.to_nat (o_rounds O)); auto).
    rewrite Eb, Nat.sub_0_r. change (Z.of_nat 0) with 0. rewrite Z.pow_0_r, !Z.mul_1_l. reflexivity.
  - intros ws tr HT H0. unfold trainsRounds in H0. rewrite HT in H0. apply Nat.eqb_eq, length_zero_iff_nil in H0. split.
    + unfold Rounds, Classes. rewrite H0. reflexivity.
    + intros row bufs. unfold PredictMC, rawScores. rewrite H0. reflexivity.
Qed.

(** MinSample of at least 1 protects against rounds without rows *)
Lemma lot_returns : forall K E cols (D : DataBunch K) O ws, EnvOk E -> goodTable (Data D) -> length (Labels D) = length (Data D) ->
  lossSized (o_loss O) -> fractionOk (o_ss O) -> fractionOk (o_css O) -> Z.of_nat (length (Data D)) < 2 ^ 62 ->
  (forall row, In row (Data D) -> Z.of_nat (length row) < 2 ^ 62) -> 1 <= o_minsample O ->
  exists tr, NewMultiClass E (lotDraws cols ws) D O = Ok tr.
Proof. intros K E cols D O ws HE HG HL HLs Hs Hc Hn Hw Hm. apply c98_lemma; auto. intros rd _. unfold roundFed. auto. Qed.

(** ** columns *)
Lemma scanned_sub n a : a <> [] -> StronglySorted Z.lt a -> (forall i, In i a -> 0 <= i < Z.of_nat n) -> scannedColumns n a = a.
Proof.
  intros Hne HS HR. apply sorted_unique; [apply scannedColumns_sorted|exact HS|]. intros i. rewrite scanned_in. split.
  - intros [_ [H|H]]; [congruence|exact H].
  - intros H. split; [apply HR; exact H|right; exact H].
Qed.
Lemma chosen_range pat i : In i (chosen pat) -> 0 <= i < Z.of_nat (length pat).
Proof. intros H. unfold chosen in H. apply in_map_iff in H as (j & <- & H). apply filter_In in H as [H _]. apply in_seq in H. lia. Qed.
Lemma iota_sorted n : StronglySorted Z.lt (iota n).
Proof. rewrite <- scanned_all. apply scannedColumns_sorted. Qed.
Lemma iota_range n i : In i (iota n) -> 0 <= i < Z.of_nat n.
Proof. intros H. apply iota_In. exact H. Qed.
(** a disjunction of two exclusive events *)
Lemma ways_or {A} (U : list A) n (P Q : list A -> bool) : (forall w, P w = true -> Q w = true -> False) -> ways U n (fun w => P w || Q w)%bool = ways U n P + ways U n Q.
Proof.
  intros H. unfold ways. induction (words U n) as [|w l IH]; cbn [filter]; [auto|]. specialize (H w). destruct (P w), (Q w); cbn [orb length]; try lia; exfalso; auto.
Qed.
Definition zl (a b : list Z) : bool := if list_eq_dec Z.eq_dec a b then true else false.
Lemma zl_iff a b : zl a b = true <-> a = b.
Proof. unfold zl. destruct (list_eq_dec Z.eq_dec a b); split; intros; congruence. Qed.
Lemma offers_split n s cols w : (0 < n)%nat -> length w = n -> (ftoZ (fmul (fofZ (Z.of_nat n)) s) + 1 <? 0) = false ->
  offers n s cols w = (if zl cols [] then false else if zl cols (iota n) then selects n s (iota n) w || selects n s [] w else selects n s cols w)%bool.
Proof.
  intros Hn Hw HP. unfold offers, selects. rewrite subsample_pattern by auto. rewrite HP. set (a := chosen (pattern (fun u => fleb u s) w)).
  assert (HS : StronglySorted Z.lt a) by apply chosen_sorted.
  assert (HR : forall i, In i a -> 0 <= i < Z.of_nat n) by (intros i Hi; apply chosen_range in Hi; unfold pattern in Hi; rewrite map_length, Hw in Hi; exact Hi).
  fold (zl (scannedColumns n a) cols). fold (zl a (iota n)). fold (zl a []). fold (zl a cols).
  assert (Hne : iota n <> []) by (intros H; apply (f_equal (@length Z)) in H; rewrite iota_length in H; cbn in H; lia).
  destruct (list_eq_dec Z.eq_dec a []) as [Ea|Ea].
  - rewrite Ea, scanned_all. destruct (zl cols []) eqn:E1.
    { apply zl_iff in E1. subst cols. destruct (zl (iota n) []) eqn:E; auto. apply zl_iff in E. congruence. }
    destruct (zl cols (iota n)) eqn:E2.
    { apply zl_iff in E2. subst cols. rewrite (proj2 (zl_iff (iota n) (iota n)) eq_refl). rewrite (proj2 (zl_iff [] []) eq_refl). rewrite Bool.orb_true_r. reflexivity. }
    transitivity false; [|symmetry]; (match goal with |- ?x = false => destruct x eqn:E; auto end); apply zl_iff in E; subst cols.
    + rewrite (proj2 (zl_iff (iota n) (iota n)) eq_refl) in E2. discriminate E2.
    + rewrite (proj2 (zl_iff [] []) eq_refl) in E1. discriminate E1.
  - rewrite scanned_sub by auto. destruct (zl cols []) eqn:E1.
    { apply zl_iff in E1. subst cols. destruct (zl a []) eqn:E; auto. apply zl_iff in E. congruence. }
    destruct (zl cols (iota n)) eqn:E2; [|reflexivity]. apply zl_iff in E2. subst cols. destruct (zl a []) eqn:E; [apply zl_iff in E; congruence|]. rewrite Bool.orb_false_r. reflexivity.
Qed.
Lemma columns_lemma (U : list f64) n s cols : (0 < n)%nat -> (exists w l, subsampleOf n s w = Ok l) -> StronglySorted Z.lt cols -> (forall i, In i cols -> 0 <= i < Z.of_nat n) ->
  let k := keptOf U s in let q := Z.of_nat (length U) - k in
  ways U n (offers n s cols) =
  if Nat.eqb (length cols) 0 then 0 else if Nat.eqb (length cols) n then k ^ Z.of_nat n + q ^ Z.of_nat n else k ^ Z.of_nat (length cols) * q ^ Z.of_nat (n - length cols).
Proof.
  intros Hn HP HS HR k q. assert (HP' := HP). destruct HP' as (w0 & l0 & H0). apply no_panic in H0.
  rewrite (ways_ext U n _ _ (fun w Hw _ => offers_split n s cols w Hn Hw H0)).
  destruct (zl cols []) eqn:E1.
  { apply zl_iff in E1. subst cols. cbn [length Nat.eqb]. apply ways_none. }
  assert (Hl0 : Nat.eqb (length cols) 0 = false). { apply Nat.eqb_neq. intros H. destruct cols; [discriminate E1|discriminate H]. }
  rewrite Hl0. destruct (zl cols (iota n)) eqn:E2.
  - apply zl_iff in E2. subst cols. rewrite iota_length, Nat.eqb_refl. rewrite ways_or.
    + rewrite (law_lemma U n s (iota n) HP HS HR), (law_lemma U n s [] HP (SSorted_nil _) (fun i (H : In i []) => match H with end)). rewrite iota_length, Nat.sub_diag. cbn [length]. rewrite Nat.sub_0_r.
      change (Z.of_nat 0) with 0. rewrite !Z.pow_0_r. fold k q. ring.
    + intros w H1 H2. unfold selects in H1, H2. destruct (subsampleOf n s w) as [l| |]; try discriminate H1.
      destruct (list_eq_dec Z.eq_dec l (iota n)) as [e1|]; [|discriminate H1]. destruct (list_eq_dec Z.eq_dec l []) as [e2|]; [|discriminate H2].
      apply (f_equal (@length Z)) in e1. rewrite e2, iota_length in e1. cbn in e1. lia.
  - assert (Hln : Nat.eqb (length cols) n = false).
    { apply Nat.eqb_neq. intros H. assert (cols = iota n); [|subst cols; rewrite (proj2 (zl_iff _ _) eq_refl) in E2; discriminate E2].
      apply sorted_unique; [exact HS|apply iota_sorted|]. 
      assert (ND : NoDup cols). { clear -HS. induction HS as [|a l HS IH HF]; constructor; auto. intros Hin. rewrite Forall_forall in HF. apply HF in Hin. lia. }
      assert (HI : incl (iota n) cols). { apply NoDup_length_incl; [exact ND|rewrite iota_length; lia|]. intros i Hi. apply iota_In. apply HR. exact Hi. }
      intros i. split; intros Hi; [apply iota_In; apply HR; exact Hi|apply HI; exact Hi]. }
    rewrite Hln. apply law_lemma; auto.
Qed.
Lemma root_lemma {K} E rnd (D : DataBunch K) O tr : EnvOk E -> NewMultiClass E rnd D O = Ok tr -> (length (Data D) <= length (Labels D))%nat -> o_xgb O = true -> fltb (o_css O) fone = true ->
  forall e, In e (concat (tr_hist tr)) -> exists row0 a topts, nth_error (Data D) 0 = Some row0 /\
    SubSample (Z.of_nat (length row0)) (o_css O) (snd (rnd (g_round e))) = Ok a /\ to_allowed topts = a /\ NewTree E (Data D) topts = Ok (g_tree e) /\
    forall d l r, g_tree e = Node d l r -> t_leaf d = false ->
      In (t_split d) (scannedColumns (length row0) a) /\
      forall f j sc thr, In f (scannedColumns (length row0) a) -> candidate E (Data D) topts (samplesOf d) f j sc thr -> fltb (t_best d) sc = false.
Proof.
  intros HE HN HL HX HC e He. apply in_split in He as (es1 & es2 & Hes). assert (Hes' := Hes).
  destruct (c81_lemma E rnd D O tr HN HL es1 e es2 Hes) as (lab & pr & _ & _ & _ & HF & _).
  destruct (NewMultiClass_inv E rnd D O tr HN) as (EO & _). 
  assert (EX : o_xgb (tr_opts tr) = true) by (rewrite EO; exact HX). assert (EC : o_css (tr_opts tr) = o_css O) by (rewrite EO; reflexivity).
  unfold fitted in HF. rewrite EX, EC, HC in HF. destruct HF as (rows & cols & topts & _ & (row0 & Hr0 & Hcols) & Ho & _ & _ & HT).
  assert (Oa : to_allowed topts = cols) by congruence. assert (Ox : to_xgb topts = true) by congruence. clear Ho.
  exists row0, cols, topts. split; [exact Hr0|]. split; [|split; [exact Oa|split; [exact HT|]]].
  - destruct (NewMultiClass_run E rnd D O tr HN) as (_ & ohe & st0 & _ & Hr & Hc & _ & HI & Hf).
    pose proof (rounds_steps E (fixMCW O) (Data D) ohe _ _ rnd Hr Hc HL _ _ _ HI Hf es1 e es2 Hes') as (ix & cols1 & _ & _ & _ & H1 & _).
    unfold roundSamples in H1. change (o_css (fixMCW O)) with (o_css O) in H1. change (o_xgb (fixMCW O)) with (o_xgb O) in H1. rewrite HX, HC in H1. cbn [andb] in H1.
    apply bind_Ok in H1 as (ix1 & _ & H1). apply bind_Ok in H1 as (c1 & Hc1 & _). apply bind_Ok in Hc1 as (r1 & Hr1 & Hc1). apply idx_Ok in Hr1 as [_ Hr1]. cbn in Hr1.
    assert (r1 = row0) by (destruct (Data D); cbn in *; congruence). subst r1. rewrite Hc1. f_equal. rewrite Hcols. unfold SubSample in Hc1. destruct (_ <? 0); [discriminate Hc1|]. injection Hc1 as <-. rewrite Nat2Z.id. reflexivity.
  - intros d l r Ed Hd. pose proof HT as HT0. rewrite Ed in HT. destruct (c07_lemma E (Data D) topts _ d l r 0 HE HT (subAt_0 _)) as (row0' & Hl & H & _).
    assert (row0' = row0) by (destruct Hl as [_ Hl]; cbn in Hl; destruct (Data D); cbn in *; congruence). subst row0'.
    destruct (H Hd) as (i & Hs & _ & _ & Hb & _). unfold scannedAt in *. rewrite Oa in *. unfold betterScore in Hb. rewrite Ox in Hb. split.
    + apply scanned_in. destruct Hs as [H1 [H2|H2]]; [congruence|auto].
    + intros f j sc thr Hf Hc. apply (Hb f j sc thr); [|exact Hc]. apply scanned_in in Hf as [H1 H2]. auto.
Qed.
