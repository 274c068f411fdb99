(** Proofs about the choice of splits (proof support). *)
From Coq Require Import Reals Lra Sorted.
From Verif Require Import Base F64 F64Lemmas Env EnvLemmas Utils Tree Spec UtilsProofs TreeProofs.
Open Scope Z_scope.

Section ScanSpec.
Context {P S : Type} (step : S -> P -> S) (score : S -> Z -> Z -> f64) (better : f64 -> f64 -> bool)
        (mcw : Z) (feat : Z).
Context (b_irr : forall x, better x x = false)
        (b_trans : forall x y z, better x y = true -> better y z = true -> better x z = true)
        (b_mix : forall n b c, better n b = true -> better c b = false -> fnanb c = true \/ better n c = true).

Definition scand (l : list (f64 * P)) (s : S) (nl nr : Z) (i : nat) (sc thr : f64) : Prop :=
  exists a b pa pb, (0 < i < length l)%nat /\ nth_error l (i - 1) = Some (a, pa) /\ nth_error l i = Some (b, pb) /\
    feqb a b = false /\ mcw <= nl + Z.of_nat i /\ mcw <= nr - Z.of_nat i /\
    sc = score (fold_left step (map snd (firstn i l)) s) (nl + Z.of_nat i) (nr - Z.of_nat i) /\
    thr = midpoint a b.

Lemma scand_cons x p t s nl nr i sc thr : (0 < i)%nat ->
  scand ((x, p) :: t) s nl nr (Datatypes.S i) sc thr <-> scand t (step s p) (nl + 1) (nr - 1) i sc thr.
Proof.
  intros Hi. unfold scand. destruct i as [|i]; [lia|]. simpl length.
  replace (Datatypes.S (Datatypes.S i) - 1)%nat with (Datatypes.S i) by lia.
  replace (Datatypes.S i - 1)%nat with i by lia. cbn [nth_error firstn map fold_left].
  replace (nl + 1 + Z.of_nat (Datatypes.S i)) with (nl + Z.of_nat (Datatypes.S (Datatypes.S i))) by lia.
  replace (nr - 1 - Z.of_nat (Datatypes.S i)) with (nr - Z.of_nat (Datatypes.S (Datatypes.S i))) by lia.
  split; intros (a & b & pa & pb & H1 & H2); exists a, b, pa, pb; (split; [lia|exact H2]).
Qed.

Lemma scan_spec l s nl nr b :
  let b' := scan step score better mcw feat l s nl nr b in
  (forall i sc thr, scand l s nl nr i sc thr -> better sc (b_score b') = false) /\
  (b' = b \/ exists i, scand l s nl nr i (b_score b') (b_thr b') /\ b_split b' = feat /\
     better (b_score b') (b_score b) = true /\
     forall j sc thr, (j < i)%nat -> scand l s nl nr j sc thr -> fnanb sc = true \/ better (b_score b') sc = true).
Proof.
  revert s nl nr b; induction l as [|[x p] t IH]; intros s nl nr b.
  - split; [|left; reflexivity]. intros i sc thr (a & c & pa & pc & H & _). simpl in H; lia.
  - destruct t as [|[x' p'] t'].
    { split; [|left; reflexivity]. intros i sc thr (a & c & pa & pc & H & _). simpl in H; lia. }
    set (t := (x', p') :: t') in *.
    assert (Hhead : forall sc thr, scand ((x, p) :: t) s nl nr 1 sc thr ->
       feqb x x' = false /\ mcw <= nl + 1 /\ mcw <= nr - 1 /\ sc = score (step s p) (nl + 1) (nr - 1) /\ thr = midpoint x x').
    { intros sc thr (a & c & pa & pc & H1 & H2 & H3 & H4 & H5 & H6 & H7 & H8). simpl in H2, H3, H7.
      injection H2 as -> ->. injection H3 as -> ->. auto 8. }
    assert (HSC : scan step score better mcw feat ((x, p) :: t) s nl nr b =
      if (nl + 1 <? mcw) || feqb x x' then scan step score better mcw feat t (step s p) (nl + 1) (nr - 1) b
      else if nr - 1 <? mcw then b
      else scan step score better mcw feat t (step s p) (nl + 1) (nr - 1)
             (if better (score (step s p) (nl + 1) (nr - 1)) (b_score b)
              then MkB (score (step s p) (nl + 1) (nr - 1)) feat (midpoint x x') else b)) by reflexivity.
    cbv zeta. rewrite HSC. clear HSC.
    destruct ((nl + 1 <? mcw) || feqb x x') eqn:EC.
    + destruct (IH (step s p) (nl + 1) (nr - 1) b) as [A B].
      assert (Hno : forall sc thr, ~ scand ((x, p) :: t) s nl nr 1 sc thr).
      { intros sc thr H. apply Hhead in H as (H1 & H2 & _). rewrite H1 in EC.
        apply orb_true_iff in EC as [EC|EC]; [apply Z.ltb_lt in EC; lia|discriminate]. }
      split.
      * intros [|[|i]] sc thr H.
        -- destruct H as (? & ? & ? & ? & H & _); lia.
        -- exfalso; eapply Hno; eauto.
        -- apply scand_cons in H; [|lia]. exact (A _ _ _ H).
      * destruct B as [B|(i & B1 & B2 & B3 & B4)]; [left; auto|right].
        assert (Hi : (0 < i)%nat) by (destruct B1 as (? & ? & ? & ? & H & _); lia).
        exists (Datatypes.S i). split; [apply scand_cons; auto|]. split; [auto|]. split; [auto|].
        intros [|[|j]] sc thr Hj H.
        -- destruct H as (? & ? & ? & ? & H & _); lia.
        -- exfalso; eapply Hno; eauto.
        -- apply scand_cons in H; [|lia]. apply (B4 (Datatypes.S j) sc thr); auto. lia.
    + apply orb_false_iff in EC as [EC1 EC2]. apply Z.ltb_ge in EC1.
      destruct (Z.ltb_spec (nr - 1) mcw) as [Hbr|Hbr].
      * split; [|left; reflexivity].
        intros i sc thr (a & c & pa & pc & H1 & H2 & H3 & H4 & H5 & H6 & _). lia.
      * set (gain := score (step s p) (nl + 1) (nr - 1)).
        set (b1 := if better gain (b_score b) then MkB gain feat (midpoint x x') else b).
        destruct (IH (step s p) (nl + 1) (nr - 1) b1) as [A B].
        set (b' := scan step score better mcw feat t (step s p) (nl + 1) (nr - 1) b1) in *.
        assert (Hc1 : scand ((x, p) :: t) s nl nr 1 gain (midpoint x x')).
        { exists x, x', p, p'. simpl. repeat split; auto; try lia. }
        assert (Hb1 : b1 = b /\ better gain (b_score b) = false \/
                      b1 = MkB gain feat (midpoint x x') /\ better gain (b_score b) = true).
        { unfold b1. destruct (better gain (b_score b)); auto. }
        assert (Hg : better gain (b_score b') = false).
        { destruct (better gain (b_score b')) eqn:EG; auto. exfalso.
          destruct Hb1 as [[E1 E2]|[E1 E2]]; destruct B as [B|(i & _ & _ & B3 & _)].
          - rewrite B, E1 in EG. congruence.
          - rewrite E1 in B3. rewrite (b_trans _ _ _ EG B3) in E2. congruence.
          - rewrite B, E1 in EG. simpl in EG. rewrite b_irr in EG. congruence.
          - rewrite E1 in B3. simpl in B3. pose proof (b_trans _ _ _ EG B3) as HH. rewrite b_irr in HH. congruence. }
        split.
        -- intros [|[|i]] sc thr H.
           ++ destruct H as (? & ? & ? & ? & H & _); lia.
           ++ apply Hhead in H as (_ & _ & _ & -> & _). exact Hg.
           ++ apply scand_cons in H; [|lia]. exact (A _ _ _ H).
        -- destruct B as [B|(i & B1 & B2 & B3 & B4)].
           ++ destruct Hb1 as [[E1 E2]|[E1 E2]]; [left; congruence|]. right. exists 1%nat. rewrite B, E1. simpl.
              split; [exact Hc1|]. split; [auto|]. split; [auto|].
              intros j sc thr Hj H. destruct H as (? & ? & ? & ? & H & _); lia.
           ++ right. assert (Hi : (0 < i)%nat) by (destruct B1 as (? & ? & ? & ? & H & _); lia).
              exists (Datatypes.S i). split; [apply scand_cons; auto|]. split; [auto|]. split.
              ** destruct Hb1 as [[E1 E2]|[E1 E2]]; rewrite E1 in B3; [auto|]. eapply b_trans; [exact B3|exact E2].
              ** intros [|[|j]] sc thr Hj H.
                 --- destruct H as (? & ? & ? & ? & H & _); lia.
                 --- apply Hhead in H as (_ & _ & _ & -> & _). fold gain.
                     destruct Hb1 as [[E1 E2]|[E1 E2]]; rewrite E1 in B3; [eapply b_mix; eauto|right; exact B3].
                 --- apply scand_cons in H; [|lia]. apply (B4 (Datatypes.S j) sc thr); auto. lia.
Qed.
End ScanSpec.

Lemma betterScore_irr xgb x : betterScore xgb x x = false.
Proof. destruct xgb; apply fltb_irrefl. Qed.
Lemma betterScore_trans xgb x y z : betterScore xgb x y = true -> betterScore xgb y z = true -> betterScore xgb x z = true.
Proof. destruct xgb; simpl; intros; eapply fltb_trans; eauto. Qed.
Lemma betterScore_mix xgb n b c : betterScore xgb n b = true -> betterScore xgb c b = false ->
  fnanb c = true \/ betterScore xgb n c = true.
Proof.
  destruct (fnanb c) eqn:Ec; [auto|]. intros H1 H2. right.
  destruct xgb; simpl in *; apply fltb_true in H1 as (N1 & N2 & L); apply fltb_false in H2; auto;
    apply fltb_true; repeat split; auto; lra.
Qed.

(** ** One feature *)
Section Feature.
Context (E : Env) (HE : EnvOk E).

Lemma cell_fun {A} (X : list (list A)) i f v v' : cell X i f v -> cell X i f v' -> v = v'.
Proof.
  intros (r & H1 & H2) (r' & H1' & H2'). assert (r = r') by (eapply look_fun; eauto). subst. eapply look_fun; eauto.
Qed.

Lemma col_fun (X : list (list f64)) f ix c c' : Forall2 (fun j v => cell X j f v) ix c ->
  Forall2 (fun j v => cell X j f v) ix c' -> c = c'.
Proof. apply Forall2_fun. intros a b b'. apply cell_fun. Qed.
Lemma looks_fun {A} (s : list A) ix c c' : Forall2 (look s) ix c -> Forall2 (look s) ix c' -> c = c'.
Proof. apply Forall2_fun. intros a b b'. apply look_fun. Qed.

Lemma map_fold_pair (l : list (f64 * f64)) a b c d :
  fold_left xstep l ((a, b), (c, d)) =
  ((fold_left fadd (map fst l) a, fold_left fsub (map fst l) b),
   (fold_left fadd (map snd l) c, fold_left fsub (map snd l) d)).
Proof. revert a b c d; induction l as [|[g h] l IH]; intros; simpl; auto. Qed.
Lemma map_fold_y (l : list f64) a b :
  fold_left ystep l (a, b) = (fold_left fadd l a, fold_left fsub l b).
Proof. revert a b; induction l as [|y l IH]; intros; simpl; auto; apply IH. Qed.

Lemma firstn_combine {A B} n (l : list A) (l' : list B) : firstn n (combine l l') = combine (firstn n l) (firstn n l').
Proof. revert l l'; induction n as [|n IH]; intros [|a l] [|b l']; simpl; auto. f_equal; auto. Qed.
Lemma nth_combine {A B} (l : list A) (l' : list B) n a b :
  nth_error (combine l l') n = Some (a, b) <-> nth_error l n = Some a /\ nth_error l' n = Some b.
Proof.
  revert l' n; induction l as [|x l IH]; intros [|y l'] [|n]; simpl; try (split; [discriminate|intros [? ?]; discriminate]).
  - split; [intros [= -> ->]; auto|intros [[= ->] [= ->]]; auto].
  - apply IH.
Qed.

(** [findBetterSplit] is one scan over the sorted samples whose candidates are exactly [candidate] *)
Lemma findBetterSplit_cand X o ix b f b' : findBetterSplit E X o ix b f = Ok b' ->
  (forall i sc thr, candidate E X o ix f i sc thr -> betterScore (to_xgb o) sc (b_score b') = false) /\
  (b' = b \/ exists i, candidate E X o ix f i (b_score b') (b_thr b') /\ b_split b' = f /\
     betterScore (to_xgb o) (b_score b') (b_score b) = true /\
     forall j sc thr, (j < i)%nat -> candidate E X o ix f j sc thr ->
       fnanb sc = true \/ betterScore (to_xgb o) (b_score b') sc = true).
Proof.
  unfold findBetterSplit. intros H. binv H. rename v into col. binv H. binv H. binv H.
  apply column_Ok in Hb as [Hne Hcol].
  assert (HMA : MemArgSort E col v v0 = Ok (ArgSort E col)).
  { unfold slice0 in *. destruct (Nat.ltb_spec (length (orNil (to_in o))) (length col)); [discriminate|].
    destruct (Nat.ltb_spec (length (orNil (to_val o))) (length col)); [discriminate|].
    injection Hb0 as <-. injection Hb1 as <-. apply MemArgSort_ArgSort; rewrite firstn_length; lia. }
  rewrite HMA in Hb2. injection Hb2 as Hb2. clear Hb0 Hb1 HMA v v0. destruct v1 as [si sx].
  assert (Hlen : length ix = length col) by (eapply Forall2_len; eauto).
  pose proof (ArgSort_len E HE col) as [Hl1 Hl2]. rewrite Hb2 in Hl1, Hl2. simpl in Hl1, Hl2.
  destruct (to_xgb o) eqn:EX.
  - binv H. rename v into g. binv H. rename v into h. binv H. rename v into sg. binv H. rename v into sh.
    injection H as <-. apply SampleSlice_Ok in Hb, Hb0, Hb1, Hb3.
    destruct Hb as [_ Hg]. destruct Hb0 as [_ Hh]. destruct Hb1 as [_ Hsg]. destruct Hb3 as [_ Hsh].
    pose proof (Forall2_len _ _ _ Hsg) as Ls1. pose proof (Forall2_len _ _ _ Hsh) as Ls2.
    set (l := combine sx (combine sg sh)).
    assert (HL : length l = length ix).
    { unfold l. rewrite !combine_length. lia. }
    assert (HC : forall i sc thr, candidate E X o ix f i sc thr <->
       scand xstep (xscore (to_lambda o) (to_gamma o) (e_sum E g) (e_sum E h)) (ftoZ (to_mcw o)) l
         (fzero, e_sum E g, (fzero, e_sum E h)) 0 (Z.of_nat (length ix)) i sc thr).
    { intros i sc thr. unfold candidate, scand. rewrite EX, HL. split.
      - intros (col' & a & c & H1 & H2 & H3 & H4 & H5 & H6 & H7 & H8 & (g' & h' & sg' & sh' & G1 & G2 & G3 & G4 & G5)).
        assert (col' = col) by (eapply col_fun; eauto). subst col'.
        assert (g' = g) by (eapply looks_fun; eauto). subst g'.
        assert (h' = h) by (eapply looks_fun; eauto). subst h'.
        rewrite Hb2 in *. simpl fst in *. simpl snd in *.
        assert (sg' = sg) by (eapply looks_fun; eauto). subst sg'.
        assert (sh' = sh) by (eapply looks_fun; eauto). subst sh'.
        assert (Hn : forall k, (k < length ix)%nat -> exists gg hh, nth_error sg k = Some gg /\ nth_error sh k = Some hh).
        { intros k Hk. destruct (nth_error sg k) eqn:E1; [|apply nth_error_None in E1; lia].
          destruct (nth_error sh k) eqn:E2; [|apply nth_error_None in E2; lia]. eauto. }
        destruct (Hn (i - 1)%nat) as (g1 & h1 & E1 & E2); [lia|]. destruct (Hn i) as (g2 & h2 & E3 & E4); [lia|].
        exists a, c, (g1, h1), (g2, h2). split; [lia|]. split; [unfold l; apply nth_combine; split; auto; apply nth_combine; auto|].
        split; [unfold l; apply nth_combine; split; auto; apply nth_combine; auto|]. split; [auto|].
        split; [lia|]. split; [lia|]. split; [|auto].
        rewrite G5. unfold l. rewrite !firstn_combine.
        rewrite combine_map_snd by (rewrite combine_length, !firstn_length; lia).
        rewrite map_fold_pair. rewrite combine_map_fst, combine_map_snd by (rewrite !firstn_length; lia).
        reflexivity.
      - intros (a & c & pa & pc & H1 & H2 & H3 & H4 & H5 & H6 & H7 & H8).
        unfold l in H2, H3. destruct pa as [g1 h1], pc as [g2 h2].
        apply nth_combine in H2 as [H2 _]. apply nth_combine in H3 as [H3 _].
        exists col, a, c. rewrite Hb2. simpl fst. simpl snd. split; [auto|]. split; [lia|]. split; [auto|]. split; [auto|].
        split; [auto|]. split; [lia|]. split; [lia|]. split; [auto|].
        exists g, h, sg, sh. do 4 (split; [auto|]).
        rewrite H7. unfold l. rewrite !firstn_combine.
        rewrite combine_map_snd by (rewrite combine_length, !firstn_length; lia).
        rewrite map_fold_pair. rewrite combine_map_fst, combine_map_snd by (rewrite !firstn_length; lia).
        reflexivity. }
    destruct (scan_spec xstep (xscore (to_lambda o) (to_gamma o) (e_sum E g) (e_sum E h)) (betterScore true)
      (ftoZ (to_mcw o)) f (betterScore_irr true) (betterScore_trans true) (betterScore_mix true) l
         (fzero, e_sum E g, (fzero, e_sum E h)) 0 (Z.of_nat (length ix)) b) as [A B].
    change (betterScore true) with xbetter in *. split.
    + intros i sc thr Hc. apply HC in Hc. eapply A; eauto.
    + destruct B as [B|(i & B1 & B2 & B3 & B4)]; [left; auto|right]. exists i.
      split; [apply HC; auto|]. split; [auto|]. split; [auto|]. intros j sc thr Hj Hc. apply HC in Hc. eapply B4; eauto.
  - binv H. rename v into y. binv H. rename v into sy.
    injection H as <-. apply SampleSlice_Ok in Hb, Hb0.
    destruct Hb as [_ Hy]. destruct Hb0 as [_ Hsy].
    pose proof (Forall2_len _ _ _ Hsy) as Ls1.
    set (l := combine sx sy).
    assert (HL : length l = length ix).
    { unfold l. rewrite !combine_length. lia. }
    assert (HC : forall i sc thr, candidate E X o ix f i sc thr <->
       scand ystep (yscore (e_sum E sy) (Z.of_nat (length ix))) (ftoZ (to_mcw o)) l
         (fzero, e_sum E sy) 0 (Z.of_nat (length ix)) i sc thr).
    { intros i sc thr. unfold candidate, scand. rewrite EX, HL. split.
      - intros (col' & a & c & H1 & H2 & H3 & H4 & H5 & H6 & H7 & H8 & (y' & sy' & G1 & G3 & G5)).
        assert (col' = col) by (eapply col_fun; eauto). subst col'.
        assert (y' = y) by (eapply looks_fun; eauto). subst y'.
        rewrite Hb2 in *. simpl fst in *. simpl snd in *.
        assert (sy' = sy) by (eapply looks_fun; eauto). subst sy'.
        assert (Hn : forall k, (k < length ix)%nat -> exists gg, nth_error sy k = Some gg).
        { intros k Hk. destruct (nth_error sy k) eqn:E1; [|apply nth_error_None in E1; lia]. eauto. }
        destruct (Hn (i - 1)%nat) as (g1 & E1); [lia|]. destruct (Hn i) as (g2 & E3); [lia|].
        exists a, c, g1, g2. split; [lia|]. split; [unfold l; apply nth_combine; auto|].
        split; [unfold l; apply nth_combine; auto|]. split; [auto|].
        split; [lia|]. split; [lia|]. split; [|auto].
        rewrite G5. unfold l. rewrite !firstn_combine.
        rewrite combine_map_snd by (rewrite !firstn_length; lia).
        rewrite map_fold_y. unfold yscore, regGain, sq. simpl.
        replace (Z.of_nat (length ix) - Z.of_nat i) with (Z.of_nat (length ix - i)) by lia. reflexivity.
      - intros (a & c & pa & pc & H1 & H2 & H3 & H4 & H5 & H6 & H7 & H8).
        unfold l in H2, H3.
        apply nth_combine in H2 as [H2 _]. apply nth_combine in H3 as [H3 _].
        exists col, a, c. rewrite Hb2. simpl fst. simpl snd. split; [auto|]. split; [lia|]. split; [auto|]. split; [auto|].
        split; [auto|]. split; [lia|]. split; [lia|]. split; [auto|].
        exists y, sy. do 2 (split; [auto|]).
        rewrite H7. unfold l. rewrite !firstn_combine.
        rewrite combine_map_snd by (rewrite !firstn_length; lia).
        rewrite map_fold_y. unfold yscore, regGain, sq. simpl.
        replace (Z.of_nat (length ix) - Z.of_nat i) with (Z.of_nat (length ix - i)) by lia. reflexivity. }
    destruct (scan_spec ystep (yscore (e_sum E sy) (Z.of_nat (length ix))) (betterScore false)
      (ftoZ (to_mcw o)) f (betterScore_irr false) (betterScore_trans false) (betterScore_mix false) l
         (fzero, e_sum E sy) 0 (Z.of_nat (length ix)) b) as [A B].
    change (betterScore false) with ybetter in *. split.
    + intros i sc thr Hc. apply HC in Hc. eapply A; eauto.
    + destruct B as [B|(i & B1 & B2 & B3 & B4)]; [left; auto|right]. exists i.
      split; [apply HC; auto|]. split; [auto|]. split; [auto|]. intros j sc thr Hj Hc. apply HC in Hc. eapply B4; eauto.
Qed.

(** ** All features *)
Lemma foldM_cand X o ix fs b b' : StronglySorted Z.lt fs ->
  foldM (findBetterSplit E X o ix) b fs = Ok b' ->
  (forall f i sc thr, In f fs -> candidate E X o ix f i sc thr -> betterScore (to_xgb o) sc (b_score b') = false) /\
  (b' = b \/ exists f i, In f fs /\ candidate E X o ix f i (b_score b') (b_thr b') /\ b_split b' = f /\
     betterScore (to_xgb o) (b_score b') (b_score b) = true /\
     forall f' j sc thr, In f' fs -> (f' < f \/ f' = f /\ (j < i)%nat) -> candidate E X o ix f' j sc thr ->
       fnanb sc = true \/ betterScore (to_xgb o) (b_score b') sc = true).
Proof.
  revert b; induction fs as [|f fs IH]; intros b HS H; simpl in H.
  - injection H as <-. split; [intros f i sc thr []|auto].
  - binv H. rename v into b1. inversion HS as [|? ? HS' HF]; subst. rewrite Forall_forall in HF.
    apply findBetterSplit_cand in Hb as [A1 B1]. destruct (IH _ HS' H) as [A2 B2]. split.
    + intros f0 i sc thr [<-|Hin] Hc; [|eapply A2; eauto].
      specialize (A1 _ _ _ Hc). destruct B2 as [->|(f2 & i2 & _ & _ & _ & B3 & _)]; [auto|].
      destruct (betterScore (to_xgb o) sc (b_score b')) eqn:EB; auto.
      rewrite (betterScore_trans _ _ _ _ EB B3) in A1. congruence.
    + destruct B2 as [->|(f2 & i2 & C1 & C2 & C3 & C4 & C5)].
      * destruct B1 as [->|(i1 & D1 & D2 & D3 & D4)]; [auto|]. right. exists f, i1. split; [left; auto|].
        split; [auto|]. split; [auto|]. split; [auto|]. intros f' j sc thr [<-|Hin] Hlt Hc.
        -- destruct Hlt as [Hlt|[_ Hlt]]; [lia|]. eauto.
        -- specialize (HF _ Hin). lia.
      * right. exists f2, i2. split; [right; auto|]. split; [auto|]. split; [auto|]. split.
        -- destruct B1 as [->|(i1 & D1 & D2 & D3 & D4)]; [auto|]. eapply betterScore_trans; eauto.
        -- intros f' j sc thr [<-|Hin] Hlt Hc.
           ++ eapply betterScore_mix; eauto.
           ++ eauto.
Qed.

Lemma seq_sorted a n : StronglySorted Z.lt (map Z.of_nat (seq a n)).
Proof.
  revert a; induction n as [|n IH]; intros a; simpl; constructor; auto.
  apply Forall_forall. intros z Hz. apply in_map_iff in Hz as (k & <- & Hk). apply in_seq in Hk. lia.
Qed.
Lemma filter_sorted {A} (R : A -> A -> Prop) p l : StronglySorted R l -> StronglySorted R (filter p l).
Proof.
  induction 1 as [|a l HS IH HF]; simpl; [constructor|]. destruct (p a); auto. constructor; auto.
  rewrite Forall_forall in *. intros x Hx. apply filter_In in Hx. apply HF; tauto.
Qed.
Lemma scannedColumns_sorted n al : StronglySorted Z.lt (scannedColumns n al).
Proof. apply filter_sorted, seq_sorted. Qed.

(** ** C07, C12 *)
Lemma candidate_core X o o' ix f i sc thr : core o = core o' -> candidate E X o ix f i sc thr -> candidate E X o' ix f i sc thr.
Proof.
  unfold core, candidate. intros [= <- <- <- <- <- <- <-]. auto.
Qed.
Lemma candidate_prepare X o ix f i sc thr : candidate E X (prepare X o) ix f i sc thr <-> candidate E X o ix f i sc thr.
Proof. split; apply candidate_core; reflexivity. Qed.

Lemma chosen_split X n o d l r : grown E X n o (Node d l r) -> t_leaf d = false ->
  exists row0 i, look X 0 row0 /\ allowedColumn o (length row0) (t_split d) /\
    candidate E X o (initialSamples X o) (t_split d) i (t_best d) (t_thr d) /\
    betterScore (to_xgb o) (t_best d) (startScore (to_xgb o)) = true /\
    (forall f j sc thr, allowedColumn o (length row0) f -> candidate E X o (initialSamples X o) f j sc thr ->
       betterScore (to_xgb o) sc (t_best d) = false) /\
    (forall f j sc thr, allowedColumn o (length row0) f -> (f < t_split d \/ f = t_split d /\ (j < i)%nat) ->
       candidate E X o (initialSamples X o) f j sc thr ->
       fnanb sc = true \/ betterScore (to_xgb o) (t_best d) sc = true).
Proof.
  intros H HL; inversion H as [n1 o1 value row0 b HV HX HB HL1|n1 o1 value row0 b col l1 r1 HV HX HF HL1 HC Hl Hr];
    subst; unfold t_leaf in HL; simpl in HL; [congruence|]. cbn [t_split t_best t_thr].
  apply foldM_cand in HF; [|apply scannedColumns_sorted]. destruct HF as [A B]. cbn [to_xgb prepare] in *.
  destruct B as [->|(f & i & B1 & B2 & B3 & B4 & B5)]; [rewrite leafScore_b0 in HL1; discriminate|].
  subst f. exists row0, i. split; [apply look_idx; auto|]. split; [apply scannedColumns_In in B1; exact B1|].
  apply candidate_prepare in B2. split; [auto|]. split; [auto|]. split.
  - intros f j sc thr Ha Hc. apply scannedColumns_In in Ha. apply candidate_prepare in Hc. eauto.
  - intros f j sc thr Ha Hlt Hc. apply scannedColumns_In in Ha. apply candidate_prepare in Hc. eauto.
Qed.

Lemma leaf_no_candidate X n o d l r : grown E X n o (Node d l r) -> t_leaf d = true -> n <> O ->
  exists row0, look X 0 row0 /\
    forall f j sc thr, allowedColumn o (length row0) f -> candidate E X o (initialSamples X o) f j sc thr ->
       betterScore (to_xgb o) sc (startScore (to_xgb o)) = false.
Proof.
  intros H HL Hn; inversion H as [n1 o1 value row0 b HV HX HB HL1|n1 o1 value row0 b col l1 r1 HV HX HF HL1 HC Hl Hr];
    subst; unfold t_leaf in HL; simpl in HL; [|congruence].
  destruct HB as [[HB _]|[_ HF]]; [congruence|]. exists row0. split; [apply look_idx; auto|].
  apply foldM_cand in HF; [|apply scannedColumns_sorted]. destruct HF as [A B]. cbn [to_xgb prepare] in *.
  intros f j sc thr Ha Hc. apply scannedColumns_In in Ha. apply candidate_prepare in Hc.
  assert (HS : b_score b = startScore (to_xgb o)).
  { destruct B as [->|(f1 & i & B1 & B2 & B3 & B4 & B5)]; [reflexivity|]. exfalso.
    change (b_score (b0 (to_xgb o))) with (startScore (to_xgb o)) in B4. revert B4 HL.
    unfold leafScore, betterScore, startScore. destruct (to_xgb o).
    - intros B4 HL'. apply fltb_true in B4 as (_ & N & B4). apply feqb_true in HL' as (_ & _ & HL'). lra.
    - destruct (b_score b) as [s|[|]| |s m e Hs]; simpl; try discriminate. }
  rewrite <- HS. eapply A; eauto.
Qed.
End Feature.
