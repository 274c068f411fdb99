(** Proofs about rows that are moved a little (C166). *)
From Coq Require Import Reals Lra.
From Flocq Require Import Core BinarySingleNaN.
From Verif Require Import Base F64 F64Lemmas Env EnvLemmas Utils Tree Spec UtilsProofs UtilsThms ActProofs NumErr TreeProofs TreeSplit TreeMid TreeThms Options Train SpecErr SpecTrain SpecTot TrainProofs TrainThms TrainMore TrainSteps SatProofs InvMore ErrProofs OneProofs LearnNum ScoreProofs SpecShift.
Open Scope Z_scope.

(** the same side of every threshold *)
Lemma alike_tree t row row' : (forall p, In p (splitsOf t) -> sameSide row row' p) -> PredictSingle t row' = PredictSingle t row.
Proof.
  induction t as [|d l IHl r IHr]; intros H; [reflexivity|]. cbn [splitsOf] in H. cbn [PredictSingle]. destruct (t_leaf d) eqn:HL; [reflexivity|].
  specialize (IHl ltac:(intros p Hp; apply H; apply in_or_app; right; apply in_or_app; auto)). specialize (IHr ltac:(intros p Hp; apply H; apply in_or_app; right; apply in_or_app; auto)).
  specialize (H (t_split d, t_thr d) ltac:(left; reflexivity)). unfold sameSide in H. cbn [fst snd] in H.
  destruct (idx row (t_split d)) as [v| |], (idx row' (t_split d)) as [v'| |]; cbn [bind] in *; try discriminate H; auto. apply Ok_inj' in H. rewrite <- H. destruct (fleb v (t_thr d)); auto.
Qed.
Lemma alike_model M row row' : (forall ens t p, In ens (mc_b M) -> In t ens -> In p (splitsOf t) -> sameSide row row' p) ->
  rawScores M row' = rawScores M row /\ forall bufs, PredictMC M row' bufs = PredictMC M row bufs /\ PredictSingleClass M row' bufs = PredictSingleClass M row bufs.
Proof.
  intros H. assert (HQ : rawScores M row' = rawScores M row) by (apply rawScores_eq; intros ens t He Ht; apply alike_tree; intros; eapply H; eauto).
  split; auto. intros bufs. assert (HP : PredictMC M row' bufs = PredictMC M row bufs) by (unfold PredictMC; rewrite HQ; reflexivity). split; auto. unfold PredictSingleClass. rewrite HP. reflexivity.
Qed.

(** moved rows take the same path *)
Fixpoint samePath (t : tree) (row row' : list f64) : Prop :=
  match t with
  | Nil => True
  | Node d l r => if t_leaf d then True else exists v v', idx row (t_split d) = Ok v /\ idx row' (t_split d) = Ok v' /\ fleb v' (t_thr d) = fleb v (t_thr d) /\ if fleb v (t_thr d) then samePath l row row' else samePath r row row'
  end.
Lemma path_predict t row row' : samePath t row row' -> PredictSingle t row' = PredictSingle t row.
Proof.
  induction t as [|d l IHl r IHr]; [reflexivity|]. cbn [samePath PredictSingle]. destruct (t_leaf d); [reflexivity|]. intros (v & v' & -> & -> & H & HP). cbn [bind]. rewrite H. destruct (fleb v (t_thr d)); auto.
Qed.
Lemma path_updated g h t0 t row row' : leavesUpdated g h t0 t -> samePath t0 row row' -> samePath t row row'.
Proof.
  induction 1 as [|d l r l' r' HL Hl IHl Hr IHr|d d' l r l' r' ix gs hs HL HS Fg Fh HV HE Hl IHl Hr IHr]; [auto| |].
  - cbn [samePath]. rewrite HL. intros (v & v' & H1 & H2 & H3 & H4). exists v, v'. repeat split; auto. destruct (fleb v (t_thr d)); auto.
  - intros _. cbn [samePath]. assert (HLd : t_leaf d' = true). { unfold t_leaf in *. injection HE; intros _ E2 _ _ _ E3 _. rewrite E2, E3. exact HL. } rewrite HLd. exact I.
Qed.

(** half-way points *)
Lemma half_finite a b : ffinite a = true -> ffinite b = true -> fleb a (halfway a b) = true -> fltb (halfway a b) b = true -> ffinite (fadd a b) = true.
Proof.
  intros Fa Fb H1 H2. destruct (ffinite (fadd a b)) eqn:F; [reflexivity|exfalso]. destruct (midpoint_overflow a b Fa Fb F) as [H|H]; unfold midpoint, halfway in *; rewrite H in *.
  - destruct (inf_separates_nothing b Fb) as [H3 _]. apply fltb_true in H2 as (N1 & N2 & H2). apply fleb_true in H3 as (_ & _ & H3). lra.
  - destruct (inf_separates_nothing a Fa) as [_ H3]. congruence.
Qed.
Lemma half_mono a b c d : ffinite a = true -> ffinite b = true -> ffinite c = true -> ffinite d = true -> ffinite (fadd a b) = true -> ffinite (fadd c d) = true ->
  (B2R a <= B2R c)%R -> (B2R b <= B2R d)%R -> fleb (halfway a b) (halfway c d) = true.
Proof.
  intros Fa Fb Fc Fd F1 F2 H1 H2. destruct (midpoint_real a b Fa Fb F1) as [G1 E1]. destruct (midpoint_real c d Fc Fd F2) as [G2 E2]. unfold midpoint, halfway in *.
  apply fleb_true. rewrite !finite_nnan, !ext_finite by auto. repeat split; auto. rewrite E1, E2. apply rnd_mono. assert (rnd (B2R a + B2R b) <= rnd (B2R c + B2R d))%R by (apply rnd_mono; lra). lra.
Qed.
Lemma fleb_B a b : ffinite a = true -> ffinite b = true -> (fleb a b = true <-> (B2R a <= B2R b)%R).
Proof. intros Fa Fb. rewrite fleb_true, !finite_nnan, !ext_finite by auto. tauto. Qed.
Lemma fltb_B a b : ffinite a = true -> ffinite b = true -> (fltb a b = true <-> (B2R a < B2R b)%R).
Proof. intros Fa Fb. rewrite fltb_true, !finite_nnan, !ext_finite by auto. tauto. Qed.

Section Moved.
Context (E : Env) (HE : EnvOk E) (X : list (list f64)) (HG : goodTable X) (HF : finiteTable X).

Lemma mid_sum i j f a b : cell X i f a -> cell X j f b -> fltb a b = true -> ffinite (fadd a b) = true.
Proof. intros Ha Hb Hl. destruct (gt_mid _ HG f i j a b Ha Hb Hl) as [H1 H2]. apply half_finite; eauto. Qed.
Lemma side ix o f k sc thr i v v' : candidate E X o ix f k sc thr -> In i ix -> cell X i f v -> stays X f v v' -> fleb v' thr = fleb v thr.
Proof.
  intros HC Hi Hv HS. destruct (candidate_counts E HE X o ix f k sc thr HC) as (a & b & ja & jb & Hja & Hjb & Ca & Cb & Hab & -> & _ & _ & _ & Hside & _).
  { intros j w _ Hw. apply finite_nnan. eauto. }
  assert (Fa : ffinite a = true) by eauto. assert (Fb : ffinite b = true) by eauto. assert (Fv : ffinite v = true) by eauto.
  destruct (gt_mid _ HG f ja jb a b Ca Cb Hab) as [M1 M2]. fold (halfway a b) in *. pose proof (mid_sum _ _ _ _ _ Ca Cb Hab) as Fab.
  pose proof (proj1 (fltb_B a b Fa Fb) Hab) as Rab.
  destruct (Hside i v Hi Hv) as [H|H].
  - pose proof (proj1 (fleb_B v a Fv Fa) H) as Rva. assert (Hvb : fltb v b = true) by (apply fltb_B; auto; lra).
    assert (T1 : fleb v (halfway a b) = true) by (eapply fleb_trans; eauto). rewrite T1.
    eapply fleb_trans; [apply (proj1 (HS jb b Cb) Hvb)|]. apply half_mono; auto; [eapply mid_sum; eauto|lra].
  - pose proof (proj1 (fleb_B b v Fb Fv) H) as Rbv. assert (Hva : fltb a v = true) by (apply fltb_B; auto; lra).
    assert (T1 : fltb (halfway a b) v = true) by (eapply fltb_leb_trans; eauto).
    assert (T2 : fltb (halfway a b) v' = true).
    { eapply fleb_ltb_trans; [|apply (proj2 (HS ja a Ca) Hva)]. apply half_mono; auto; [eapply mid_sum; eauto|lra]. }
    assert (G : forall w, fltb (halfway a b) w = true -> fleb w (halfway a b) = false). { intros w Hw. apply fltb_true in Hw as (N1 & N2 & Hw). apply fleb_false; auto. }
    rewrite !G; auto.
Qed.
Lemma moved_tree n o t : grown E X n o t -> forall i row row', In i (initialSamples X o) -> look X i row -> movedLittle X row row' -> samePath t row row'.
Proof.
  induction 1 as [n o value row0 b HV HX HB HL|n o value row0 b col l r HV HX HFo HL HC Hl IHl Hr IHr]; intros i row row' Hi Hrow HM.
  - cbn [samePath]. destruct (t_leaf _) eqn:HL1; [exact I|]. unfold t_leaf in HL1. cbn [t_xgb t_best] in HL1. congruence.
  - assert (HGr := grown_split E X n o value row0 b col l r HV HX HFo HL HC Hl Hr).
    destruct (chosen_split E HE X _ _ _ _ _ HGr) as (rw & k & _ & _ & HCand & _); [unfold t_leaf; cbn [t_xgb t_best]; exact HL|]. cbn [t_split t_thr] in HCand.
    assert (HCand' := HCand). destruct HCand' as (cl & _ & _ & HCl & _). apply In_nth_error in Hi as [m Hm]. destruct (Forall2_nth1 _ _ _ HCl _ _ Hm) as (v & _ & Hv). apply nth_error_In in Hm.
    assert (Hlv : look row (b_split b) v). { destruct Hv as (rr & Hrr & Hv). assert (rr = row) by (destruct Hrr, Hrow; congruence). subst. exact Hv. }
    assert (Hlv' : exists v', look row' (b_split b) v').
    { destruct HM as [HLen _]. destruct Hlv as [H0 Hlv]. destruct (nth_error row' (Z.to_nat (b_split b))) as [v'|] eqn:Ev; [exists v'; split; auto|]. apply nth_error_None in Ev.
      assert (Z.to_nat (b_split b) < length row)%nat by (apply nth_error_Some; congruence). lia. }
    destruct Hlv' as [v' Hlv']. pose proof (side _ _ _ _ _ _ _ _ v' HCand Hm Hv (proj2 HM _ _ _ Hlv Hlv')) as HSd.
    cbn [samePath]. destruct (t_leaf _) eqn:HL1; [exact I|]. cbn [t_split t_thr]. exists v, v'. split; [apply look_idx; exact Hlv|]. split; [apply look_idx; exact Hlv'|]. split; [exact HSd|].
    pose proof (cell_below X (b_split b) (b_thr b) i v Hv) as HBl. destruct (fleb v (b_thr b)).
    + apply (IHl i); auto. cbn [initialSamples childOpts to_indexes]. apply filter_In. auto.
    + apply (IHr i); auto. cbn [initialSamples childOpts to_indexes]. apply filter_In. rewrite HBl. auto.
Qed.
End Moved.

Lemma moved_lemma {K} E rnd (D : DataBunch K) O tr : EnvOk E -> NewMultiClass E rnd D O = Ok tr -> (length (Data D) <= length (Labels D))%nat -> goodTable (Data D) -> finiteTable (Data D) ->
  o_xgb O = false \/ fltb (o_ss O) fone = false -> forall row row' bufs, In row (Data D) -> movedLittle (Data D) row row' ->
  rawScores (tr_model tr) row' = rawScores (tr_model tr) row /\ PredictMC (tr_model tr) row' bufs = PredictMC (tr_model tr) row bufs /\ PredictSingleClass (tr_model tr) row' bufs = PredictSingleClass (tr_model tr) row bufs.
Proof.
  intros HE HN HL HG HF HSS row row' bufs Hin HM. apply In_nth_error in Hin as [i Hi].
  assert (HQ : rawScores (tr_model tr) row' = rawScores (tr_model tr) row).
  { apply rawScores_eq. intros ens t He Ht. destruct (NewMultiClass_inv E rnd D O tr HN) as (EO & Eb & _). rewrite Eb in He. apply in_map_iff in He as (cl & <- & Hcl). apply in_map_iff in Ht as (e & <- & He).
    assert (Hin : In e (concat (tr_hist tr))) by (apply in_concat; eauto). apply in_split in Hin as (es1 & es2 & Hes). clear Hcl He.
    destruct (c81_lemma E rnd D O tr HN HL es1 e es2 Hes) as (lab & pr & _ & _ & _ & Hf & _).
    assert (EX : o_xgb (tr_opts tr) = o_xgb O) by (rewrite EO; reflexivity). assert (ES : o_ss (tr_opts tr) = o_ss O) by (rewrite EO; reflexivity).
    assert (Hio : forall topts, to_indexes topts = None -> In (Z.of_nat i) (initialSamples (Data D) topts)).
    { intros topts H0. unfold initialSamples. rewrite H0. apply iota_In. assert (i < length (Data D))%nat by (apply nth_error_Some; congruence). lia. }
    assert (Hlk : look (Data D) (Z.of_nat i) row) by (split; [lia|rewrite Nat2Z.id; exact Hi]).
    unfold fitted in Hf. rewrite EX, ES in Hf. apply path_predict. destruct (o_xgb O) eqn:EXG.
    - destruct HSS as [HSS|HSS]; [discriminate|]. rewrite HSS in Hf. destruct Hf as (rows & cols & topts & Hrw & _ & Ho & _ & _ & HT). assert (Oi : to_indexes topts = None) by congruence.
      apply (moved_tree E HE (Data D) HG HF _ _ _ (NewTree_grown _ _ _ _ HT) (Z.of_nat i)); auto.
    - destruct Hf as (topts & t0 & Ho & _ & HT & HU). assert (Oi : to_indexes topts = None) by congruence.
      apply (path_updated _ _ _ _ _ _ HU). apply (moved_tree E HE (Data D) HG HF _ _ _ (NewTree_grown _ _ _ _ HT) (Z.of_nat i)); auto. }
  split; auto. assert (HP : PredictMC (tr_model tr) row' bufs = PredictMC (tr_model tr) row bufs) by (unfold PredictMC; rewrite HQ; reflexivity). split; auto. unfold PredictSingleClass. rewrite HP. reflexivity.
Qed.

(** in real numbers *)
Lemma half_error a b : ffinite a = true -> ffinite b = true -> ffinite (fadd a b) = true ->
  ffinite (halfway a b) = true /\ (Rabs (B2R (halfway a b) - (B2R a + B2R b) / 2) <= (Rabs (B2R a) + Rabs (B2R b)) * two (-52) + two (-1073))%R.
Proof.
  intros Fa Fb Fs. destruct (midpoint_real a b Fa Fb Fs) as [F H]. split; [exact F|]. change (midpoint a b) with (halfway a b) in H. rewrite H. clear H F.
  set (s := (B2R a + B2R b)%R). pose proof (rnd_abs_any s) as E1. pose proof (rnd_abs_any (rnd s / 2)) as E2.
  pose proof (Rabs_triang (B2R a) (B2R b)) as T1. fold s in T1. pose proof (Rabs_pos s) as P1.
  assert (HU : (uu = bpow radix2 (-53))%R) by reflexivity. assert (HE : (ee = bpow radix2 (-1075))%R) by reflexivity.
  assert (H52 : (two (-52) = 2 * uu)%R) by (apply two_uu). assert (H73 : (two (-1073) = 4 * ee)%R).
  { unfold two. rewrite HE. change (-1073)%Z with (2 + -1075)%Z. rewrite bpow_plus. reflexivity. }
  assert (U : (0 < uu <= / 4)%R). { rewrite HU. split; [apply bpow_gt_0|]. change (/ 4)%R with (bpow radix2 (-2)). apply bpow_le. lia. }
  assert (G : (0 < ee)%R) by (rewrite HE; apply bpow_gt_0).
  assert (A1 : (Rabs (rnd s / 2) <= (Rabs s + (uu * Rabs s + ee)) / 2)%R).
  { unfold Rdiv. rewrite Rabs_mult, (Rabs_pos_eq (/ 2)) by lra. apply Rmult_le_compat_r; [lra|]. replace (rnd s) with (s + (rnd s - s))%R by ring. eapply Rle_trans; [apply Rabs_triang|]. lra. }
  replace (rnd (rnd s / 2) - s / 2)%R with ((rnd (rnd s / 2) - rnd s / 2) + (rnd s - s) / 2)%R by field.
  eapply Rle_trans; [apply Rabs_triang|]. assert (A2 : (Rabs ((rnd s - s) / 2) <= (uu * Rabs s + ee) / 2)%R).
  { unfold Rdiv. rewrite Rabs_mult, (Rabs_pos_eq (/ 2)) by lra. apply Rmult_le_compat_r; lra. }
  rewrite H52, H73. set (p := Rabs s) in *. assert (uu * Rabs (rnd s / 2) <= uu * ((p + (uu * p + ee)) / 2))%R by (apply Rmult_le_compat_l; lra).
  assert (Q1 : (0 <= uu * p <= / 4 * p)%R) by (split; [apply Rmult_le_pos; lra|apply Rmult_le_compat_r; lra]). assert (Q2 : (0 <= uu * (uu * p) <= / 4 * (uu * p))%R) by (split; [apply Rmult_le_pos; lra|apply Rmult_le_compat_r; lra]).
  assert (Q3 : (0 <= uu * ee <= / 4 * ee)%R) by (split; [apply Rmult_le_pos; lra|apply Rmult_le_compat_r; lra]).
  assert (Q4 : (uu * p <= uu * (Rabs (B2R a) + Rabs (B2R b)))%R) by (apply Rmult_le_compat_l; lra). lra.
Qed.
Lemma close_stays X f i v v' : goodTable X -> finiteTable X -> cell X i f v -> closeTo X f v v' -> stays X f v v'.
Proof.
  intros HG HF Hv [Fv' HC] j w Hw. assert (Fv : ffinite v = true) by eauto. assert (Fw : ffinite w = true) by eauto. split; intros Hl.
  - pose proof (proj1 (fltb_B _ _ Fv Fw) Hl) as Rl. specialize (HC j w Hw ltac:(lra)). pose proof (mid_sum X HG HF _ _ _ _ _ Hv Hw Hl) as Fs.
    destruct (half_error v w Fv Fw Fs) as [Fh Eh]. apply fleb_B; auto. rewrite (Rabs_pos_eq (B2R w - B2R v)) in HC by lra. apply Rabs_le_inv in Eh. pose proof (Rle_abs (B2R v' - B2R v)). lra.
  - pose proof (proj1 (fltb_B _ _ Fw Fv) Hl) as Rl. specialize (HC j w Hw ltac:(lra)). pose proof (mid_sum X HG HF _ _ _ _ _ Hw Hv Hl) as Fs.
    destruct (half_error w v Fw Fv Fs) as [Fh Eh]. apply fltb_B; auto. rewrite (Rabs_left1 (B2R w - B2R v)) in HC by lra. apply Rabs_le_inv in Eh. pose proof (Rle_abs (- (B2R v' - B2R v))) as H1. rewrite Rabs_Ropp in H1. lra.
Qed.
Lemma close_moved X row row' : goodTable X -> finiteTable X -> In row X -> length row' = length row -> (forall f v v', look row f v -> look row' f v' -> closeTo X f v v') -> movedLittle X row row'.
Proof.
  intros HG HF Hin HL H. split; auto. intros f v v' Hv Hv'. apply In_nth_error in Hin as [i Hi]. apply (close_stays X f (Z.of_nat i)); auto.
  exists row. split; auto. split; [lia|rewrite Nat2Z.id; auto].
Qed.
