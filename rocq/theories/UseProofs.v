(** What a prediction depends on: proofs for C129-C131. *)
From Coq Require Import Reals Lra String.
From Flocq Require Import Core BinarySingleNaN.
From Verif Require Import Base F64 F64Lemmas Env EnvLemmas Utils UtilsProofs UtilsThms Tree TreeProofs TreeSplit TreeMid Options Train Spec SpecTrain SpecTot
  TrainProofs TrainThms TrainMore TrainSteps ActProofs Feats SpecFeats FeatsThms Text Json SpecJson JsonProofs JsonMore ErrProofs NumErr RowProofs SpecUse.
From Coq Require Import List.
Open Scope Z_scope.

Lemma agree_idx fs x y f : agreeOn fs x y -> In f fs -> idx x f = idx y f.
Proof.
  intros H Hf. destruct (idx x f) as [v| |] eqn:E1.
  - apply look_idx in E1. apply (H f v Hf) in E1. symmetry. apply look_idx. exact E1.
  - destruct (idx y f) as [w| |] eqn:E2; auto.
    + apply look_idx in E2. apply (H f w Hf) in E2. apply look_idx in E2. congruence.
    + unfold idx in E2. destruct (f <? 0); [discriminate|]. destruct (nth_error y (Z.to_nat f)); discriminate.
  - unfold idx in E1. destruct (f <? 0); [discriminate|]. destruct (nth_error x (Z.to_nat f)); discriminate.
Qed.

Lemma predict_agree t x y : agreeOn (map fst (splitScores t)) x y -> PredictSingle t x = PredictSingle t y.
Proof.
  induction t as [|d l IHl r IHr]; intros H; cbn [PredictSingle splitScores] in *; auto.
  destruct (t_leaf d); auto. cbn [map fst] in H. rewrite map_app in H.
  rewrite (agree_idx _ _ _ (t_split d) H) by (left; auto).
  rewrite IHl, IHr; auto; intros f v Hf; apply H; right; apply in_app_iff; auto.
Qed.

(** ** Models: the scores depend on the trees' values only *)
Lemma scores_same M x y : (forall t, In t (concat (mc_b M)) -> PredictSingle t x = PredictSingle t y) -> rawScores M x = rawScores M y.
Proof.
  intros H. unfold rawScores. destruct (idx (mc_b M) 0) as [b0| |]; cbn [bind]; auto.
  generalize (repeat (mc_base M) (length b0)). induction (mc_b M) as [|ens b IH]; intros tmp; cbn [foldM]; auto.
  assert (HA : forall c tmp', addTrees (mc_lr M) x c ens tmp' = addTrees (mc_lr M) y c ens tmp').
  { assert (HE : forall t, In t ens -> PredictSingle t x = PredictSingle t y) by (intros t Ht; apply H; cbn [concat]; apply in_app_iff; auto).
    clear IH H. induction ens as [|t ens IH]; intros c tmp'; cbn [addTrees]; auto. rewrite (HE t) by (left; auto).
    destruct (PredictSingle t y) as [p| |]; cbn [bind]; auto. destruct (idx tmp' c) as [o| |]; cbn [bind]; auto.
    destruct (upd tmp' c (fadd o (fmul p (mc_lr M)))) as [u| |]; cbn [bind]; auto. apply IH. intros; apply HE; right; auto. }
  rewrite HA. destruct (addTrees (mc_lr M) y 0 ens tmp) as [u| |]; cbn [bind]; auto. apply IH. intros t Ht. apply H. cbn [concat]. apply in_app_iff. auto.
Qed.
Lemma model_same M x y bufs : rawScores M x = rawScores M y ->
  PredictMC M x bufs = PredictMC M y bufs /\ PredictSingleClass M x bufs = PredictSingleClass M y bufs.
Proof. intros H. assert (HP : PredictMC M x bufs = PredictMC M y bufs) by (unfold PredictMC; rewrite H; reflexivity). split; [exact HP|]. unfold PredictSingleClass. rewrite HP. reflexivity. Qed.

(** ** C129 *)
Lemma collect_two E t : forall g f, collect E t g = Ok f -> twoChildren t.
Proof.
  induction t as [|d l IHl r IHr]; intros g f H; cbn [collect] in H; [discriminate|].
  destruct (t_leaf d) eqn:Ed; [constructor; auto|]. apply bind_Ok in H as (g1 & _ & H). apply bind_Ok in H as (g2 & H2 & H). constructor 2; eauto.
Qed.
Lemma collects_two E b : forall g f, foldM (fun g ens => foldM (fun g t => collect E t g) g ens) g b = Ok f -> forall t, In t (concat b) -> twoChildren t.
Proof.
  assert (HE : forall ens g f, foldM (fun g t => collect E t g) g ens = Ok f -> forall t, In t ens -> twoChildren t).
  { induction ens as [|u ens IH]; intros g f H t Ht; [destruct Ht|]. cbn [foldM] in H. apply bind_Ok in H as (g1 & H1 & H). destruct Ht as [->|Ht]; eauto using collect_two. }
  induction b as [|ens b IH]; intros g f H t Ht; [destruct Ht|]. cbn [foldM] in H. apply bind_Ok in H as (g1 & H1 & H).
  cbn [concat] in Ht. apply in_app_iff in Ht as [Ht|Ht]; eauto.
Qed.
Lemma importance_covers E M f t k : EnvOk E -> FeatureImportance E M = Ok f -> In t (concat (mc_b M)) -> In k (map fst (splitScores t)) -> In k (fe_feat f).
Proof.
  intros HE HF Ht Hk. pose proof (collects_two E _ _ _ HF) as H2. destruct (importance_lemma E HE M H2) as (f' & HF' & (_ & _ & HI & _) & _).
  assert (f' = f) by congruence. subst f'. apply HI. apply in_map_iff in Hk as (p & <- & Hp). apply in_map_iff. exists p. split; [auto|].
  apply in_flat_map. eauto.
Qed.
Lemma c129_tree_lemma E xgb t f x y : EnvOk E -> TreeImportance E xgb t = Ok (Some f) -> agreeOn (fe_feat f) x y -> PredictSingle t x = PredictSingle t y.
Proof.
  intros HE H HA. assert (H2 : twoChildren t).
  { destruct t as [|d l r]; [discriminate|]. unfold TreeImportance in H. destruct (t_leaf d); [discriminate|]. apply bind_Ok in H as (g & H & _). eauto using collect_two. }
  destruct (tree_importance_lemma E HE xgb t H2) as [HL HI]. destruct t as [|d l r]; [discriminate|]. cbn [Leaf] in HL, HI.
  destruct (t_leaf d) eqn:Ed. { rewrite HL in H by auto. discriminate. }
  destruct (HI eq_refl) as (f' & HF' & (_ & _ & HT & _) & _). assert (f' = f) by congruence. subst f'.
  apply predict_agree. intros k v Hk. apply HA. apply HT. exact Hk.
Qed.
Lemma c129_leaf_lemma E xgb t x y : TreeImportance E xgb t = Ok None -> PredictSingle t x = PredictSingle t y.
Proof.
  destruct t as [|d l r]; [discriminate|]. unfold TreeImportance. destruct (t_leaf d) eqn:Ed.
  - intros _. cbn [PredictSingle]. rewrite Ed. reflexivity.
  - intros H. apply bind_Ok in H as (g & _ & H). discriminate.
Qed.
Lemma c129_lemma E M f x y bufs : EnvOk E -> FeatureImportance E M = Ok f -> agreeOn (fe_feat f) x y ->
  PredictMC M x bufs = PredictMC M y bufs /\ PredictSingleClass M x bufs = PredictSingleClass M y bufs.
Proof.
  intros HE HF HA. apply model_same, scores_same. intros t Ht. apply predict_agree. intros k v Hk. apply HA. eapply importance_covers; eauto.
Qed.
Lemma c129_empty_lemma E M f : EnvOk E -> FeatureImportance E M = Ok f -> fe_feat f = [] -> forall x y bufs, PredictMC M x bufs = PredictMC M y bufs.
Proof. intros HE HF H0 x y bufs. apply (c129_lemma E M f x y bufs HE HF). rewrite H0. intros k v []. Qed.

(** ** C130 *)
Definition sumN (l : list nat) : nat := fold_right Nat.add O l.
Lemma sumN_le {A} (f g : A -> nat) l : (forall a, In a l -> f a <= g a)%nat -> (sumN (map f l) <= sumN (map g l))%nat.
Proof. induction l as [|a l IH]; intros H; cbn; auto. pose proof (H a (or_introl eq_refl)). specialize (IH (fun b Hb => H b (or_intror Hb))). unfold sumN in IH. lia. Qed.
Lemma sumN_zero {A} (l : list A) : sumN (map (fun _ => O) l) = O.
Proof. induction l; cbn; auto. Qed.
Lemma group_one G g : NoDup G -> In g G -> sumN (map (fun h => if g =? h then 1%nat else 0%nat) G) = 1%nat.
Proof.
  induction G as [|h G IH]; intros HN Hg; [destruct Hg|]. inversion HN as [|? ? Hn HN']; subst. cbn. destruct Hg as [->|Hg].
  - rewrite Z.eqb_refl. assert (H0 : map (fun h => if g =? h then 1%nat else 0%nat) G = map (fun _ => O) G).
    { apply map_ext_in. intros h Hh. destruct (Z.eqb_spec g h); [subst; contradiction|auto]. }
    rewrite H0. pose proof (sumN_zero G) as HZ. unfold sumN in HZ. rewrite HZ. reflexivity.
  - destruct (Z.eqb_spec g h); [subst; contradiction|]. apply IH; auto.
Qed.
Lemma sumN_add {A} (f g : A -> nat) l : sumN (map (fun a => f a + g a)%nat l) = (sumN (map f l) + sumN (map g l))%nat.
Proof. induction l as [|a l IH]; cbn; auto. unfold sumN in IH. lia. Qed.
Lemma group_sum {A} (k : A -> Z) G l : NoDup G -> (forall a, In a l -> In (k a) G) -> length l = sumN (map (fun g => length (filter (fun a => k a =? g) l)) G).
Proof.
  intros HN. induction l as [|a l IH]; intros HI.
  - cbn [length filter]. symmetry. apply sumN_zero.
  - rewrite (map_ext _ (fun g => (if Z.eqb (k a) g then 1 else 0) + length (filter (fun b => Z.eqb (k b) g) l))%nat).
    + rewrite sumN_add, group_one, <- IH; auto; [intros b Hb; apply HI; right; auto|apply HI; left; auto].
    + intros g. cbn [filter]. destruct (k a =? g); cbn [length]; lia.
Qed.
Lemma mostFrequent_ge l x : (count_occ Z.eq_dec l x <= mostFrequent l)%nat.
Proof.
  unfold mostFrequent. destruct (in_dec Z.eq_dec x l) as [Hi|Hn]; [|apply (count_occ_not_In Z.eq_dec) in Hn; lia].
  revert Hi. generalize (count_occ Z.eq_dec l). intros c. induction l as [|y l IH]; intros Hi; [destruct Hi|]. cbn. destruct Hi as [->|Hi]; [lia|]. specialize (IH Hi). lia.
Qed.
Lemma count_filter l x : count_occ Z.eq_dec l x = length (filter (fun y => x =? y) l).
Proof. induction l as [|y l IH]; cbn; auto. destruct (Z.eq_dec y x); destruct (Z.eqb_spec x y); cbn; lia. Qed.

(** a rule that is constant on groups *)
Lemma ceiling_rule (key : list f64 -> Z) : forall (rows : list (list f64)) (ps ys : list Z),
  (forall i j x y p q, nth_error rows i = Some x -> nth_error rows j = Some y -> nth_error ps i = Some p -> nth_error ps j = Some q -> key x = key y -> p = q) ->
  length ps = length rows ->
  Nat.le (length (filter (fun p => fst p =? snd p) (combine ps ys)))
   (sumN (map (fun g => mostFrequent (map snd (filter (fun p => key (fst p) =? g) (combine rows ys)))) (nodup Z.eq_dec (map key rows)))).
Proof.
  intros rows ps ys HC HL. set (T := combine (map key rows) (combine ps ys)).
  assert (HT : length (filter (fun p => fst p =? snd p) (combine ps ys)) = length (filter (fun t => fst (snd t) =? snd (snd t)) T)).
  { unfold T. clear HC T. revert rows ys HL. induction ps as [|p ps IH]; intros [|x rows] ys HL; try discriminate HL; auto.
    destruct ys as [|y ys]; [reflexivity|]. cbn. injection HL as HL. specialize (IH rows ys HL). destruct (p =? y); cbn; lia. }
  rewrite HT. rewrite (group_sum fst (nodup Z.eq_dec (map key rows))); [|apply NoDup_nodup|].
  2:{ intros [g py] Ht. apply filter_In in Ht as [Ht _]. apply nodup_In. apply in_combine_l in Ht. exact Ht. }
  apply sumN_le. intros g _.
  destruct (filter (fun a => fst a =? g) (filter (fun t => fst (snd t) =? snd (snd t)) T)) as [|[g0 [p0 y0]] rest] eqn:EF; [cbn; lia|].
  rewrite <- EF.
  assert (Hp0 : forall g1 p1 y1, In (g1, (p1, y1)) T -> g1 = g -> p1 = p0).
  { assert (H0 : In (g0, (p0, y0)) T /\ g0 = g).
    { assert (Hin : In (g0, (p0, y0)) (filter (fun a => fst a =? g) (filter (fun t => fst (snd t) =? snd (snd t)) T))) by (rewrite EF; left; auto).
      apply filter_In in Hin as [Hin Hg]. apply filter_In in Hin as [Hin _]. split; [exact Hin|]. apply Z.eqb_eq in Hg. exact Hg. }
    destruct H0 as [H0 H0g]. intros g1 p1 y1 H1 H1g.
    assert (Hpos : forall g p y, In (g, (p, y)) T -> exists i x, nth_error rows i = Some x /\ nth_error ps i = Some p /\ key x = g).
    { unfold T. clear. revert ps ys. induction rows as [|x rows IH]; intros [|p0 ps] [|y0 ys] g p y H; try (destruct H; fail); cbn in H.
      destruct H as [H|H].
      - injection H as <- <- <-. exists O, x. auto.
      - destruct (IH ps ys g p y H) as (i & z & A & B & C). exists (Datatypes.S i), z. auto. }
    destruct (Hpos _ _ _ H0) as (i & x & A1 & A2 & A3). destruct (Hpos _ _ _ H1) as (j & z & B1 & B2 & B3).
    symmetry. apply (HC i j x z p0 p1 A1 B1 A2 B2). congruence. }
  etransitivity; [|apply (mostFrequent_ge _ p0)]. rewrite count_filter. rewrite <- (map_length (fun t => snd (snd t)) (filter _ (filter _ T))).
  assert (HG : forall (T' : list (Z * (Z * Z))) (R : list (list f64 * Z)), (forall t, In t T' -> fst t = g -> fst (snd t) = p0) ->
     map (fun t => (fst t, snd (snd t))) T' = map (fun r => (key (fst r), snd r)) R ->
     Nat.le (length (filter (fun a => fst a =? g) (filter (fun t => fst (snd t) =? snd (snd t)) T'))) (length (filter (fun y => p0 =? y) (map snd (filter (fun p => key (fst p) =? g) R))))).
  { clear. induction T' as [|[g1 [p1 y1]] T' IH]; intros [|[x y] R] HP HM; try discriminate HM; [cbn; lia|]. cbn [map fst snd] in HM. injection HM as -> -> HM.
    specialize (IH R (fun t Ht => HP t (or_intror Ht)) HM). specialize (HP (key x, (p1, y)) (or_introl eq_refl)). cbn [fst snd] in HP.
    cbn [filter fst snd]. destruct (Z.eqb_spec (key x) g) as [Hg|Hg].
    - specialize (HP Hg). subst p1. cbn [map snd filter fst]. destruct (Z.eqb_spec p0 y) as [Hy|Hy]; cbn [filter fst]; [|exact IH].
      rewrite (proj2 (Z.eqb_eq _ _) Hg). cbn [length]. lia.
    - destruct (p1 =? y); cbn [filter fst]; [|exact IH]. rewrite (proj2 (Z.eqb_neq _ _) Hg). exact IH. }
  rewrite map_length. apply HG.
  - intros [g1 [p1 y1]] Ht Hg. cbn [fst snd] in *. eapply Hp0; eauto.
  - unfold T. clear -HL. revert rows ys HL. induction ps as [|p ps IH]; intros [|x rows] ys HL; try discriminate HL; auto.
    destruct ys as [|y ys]; [reflexivity|]. cbn. injection HL as HL. rewrite (IH rows ys HL). reflexivity.
Qed.

Lemma buffers_same M row b b2 k b' : PredictSingleClass M row b = Ok (k, b') -> exists b2', PredictSingleClass M row b2 = Ok (k, b2').
Proof.
  unfold PredictSingleClass, PredictMC. intros H. destruct (rawScores M row) as [tmp| |]; cbn [bind] in *; try discriminate H.
  destruct (NewDense 1 (length tmp) tmp) as [O1| |]; cbn [bind] in *; try discriminate H.
  destruct (NewDense 1 (length tmp) (repeat fzero (length tmp))) as [D1| |]; cbn [bind] in *; try discriminate H.
  destruct (mc_pt M) as [f|]; [|discriminate H]. destruct (f O1 D1) as [D2| |]; cbn [bind] in *; try discriminate H.
  destruct (argmax (d_data D2)) as [p| |]; cbn [bind] in *; try discriminate H. injection H as <- <-. eauto.
Qed.
Lemma label_fun M x y l l' : (forall b, PredictSingleClass M x b = PredictSingleClass M y b) -> predictsLabel M x l -> predictsLabel M y l' -> l = l'.
Proof.
  intros HS (k & b & b' & HP & HL) (k' & b1 & b1' & HP' & HL'). rewrite HS in HP. destruct (buffers_same _ _ _ b1 _ _ HP) as (b2 & HP2).
  rewrite HP' in HP2. injection HP2 as -> _. eapply look_fun; eauto.
Qed.
Lemma c130_count_lemma K E M f (D : DataBunch K) key a : EnvOk E -> FeatureImportance E M = Ok f ->
  (forall x y, In x (Data D) -> In y (Data D) -> key x = key y -> agreeOn (fe_feat f) x y) -> Accuracy M D = Ok a ->
  exists right, (right <= ceiling key D)%nat /\ (right <= length (Data D))%nat /\ a = fmul (fofZ 100) (fdiv (fofZ (Z.of_nat right)) (fofZ (Z.of_nat (length (Data D))))).
Proof.
  intros HE HF HK HA. destruct (c37_lemma M D a HA) as (ps & HP & HL & Ha & _). cbv zeta in Ha.
  pose proof (F2_length _ _ _ HP) as HLp. eexists. split; [|split; [|exact Ha]].
  - unfold ceiling, groupLabels. apply ceiling_rule; [|lia].
    intros i j x y p q Hx Hy Hp Hq Hk. destruct (Forall2_nth1 _ _ _ HP i x Hx) as (p' & Hp' & Px). destruct (Forall2_nth1 _ _ _ HP j y Hy) as (q' & Hq' & Py).
    assert (p' = p) by congruence. assert (q' = q) by congruence. subst. refine (label_fun M x y p q _ Px Py). intros b. apply (c129_lemma E M f x y b HE HF).
    apply HK; auto; eapply nth_error_In; eauto.
  - etransitivity; [apply filter_le|]. rewrite combine_length. lia.
Qed.

Lemma below_hundred r n : 0 <= r < n -> n <= 2 ^ 40 -> fltb (fmul (fofZ 100) (fdiv (fofZ r) (fofZ n))) (fofZ 100) = true.
Proof.
  intros Hr Hn.
  destruct (fofZ_exact50 r ltac:(lia)) as (Fr & Er). destruct (fofZ_exact50 n ltac:(lia)) as (Fn & En). destruct (fofZ_exact50 100 ltac:(lia)) as (F1 & E1).
  assert (Pn : (1 <= IZR n)%R) by (apply IZR_le; lia). assert (Pr : (0 <= IZR r)%R) by (apply IZR_le; lia).
  set (c := flit (2 ^ 40 - 1) (-40)).
  assert (HN : (bpow radix2 (-40) * IZR (2 ^ 40) = 1)%R) by (change (2 ^ 40)%Z with (Zpower radix2 40); rewrite IZR_Zpower by lia; rewrite <- bpow_plus; reflexivity).
  destruct (flit_val (-40) ltac:(lia) (2 ^ 40 - 1) ltac:(lia)) as (Fc & Ec & _). destruct (flit_val (-40) ltac:(lia) (100 * (2 ^ 40 - 1)) ltac:(lia)) as (Fd & Ed & _).
  fold c in Fc, Ec. set (d := flit (100 * (2 ^ 40 - 1)) (-40)) in *. pose proof (bpow_gt_0 radix2 (-40)) as P40.
  assert (Ec' : B2R c = (1 - bpow radix2 (-40))%R) by (rewrite Ec, minus_IZR; lra).
  assert (Ed' : B2R d = (100 * B2R c)%R) by (rewrite Ed, Ec, mult_IZR; lra).
  assert (HM : (128 < Mx)%R) by (unfold Mx; change 128%R with (bpow radix2 7); apply bpow_lt; lia).
  destruct (fdiv_ext (fofZ r) (fofZ n) Fr Fn ltac:(rewrite En; lra)) as [Nq Eq]. rewrite Er, En in Eq.
  assert (Hq : (0 <= rnd (IZR r / IZR n) <= B2R c)%R).
  { split.
    - apply rnd_ge_0. apply Rmult_le_pos; [lra|]. apply Rlt_le, Rinv_0_lt_compat. lra.
    - rewrite <- (rnd_B2R c). apply rnd_mono. rewrite Ec'. apply Rmult_le_reg_r with (IZR n); [lra|]. unfold Rdiv. rewrite Rmult_assoc, Rinv_l by lra.
      assert (IZR r <= IZR n - 1)%R by (rewrite <- minus_IZR; apply IZR_le; lia). assert (IZR n <= IZR (2 ^ 40))%R by (apply IZR_le; lia).
      assert (bpow radix2 (-40) * IZR n <= 1)%R by (rewrite <- HN; apply Rmult_le_compat_l; lra). lra. }
  rewrite clamp_id in Eq by lra.
  assert (Fq : ffinite (fdiv (fofZ r) (fofZ n)) = true) by (apply finite_ext; auto; rewrite Eq; lra).
  rewrite ext_finite in Eq by auto.
  destruct (fmul_ext (fofZ 100) (fdiv (fofZ r) (fofZ n)) F1 Fq) as [Na Ea]. rewrite Eq, E1 in Ea.
  set (q := rnd (IZR r / IZR n)) in *.
  assert (Ha : (0 <= rnd (100 * q) <= B2R d)%R).
  { split; [apply rnd_ge_0, Rmult_le_pos; lra|]. rewrite <- (rnd_B2R d). apply rnd_mono. rewrite Ed'. lra. }
  rewrite clamp_id in Ea by lra. apply fltb_true. rewrite Ea, (ext_finite _ F1), E1. split; [auto|]. split; [apply finite_nnan; auto|]. lra.
Qed.
Lemma c130_conflict_lemma K E M f (D : DataBunch K) a i j x y l l' : EnvOk E -> FeatureImportance E M = Ok f ->
  nth_error (Data D) i = Some x -> nth_error (Data D) j = Some y -> nth_error (Labels D) i = Some l -> nth_error (Labels D) j = Some l' ->
  agreeOn (fe_feat f) x y -> l <> l' -> Z.of_nat (length (Data D)) <= 2 ^ 40 -> Accuracy M D = Ok a -> fltb a (fofZ 100) = true.
Proof.
  intros HE HF Hx Hy Hl Hl' HA Hne HS Hacc. destruct (c37_lemma M D a Hacc) as (ps & HP & HL & Ha & _). cbv zeta in Ha. rewrite Ha.
  pose proof (F2_length _ _ _ HP) as HLp.
  destruct (Forall2_nth1 _ _ _ HP i x Hx) as (p & Hp & Px). destruct (Forall2_nth1 _ _ _ HP j y Hy) as (q & Hq & Py).
  assert (Epq : p = q) by (refine (label_fun M x y p q _ Px Py); intros b; apply (c129_lemma E M f x y b HE HF); exact HA). subst q.
  assert (HW : exists k p' y', nth_error (combine ps (Labels D)) k = Some (p', y') /\ p' <> y').
  { destruct (Z.eq_dec p l) as [->|Hn].
    - exists j, l, l'. split; [|exact Hne]. clear -Hq Hl'. revert j Hq Hl'. generalize (Labels D). induction ps as [|a ps IH]; intros [|b ls] [|j] H1 H2; try discriminate; cbn in *; [congruence|auto].
    - exists i, p, l. split; [|exact Hn]. clear -Hp Hl. revert i Hp Hl. generalize (Labels D). induction ps as [|a ps IH]; intros [|b ls] [|j] H1 H2; try discriminate; cbn in *; [congruence|auto]. }
  apply below_hundred; [|exact HS]. split; [lia|]. apply Nat2Z.inj_lt.
  assert (HC : (length (combine ps (Labels D)) <= length (Data D))%nat) by (rewrite combine_length; lia).
  eapply Nat.lt_le_trans; [|exact HC]. destruct HW as (k & p' & y' & Hk & Hpy). clear -Hk Hpy. revert k Hk. induction (combine ps (Labels D)) as [|[u v] c IH]; intros [|k] Hk; try discriminate Hk.
  - injection Hk as -> ->. cbn [filter fst snd]. rewrite (proj2 (Z.eqb_neq _ _) Hpy). cbn [length]. pose proof (filter_le (fun p => fst p =? snd p) c). lia.
  - specialize (IH k Hk). cbn [filter]. destruct (fst (u, v) =? snd (u, v)); cbn [length]; lia.
Qed.

(** ** C131 *)
Lemma unsampled_twice t : unsampled (unsampled t) = unsampled t.
Proof. induction t as [|d l IHl r IHr]; cbn; congruence. Qed.
Lemma unsampled_finite t : treeFinite t -> treeFinite (unsampled t).
Proof.
  induction t as [|d l IHl r IHr]; intros H d' l' r' HS; cbn in HS; [inversion HS|]. inversion HS; subst.
  - specialize (H d l r (sub_refl _)). exact H.
  - apply (IHl (fun a b c Hs => H a b c (sub_l _ _ _ _ Hs)) _ _ _ H1).
  - apply (IHr (fun a b c Hs => H a b c (sub_r _ _ _ _ Hs)) _ _ _ H1).
Qed.
Lemma removelast_incl {A} (l : list A) x : In x (removelast l) -> In x l.
Proof. induction l as [|a l IH]; [auto|]. destruct l as [|b l]; [intros []|]. intros [H|H]; [left; exact H|right; apply IH; exact H]. Qed.
Lemma c131_lemma C E k : forall M, CodecOk C -> writable M -> modelFinite M -> mc_pt M = softmaxOf E ->
  exists M', reloaded C E k M M' /\ (k <> O -> mc_b M' = map (map unsampled) (firstn (length (mc_b M) - k) (mc_b M))) /\
    mc_lr M' = mc_lr M /\ mc_labels M' = mc_labels M /\ mc_base M' = mc_base M /\ mc_pt M' = softmaxOf E.
Proof.
  induction k as [|k IH]; intros M HC HW HF Hpt.
  - exists M. split; [constructor|]. split; [congruence|]. auto.
  - destruct (c44_lemma C M (tx "softmax") (fun _ => true) HW) as (out & ok & HJ & _ & HI). rewrite (proj2 (HI (fun _ => eq_refl)) HF) in HJ.
    destruct (reload_lemma C HC E M (tx "softmax") out _ HW HJ) as (M1 & HU & B1 & B2 & B3 & B4 & B5 & B6).
    assert (HB : removelast (map (map unsampled) (mc_b M)) = map (map unsampled) (removelast (mc_b M))).
    { clear. induction (mc_b M) as [|a l IH]; auto. destruct l as [|b l]; auto.
      change (map unsampled a :: removelast (map (map unsampled) (b :: l)) = map unsampled a :: map (map unsampled) (removelast (b :: l))). rewrite IH. auto. }
    rewrite HB in B1.
    assert (HT1 : forall ens, In ens (mc_b M1) -> exists ens0, In ens0 (mc_b M) /\ ens = map unsampled ens0).
    { intros ens He. rewrite B1 in He. apply in_map_iff in He as (e0 & <- & He). eauto using removelast_incl. }
    destruct (IH M1 HC) as (M' & HR & H1 & H2 & H3 & H4 & H5).
    + intros ens He. destruct (HT1 ens He) as (e0 & He0 & ->). destruct (HW e0 He0) as [W1 W2]. rewrite map_length, B3. split; [exact W1|].
      intros t Ht. apply in_map_iff in Ht as (t0 & <- & Ht). specialize (W2 t0 Ht). destruct t0; [congruence|discriminate].
    + destruct HF as (F1 & F2 & F3). rewrite <- B2 in F1. rewrite <- B4 in F2. split; [exact F1|]. split; [exact F2|]. intros t Ht. apply in_concat in Ht as (ens & He & Ht).
      destruct (HT1 ens He) as (e0 & He0 & ->). apply in_map_iff in Ht as (t0 & <- & Ht). apply unsampled_finite, F3. apply in_concat. eauto.
    + rewrite B6. assert (Ht : text_eqb (tx "softmax") (tx "softmax") = true) by reflexivity. rewrite Ht. reflexivity.
    + exists M'. split; [econstructor; eauto|]. split; [intros _|].
      2:{ repeat split; congruence. }
      destruct k as [|k].
      * inversion HR; subst. rewrite B1, removelast_firstn_len, Nat.sub_1_r. reflexivity.
      * rewrite H1 by congruence. rewrite B1, map_length, !firstn_map, map_map.
        rewrite removelast_firstn_len, firstn_firstn, firstn_length.
        rewrite (map_ext _ (map unsampled)) by (intros ens; rewrite map_map; apply map_ext; apply unsampled_twice).
        f_equal. f_equal. lia.
Qed.
Lemma reloaded_fun C E k M M1 : reloaded C E k M M1 -> forall M2, reloaded C E k M M2 -> M1 = M2.
Proof.
  induction 1 as [M|k M out M1 M3 HJ HU HR IH]; intros M2 H2; inversion H2 as [|k' ? out' M1' ? HJ' HU' HR']; subst; auto.
  apply IH. replace M1 with M1'; [exact HR'|]. assert (out' = out) by congruence. subst. congruence.
Qed.
Lemma c131_all_lemma C E k M : CodecOk C -> writable M -> modelFinite M -> mc_pt M = softmaxOf E ->
  (exists M', reloaded C E k M M') /\ forall M', reloaded C E k M M' ->
    length (mc_b M') = (length (mc_b M) - k)%nat /\
    (forall row bufs, PredictMC M' row bufs = PredictMC (withRounds M (firstn (length (mc_b M) - k) (mc_b M))) row bufs) /\
    ((length (mc_b M) <= k)%nat -> forall row bufs, PredictMC M' row bufs = Panic).
Proof.
  intros HC HW HF Hpt. destruct (c131_lemma C E k M HC HW HF Hpt) as (M0 & HR & H1 & H2 & H3 & H4 & H5). split; [eauto|].
  intros M' HR'. assert (M0 = M') by (eapply reloaded_fun; eauto). subst M0. destruct k as [|k].
  - inversion HR'; subst. rewrite Nat.sub_0_r, firstn_all. split; [auto|]. split.
    + intros row bufs. destruct M'; reflexivity.
    + intros HL row bufs. assert (HE : mc_b M' = []) by (destruct (mc_b M'); [auto|cbn in HL; lia]). unfold PredictMC, rawScores. rewrite HE. reflexivity.
  - specialize (H1 ltac:(congruence)). split; [|split].
    + rewrite H1, map_length, firstn_length. lia.
    + intros row bufs. apply PredictMC_ext.
      * rewrite (rawScores_map M' _ row H1). unfold rawScores. cbn [mc_b mc_lr mc_base withRounds]. rewrite H2, H4. reflexivity.
      * cbn [mc_pt withRounds]. congruence.
    + intros HL row bufs. assert (HE : mc_b M' = []) by (rewrite H1; replace (length (mc_b M) - Datatypes.S k)%nat with O by lia; reflexivity).
      unfold PredictMC, rawScores. rewrite HE. reflexivity.
Qed.

(** ** C132 *)
Lemma trained_split E X o t d l r : EnvOk E -> goodTable X -> NewTree E X o = Ok t -> sub (Node d l r) t -> t_leaf d = false ->
  exists i j a b, cell X i (t_split d) a /\ cell X j (t_split d) b /\ fleb a (t_thr d) = true /\ fltb (t_thr d) b = true.
Proof.
  intros HE HG HT HS Hd. apply NewTree_grown in HT. destruct (grown_sub _ _ _ _ _ _ HT HS) as (n' & o' & G & _ & _); [discriminate|].
  destruct (chosen_split E HE X n' o' d l r G Hd) as (row0 & i & _ & _ & HC & _).
  destruct (candidate_counts E HE X _ _ _ _ _ _ HC) as (a & b & ja & jb & _ & _ & Ca & Cb & Hab & Ht & _).
  - intros j v _ Hc. eapply (gt_nan X HG); eauto.
  - destruct (gt_mid X HG _ _ _ _ _ Ca Cb Hab) as [M1 M2]. rewrite <- Ht in M1, M2. exists ja, jb, a, b. auto.
Qed.
Lemma outside_compare X x y d f v w thr i j a b : differOutside X x y -> look x f v -> look y f w -> cell X i f a -> cell X j f b ->
  fleb a thr = true -> fltb thr b = true -> d = f -> fleb v thr = fleb w thr.
Proof.
  intros [_ H] Hv Hw Ca Cb Ha Hb _. destruct (H f v w Hv Hw) as [->|[HL|HR]]; auto.
  - destruct (HL i a Ca) as [L1 L2]. rewrite (fleb_trans _ _ _ L1 Ha), (fleb_trans _ _ _ L2 Ha). reflexivity.
  - destruct (HR j b Cb) as [R1 R2].
    assert (HN : forall u, fltb u b = false -> fleb u thr = false).
    { intros u Hu. destruct (fleb u thr) eqn:E1; auto. rewrite (fleb_ltb_trans _ _ _ E1 Hb) in Hu. discriminate. }
    rewrite (HN v R1), (HN w R2). reflexivity.
Qed.
Lemma predict_outside X t x y : differOutside X x y ->
  (forall d l r, sub (Node d l r) t -> t_leaf d = false -> exists i j a b, cell X i (t_split d) a /\ cell X j (t_split d) b /\ fleb a (t_thr d) = true /\ fltb (t_thr d) b = true) ->
  PredictSingle t x = PredictSingle t y.
Proof.
  intros HO. induction t as [|d l IHl r IHr]; intros HT; cbn [PredictSingle]; auto. destruct (t_leaf d) eqn:Ed; auto.
  rewrite IHl, IHr by (intros d' l' r' HS; apply (HT d' l' r'); constructor; auto).
  destruct (HT d l r (sub_refl _) Ed) as (i & j & a & b & Ca & Cb & Ha & Hb).
  assert (HI : forall z : list f64, 0 <= t_split d -> (Z.to_nat (t_split d) < length z)%nat -> exists v, look z (t_split d) v).
  { intros z H0 Hz. apply nth_error_Some in Hz. destruct (nth_error z (Z.to_nat (t_split d))) as [v|] eqn:Ev; [|congruence]. exists v. split; auto. }
  assert (H0 : 0 <= t_split d) by (destruct Ca as (row & _ & H0 & _); exact H0).
  destruct (le_lt_dec (length x) (Z.to_nat (t_split d))) as [Hx|Hx].
  - assert (HN : forall z : list f64, (length z <= Z.to_nat (t_split d))%nat -> idx z (t_split d) = Panic).
    { intros z Hz. unfold idx. destruct (t_split d <? 0); auto. apply nth_error_None in Hz. rewrite Hz. reflexivity. }
    rewrite !HN; auto. rewrite <- (proj1 HO). auto.
  - destruct (HI x H0 Hx) as (v & Hv). rewrite (proj1 HO) in Hx. destruct (HI y H0 Hx) as (w & Hw).
    rewrite (proj2 (look_idx _ _ _) Hv), (proj2 (look_idx _ _ _) Hw). cbn [bind].
    rewrite (outside_compare X x y _ _ v w (t_thr d) i j a b HO Hv Hw Ca Cb Ha Hb eq_refl). reflexivity.
Qed.
Lemma c132_tree_lemma E X o t x y : EnvOk E -> goodTable X -> NewTree E X o = Ok t -> differOutside X x y -> PredictSingle t x = PredictSingle t y.
Proof. intros HE HG HT HO. apply (predict_outside X); auto. intros d l r HS Hd. eapply trained_split; eauto. Qed.
Lemma updated_sub g h t t' : leavesUpdated g h t t' -> forall d l r, sub (Node d l r) t' -> t_leaf d = false ->
  exists d0 l0 r0, sub (Node d0 l0 r0) t /\ t_leaf d0 = false /\ t_split d0 = t_split d /\ t_thr d0 = t_thr d.
Proof.
  induction 1 as [|d0 l0 r0 l1 r1 Hd Hl IHl Hr IHr|d0 d1 l0 r0 l1 r1 ix gs hs Hd Hs Hg Hh Hv HE Hl IHl Hr IHr]; intros d l r HS HD.
  - inversion HS.
  - inversion HS as [Eq|d2 l2 r2 Hsub Eq|d2 l2 r2 Hsub Eq]; subst.
    + exists d0, l0, r0. repeat split; auto. constructor.
    + destruct (IHl _ _ _ Hsub HD) as (e & a & b & S1 & S2). exists e, a, b. split; [constructor; auto|auto].
    + destruct (IHr _ _ _ Hsub HD) as (e & a & b & S1 & S2). exists e, a, b. split; [apply sub_r; auto|auto].
  - inversion HS as [Eq|d2 l2 r2 Hsub Eq|d2 l2 r2 Hsub Eq]; subst.
    + exists d0, l0, r0. split; [constructor|]. injection HE as E1 E2 E3 E4 E5 E6 E7. repeat split; auto. unfold t_leaf in *. congruence.
    + destruct (IHl _ _ _ Hsub HD) as (e & a & b & S1 & S2). exists e, a, b. split; [constructor; auto|auto].
    + destruct (IHr _ _ _ Hsub HD) as (e & a & b & S1 & S2). exists e, a, b. split; [apply sub_r; auto|auto].
Qed.
Lemma model_split K E rnd (D : DataBunch K) O tr t d l r : EnvOk E -> goodTable (Data D) -> (length (Data D) <= length (Labels D))%nat ->
  NewMultiClass E rnd D O = Ok tr -> In t (concat (mc_b (tr_model tr))) -> sub (Node d l r) t -> t_leaf d = false ->
  exists i j a b, cell (Data D) i (t_split d) a /\ cell (Data D) j (t_split d) b /\ fleb a (t_thr d) = true /\ fltb (t_thr d) b = true.
Proof.
  intros HE HG HL H Ht HS Hd. destruct (NewMultiClass_inv E rnd D O tr H) as (EO & Eb & _). cbn zeta in Eb, EO.
  rewrite Eb, <- concat_map in Ht. apply in_map_iff in Ht as (e & <- & He). apply in_split in He as (es1 & es2 & He).
  destruct (c81_lemma E rnd D O tr H HL es1 e es2 He) as (lab & pr & pr' & _ & _ & HF & _). unfold fitted in HF. destruct (o_xgb (tr_opts tr)).
  - destruct HF as (rows & cols & topts & HR & _ & HO & _ & _ & HT). eapply trained_split; eauto.
  - destruct HF as (topts & t0 & HO & _ & HT & HU). destruct (updated_sub _ _ _ _ HU _ _ _ HS Hd) as (d0 & l0 & r0 & S1 & S2 & S3 & S4).
    rewrite <- S3, <- S4. eapply trained_split; eauto.
Qed.
Lemma c132_lemma K E rnd (D : DataBunch K) O tr x y bufs : EnvOk E -> goodTable (Data D) -> (length (Data D) <= length (Labels D))%nat ->
  NewMultiClass E rnd D O = Ok tr -> differOutside (Data D) x y ->
  PredictMC (tr_model tr) x bufs = PredictMC (tr_model tr) y bufs /\ PredictSingleClass (tr_model tr) x bufs = PredictSingleClass (tr_model tr) y bufs.
Proof.
  intros HE HG HL H HO. apply model_same, scores_same. intros t Ht. apply (predict_outside (Data D)); auto.
  intros d l r HS Hd. eapply (model_split K E rnd D O tr); eauto.
Qed.

(** ** C133 *)
Lemma fmul_zero_r v lr : feqb lr fzero = true -> fnanb (fmul v lr) = true \/ exists s, fmul v lr = B754_zero s.
Proof.
  intros H. destruct lr as [s1|s1| |s1 m1 e1 H1].
  - destruct v as [s|s| |s m e He]; cbn; eauto.
  - destruct s1; discriminate H.
  - discriminate H.
  - destruct s1; cbv in H; discriminate H.
Qed.
Lemma fadd_zero_r b s : b <> fopp fzero -> fadd b (B754_zero s) = b.
Proof. intros Hb. destruct b as [s1|s1| |s1 m1 e1 H1]; try reflexivity. destruct s1; [exfalso; apply Hb; reflexivity|]. destruct s; reflexivity. Qed.
Lemma accumulated_zero lr row b ts v : feqb lr fzero = true -> b <> fopp fzero -> accumulated lr row b ts v -> v = b \/ fnanb v = true.
Proof.
  intros Hlr Hb (ps & HF & ->). clear HF. 
  assert (HG : forall acc, acc = b \/ fnanb acc = true -> fold_left (fun a p => fadd a (fmul p lr)) ps acc = b \/ fnanb (fold_left (fun a p => fadd a (fmul p lr)) ps acc) = true).
  { induction ps as [|p ps IH]; intros acc Ha; cbn; auto. apply IH. destruct Ha as [->|Ha]; [|right; apply fadd_nan; auto].
    destruct (fmul_zero_r p lr Hlr) as [Hn|[s Hs]]; [right; apply fadd_nan; auto|]. left. rewrite Hs. apply fadd_zero_r. exact Hb. }
  apply HG. auto.
Qed.
Lemma zero_rate K E rnd (D : DataBunch K) O tr row bufs k bufs' : EnvOk E -> NewMultiClass E rnd D O = Ok tr -> feqb (o_lr O) fzero = true -> o_base O <> fopp fzero ->
  PredictSingleClass (tr_model tr) row bufs = Ok (k, bufs') -> k = 0.
Proof.
  intros HE H Hlr Hb HP. destruct (c36_lemma _ _ _ _ _ HP) as (preds & HM & Hk & Hmax & Hnan).
  destruct (PredictMC_inv E rnd D O tr H row bufs preds bufs' HM) as (_ & HLp & scores & HS & HLs & HSm).
  destruct (NewMultiClass_inv E rnd D O tr H) as (EO & _ & Elr & Ebase & _). cbn zeta in EO.
  assert (Elr' : mc_lr (tr_model tr) = o_lr O) by (rewrite Elr, EO; reflexivity). assert (Eb' : mc_base (tr_model tr) = o_base O) by (rewrite Ebase, EO; reflexivity).
  assert (Hsc : forall s, In s scores -> s = o_base O \/ fnanb s = true).
  { intros s Hs. destruct (rawScores_spec _ _ _ HS) as (b0 & rest & HB & HLo & _ & HA). apply In_nth_error in Hs as [j Hj].
    assert (Hjl : (j < length b0)%nat) by (rewrite <- HLo; apply nth_error_Some; congruence). destruct (HA j Hjl) as (y & Hy & Hacc). assert (y = s) by congruence. subst y.
    rewrite Elr', Eb' in Hacc. eapply accumulated_zero; eauto. }
  rewrite SoftMax_same in HSm by (rewrite repeat_length; auto). apply Ok_inj' in HSm. unfold softmax in HSm. rewrite map_map in HSm. cbn [ndiv F carrier] in HSm.
  destruct (existsb fnanb scores) eqn:Ex.
  - apply existsb_exists in Ex as (s & Hs & Ns).
    assert (Nsum : fnanb (e_sum E (map (e_exp E) scores)) = true).
    { eapply is_sum_nan; [apply (ok_sum E HE)|]. exists (e_exp E s). split; [apply in_map; exact Hs|]. rewrite (ok_exp_nan E HE). exact Ns. }
    destruct preds as [|p0 preds]; [cbn in Hk; lia|]. apply (Hnan p0); [reflexivity|].
    destruct scores as [|s0 scores]; [discriminate HSm|]. cbn [map] in HSm. injection HSm as <- _. apply fdiv_nan_r. exact Nsum.
  - assert (Hall : forall s, In s scores -> s = o_base O).
    { intros s Hs. destruct (Hsc s Hs) as [|Hn]; auto. assert (existsb fnanb scores = true) by (apply existsb_exists; eauto). congruence. }
    set (q := fdiv (e_exp E (o_base O)) (e_sum E (map (e_exp E) scores))) in *.
    assert (Hq : forall x, In x preds -> x = q).
    { intros x Hx. rewrite <- HSm in Hx. apply in_map_iff in Hx as (s & <- & Hs). rewrite (Hall s Hs). reflexivity. }
    destruct preds as [|p0 preds]; [cbn in Hk; lia|]. destruct (fnanb p0) eqn:N0; [apply (Hnan p0); auto|].
    destruct Hmax as (m & Hm & Hle & Hlt).
    { intros x Hx. rewrite (Hq x Hx). rewrite <- (Hq p0 (or_introl eq_refl)). exact N0. }
    destruct (Z.eq_dec k 0) as [|Hk0]; auto. exfalso. specialize (Hlt 0 p0 ltac:(lia) ltac:(split; [lia|reflexivity])).
    destruct Hm as [_ Hm]. rewrite (Hq m (nth_error_In _ _ Hm)), (Hq p0 (or_introl eq_refl)), fltb_irrefl in Hlt. discriminate.
Qed.
Lemma count_combine l0 ps ls : (forall p, In p ps -> p = l0) -> (length ps <= length ls)%nat ->
  length (filter (fun p => fst p =? snd p) (combine ps ls)) = count_occ Z.eq_dec (firstn (length ps) ls) l0.
Proof.
  revert ls. induction ps as [|p ps IH]; intros [|y ls] Hp HL; [reflexivity|reflexivity|cbn in HL; lia|]. cbn in HL |- *. rewrite (Hp p (or_introl eq_refl)).
  specialize (IH ls (fun q Hq => Hp q (or_intror Hq)) ltac:(lia)). destruct (Z.eqb_spec l0 y) as [Hn|Hn]; destruct (Z.eq_dec y l0) as [Hy|Hy]; cbn; congruence.
Qed.
Lemma c133_lemma K E rnd (D : DataBunch K) O tr : EnvOk E -> NewMultiClass E rnd D O = Ok tr -> feqb (o_lr O) fzero = true -> o_base O <> fopp fzero ->
  (forall row bufs k bufs', PredictSingleClass (tr_model tr) row bufs = Ok (k, bufs') -> k = 0) /\
  exists l0, look (ClassLabels (tr_model tr)) 0 l0 /\ forall K' (D' : DataBunch K') a, Accuracy (tr_model tr) D' = Ok a ->
    a = fmul (fofZ 100) (fdiv (fofZ (Z.of_nat (count_occ Z.eq_dec (firstn (length (Data D')) (Labels D')) l0))) (fofZ (Z.of_nat (length (Data D'))))).
Proof.
  intros HE H Hlr Hb. assert (HZ : forall row bufs k bufs', PredictSingleClass (tr_model tr) row bufs = Ok (k, bufs') -> k = 0).
  { intros row bufs k bufs' HP. exact (zero_rate K E rnd D O tr row bufs k bufs' HE H Hlr Hb HP). }
  split; [exact HZ|].
  destruct (NewMultiClass_inv E rnd D O tr H) as (_ & _ & _ & _ & _ & _ & _ & Hne & _). unfold ClassLabels.
  destruct (mc_labels (tr_model tr)) as [|l0 ls] eqn:EL; [congruence|]. exists l0. split; [split; [lia|reflexivity]|].
  intros K' D' a HA. destruct (c37_lemma _ _ _ HA) as (ps & HP & HL & -> & _). cbv zeta. pose proof (F2_length _ _ _ HP) as HLp.
  rewrite HLp. rewrite (count_combine l0); [reflexivity| |lia].
  intros p Hp. apply In_nth_error in Hp as [i Hi]. destruct (Forall2_nth2 _ _ _ HP i p Hi) as (row & Hr & (k & b & b' & HQ & Hlk)).
  rewrite (HZ _ _ _ _ HQ) in Hlk. unfold ClassLabels in Hlk. rewrite EL in Hlk. destruct Hlk as [_ Hlk]. cbn in Hlk. congruence.
Qed.

(** ** C134 *)
Lemma share_mono a b s : fnn a -> fnn s -> (ext b <= ext s)%R -> fleb a b = true -> fnanb (fdiv a s) = false -> fnanb (fdiv b s) = false -> fleb (fdiv a s) (fdiv b s) = true.
Proof.
  intros Ha Hs Hbs Hab Na Nb. apply fnn_iff in Ha as [_ Pa]. apply fnn_iff in Hs as [Ns Ps]. apply fleb_true in Hab as (N1 & N2 & Hab). apply fleb_true. split; [exact Na|]. split; [exact Nb|].
  pose proof Mx_pos as HM. destruct (ffinite s) eqn:Fs.
  - rewrite (ext_finite _ Fs) in *. pose proof (B2R_bounds s).
    assert (Fb : ffinite b = true) by (apply finite_ext; [exact N2|lra]). assert (Fa : ffinite a = true) by (apply finite_ext; [exact N1|lra]).
    rewrite (ext_finite _ Fa), (ext_finite _ Fb) in *.
    destruct (Req_dec (B2R s) 0) as [Hz|Hz].
    + exfalso. assert (Hb0 : B2R b = 0%R) by lra. clear -Nb Fb Fs Hb0 Hz.
      assert (HZ : forall z : f64, ffinite z = true -> B2R z = 0%R -> exists sg, z = B754_zero sg).
      { clear. intros z Fz Ez. destruct z as [sg|sg| |sg m e He]; try discriminate; eauto. exfalso. unfold B2R in Ez. destruct sg; cbn in Ez; [apply eq_0_F2R in Ez|apply eq_0_F2R in Ez]; discriminate Ez. }
      destruct (HZ b Fb Hb0) as [sb ->]. destruct (HZ s Fs Hz) as [ss ->]. discriminate Nb.
    + assert (0 < B2R s)%R by lra. destruct (fdiv_ext a s Fa Fs Hz) as [_ ->]. destruct (fdiv_ext b s Fb Fs Hz) as [_ ->]. apply clamp_mono, rnd_mono.
      apply Rmult_le_compat_r; [apply Rlt_le, Rinv_0_lt_compat; lra|lra].
  - assert (HZ : forall z : f64, fnanb (fdiv z s) = false -> ext (fdiv z s) = 0%R).
    { intros z Nz. destruct s as [s1|[|]| |s1 m1 e1 H1]; try discriminate Fs; try discriminate Ns; destruct z as [s2|s2| |s2 m2 e2 H2]; try discriminate Nz; reflexivity. }
    rewrite (HZ a Na), (HZ b Nb). lra.
Qed.
Lemma c134_order_lemma E p q out : EnvOk E -> length q = length p -> SoftMax E p q = Ok out -> (forall x, In x out -> fnanb x = false) -> keepsOrder (e_exp E) p ->
  forall i j a b a' b', nth_error p i = Some a -> nth_error p j = Some b -> nth_error out i = Some a' -> nth_error out j = Some b' -> fleb a b = true -> fleb a' b' = true.
Proof.
  intros HE HL H HN HK i j a b a' b' Ha Hb Ha' Hb' Hab. pose proof (HN a' (nth_error_In _ _ Ha')) as Na. pose proof (HN b' (nth_error_In _ _ Hb')) as Nb.
  rewrite SoftMax_same in H by auto. apply Ok_inj' in H. unfold softmax in H. rewrite map_map in H. cbn [ndiv F carrier] in H. rewrite <- H in Ha', Hb'. rewrite nth_error_map in Ha', Hb'.
  rewrite Ha in Ha'. rewrite Hb in Hb'. cbn [option_map] in Ha', Hb'. injection Ha' as <-. injection Hb' as <-.
  set (s := e_sum E (map (e_exp E) p)) in *.
  assert (HF : Forall fnn (map (e_exp E) p)).
  { destruct (all_fnn _ (exps_nanOrNN E p HE)) as [Hx|HF]; [|exact HF]. exfalso. rewrite fdiv_nan_r in Na; [discriminate|]. eapply is_sum_nan; [apply (ok_sum E HE)|exact Hx]. }
  destruct (is_sum_nn _ _ (ok_sum E HE (map (e_exp E) p)) HF) as [Hs Hle]. fold s in Hs, Hle.
  pose proof (nth_error_In _ _ Ha) as Ia. pose proof (nth_error_In _ _ Hb) as Ib. rewrite Forall_forall in HF.
  apply share_mono; auto using in_map.
Qed.
Lemma c134_lemma K E rnd (D : DataBunch K) O tr row bufs scores preds bufs' k bufs'' : EnvOk E -> NewMultiClass E rnd D O = Ok tr ->
  rawScores (tr_model tr) row = Ok scores -> PredictMC (tr_model tr) row bufs = Ok (preds, bufs') -> PredictSingleClass (tr_model tr) row bufs = Ok (k, bufs'') ->
  (forall x, In x preds -> fnanb x = false) -> keepsOrder (e_exp E) scores ->
  exists sk pk, look scores k sk /\ look preds k pk /\
    (forall j sj pj, look scores j sj -> look preds j pj -> fltb sk sj = true -> feqb pk pj = true) /\
    (forall j sj, 0 <= j < k -> look scores j sj -> fltb sj sk = true).
Proof.
  intros HE H HS HM HP HN HK. destruct (c36_lemma _ _ _ _ _ HP) as (preds' & HM' & Hk & Hmax & _). assert (preds' = preds) by congruence. subst preds'.
  destruct (PredictMC_inv E rnd D O tr H row bufs preds bufs' HM) as (_ & HLp & scores' & HS' & HLs & HSm). assert (scores' = scores) by congruence. subst scores'.
  destruct (Hmax HN) as (pk & Hpk & Hle & Hlt).
  assert (Hsk : exists sk, look scores k sk).
  { assert (Hl : (Z.to_nat k < length scores)%nat) by lia. apply nth_error_Some in Hl. destruct (nth_error scores (Z.to_nat k)) as [sk|] eqn:Es; [|congruence]. exists sk. split; [lia|exact Es]. }
  destruct Hsk as (sk & Hsk). exists sk, pk. split; [exact Hsk|]. split; [exact Hpk|].
  assert (HO : forall j j' sj sj' pj pj', look scores j sj -> look scores j' sj' -> look preds j pj -> look preds j' pj' -> fleb sj sj' = true -> fleb pj pj' = true).
  { intros j j' sj sj' pj pj' [_ A1] [_ A2] [_ A3] [_ A4] A5.
    exact (c134_order_lemma E scores (repeat fzero (length (ClassLabels (tr_model tr)))) preds HE ltac:(rewrite repeat_length; auto) HSm HN HK _ _ _ _ _ _ A1 A2 A3 A4 A5). }
  split.
  - intros j sj pj Hsj Hpj Hl. pose proof (HO k j sk sj pk pj Hsk Hsj Hpk Hpj (fltb_leb _ _ Hl)) as H1. pose proof (Hle pj (nth_error_In _ _ (proj2 Hpj))) as H2.
    apply fleb_true in H1 as (M1 & M2 & H1). apply fleb_true in H2 as (_ & _ & H2). apply feqb_true. split; [exact M1|]. split; [exact M2|]. lra.
  - intros j sj Hj Hsj. assert (Hpj : exists pj, look preds j pj).
    { assert (Hl : (Z.to_nat j < length preds)%nat) by lia. apply nth_error_Some in Hl. destruct (nth_error preds (Z.to_nat j)) as [pj|] eqn:Es; [|congruence]. exists pj. split; [lia|exact Es]. }
    destruct Hpj as (pj & Hpj). specialize (Hlt j pj Hj Hpj). destruct (fltb sj sk) eqn:El; [reflexivity|]. exfalso.
    assert (HNs : forall s, In s scores -> fnanb s = false).
    { intros s Hs. destruct (fnanb s) eqn:Ns; [|reflexivity]. exfalso.
      rewrite SoftMax_same in HSm by (rewrite repeat_length; auto). apply Ok_inj' in HSm. unfold softmax in HSm. rewrite map_map in HSm. cbn [ndiv F carrier] in HSm.
      assert (Hin : In pk preds) by (eapply nth_error_In; exact (proj2 Hpk)). specialize (HN pk Hin). rewrite <- HSm in Hin. apply in_map_iff in Hin as (s' & <- & Hs').
      rewrite fdiv_nan_r in HN; [discriminate|]. eapply is_sum_nan; [apply (ok_sum E HE)|]. exists (e_exp E s). split; [apply in_map; exact Hs|]. rewrite (ok_exp_nan E HE). exact Ns. }
    pose proof (HNs sj (nth_error_In _ _ (proj2 Hsj))) as Nj. pose proof (HNs sk (nth_error_In _ _ (proj2 Hsk))) as Nk.
    apply fltb_false in El; auto. assert (Hge : fleb sk sj = true) by (apply fleb_true; auto).
    pose proof (HO k j sk sj pk pj Hsk Hsj Hpk Hpj Hge) as H1. pose proof (fleb_ltb_trans _ _ _ H1 Hlt) as H2. rewrite fltb_irrefl in H2. discriminate.
Qed.
