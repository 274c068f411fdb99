(** Proofs about feature importance and ids (C68-C71). *)
From Coq Require Import Reals Lra.
From Verif Require Import Base F64 F64Lemmas Env Utils Tree Options Train Spec UtilsProofs UtilsThms TreeProofs Feats SpecFeats.
Open Scope Z_scope.

Lemma gainsFor_app a b x : gainsFor (a ++ b) x = gainsFor a x ++ gainsFor b x.
Proof. unfold gainsFor. rewrite filter_app, map_app. auto. Qed.
Lemma leftSum_snoc l x : l <> [] -> leftSum (l ++ [x]) = fadd (leftSum l) x.
Proof. destruct l as [|a l]; [congruence|]. intros _. simpl. rewrite fold_left_app. reflexivity. Qed.
Lemma gainsFor_nonempty adds x : In x (map fst adds) -> gainsFor adds x <> [].
Proof.
  intros H. apply in_map_iff in H as ((a & g) & <- & Hin). simpl. unfold gainsFor. intros Hc.
  assert (HI : In (a, g) (filter (fun p => fst p =? a) adds)) by (apply filter_In; split; [auto|simpl; apply Z.eqb_refl]).
  destruct (filter _ _); [destruct HI|discriminate Hc].
Qed.
Lemma gainsFor_absent adds x : ~ In x (map fst adds) -> gainsFor adds x = [].
Proof.
  intros H. unfold gainsFor. induction adds as [|(a & g) t IH]; simpl; auto. simpl in H.
  destruct (Z.eqb_spec a x) as [->|]; [tauto|]. apply IH. tauto.
Qed.

(** positional form of [tallies] without the order *)
Lemma pairs_nth f x g : In (x, g) (pairsOf f) <-> exists i, nth_error (fe_feat f) i = Some x /\ nth_error (fe_gains f) i = Some g.
Proof.
  unfold pairsOf. generalize (fe_gains f). induction (fe_feat f) as [|a l IH]; intros gs; simpl.
  - split; [tauto|]. intros ([|i] & Hi & _); discriminate Hi.
  - destruct gs as [|b gs]; simpl.
    + split; [tauto|]. intros ([|i] & _ & Hi); discriminate Hi.
    + rewrite IH. split.
      * intros [[= -> ->]|(i & Hi & Hj)]; [exists O; auto|exists (S i); auto].
      * intros ([|i] & Hi & Hj); simpl in *; [left; congruence|right; eauto].
Qed.

Lemma Add_spec f x g : length (fe_gains f) = length (fe_feat f) ->
  (In x (fe_feat f) -> exists j old, nth_error (fe_feat f) j = Some x /\ (forall j', (j' < j)%nat -> nth_error (fe_feat f) j' <> Some x) /\
      nth_error (fe_gains f) j = Some old /\ Add f x g = Ok (MkFeats (fe_xgb f) (fe_feat f) (upd_nat (fe_gains f) j (fadd old g)))) /\
  (~ In x (fe_feat f) -> Add f x g = Ok (MkFeats (fe_xgb f) (fe_feat f ++ [x]) (fe_gains f ++ [g]))).
Proof.
  intros HL. unfold Add. split; intros H.
  - destruct (sliceIndex_spec _ _ H) as (j & -> & Hj & Hm). destruct (Z.leb_spec 0 (Z.of_nat j)); [|lia].
    assert (j < length (fe_feat f))%nat by (apply nth_error_Some; congruence).
    destruct (nth_error (fe_gains f) j) as [old|] eqn:Eo; [|apply nth_error_None in Eo; lia].
    exists j, old. split; [auto|]. split; [auto|]. split; [auto|].
    rewrite (proj2 (idx_of_nat _ _ _) Eo). simpl bind.
    replace (upd (fe_gains f) (Z.of_nat j) (fadd old g)) with (Ok (upd_nat (fe_gains f) j (fadd old g))); [reflexivity|].
    symmetry. apply upd_Ok. split; [lia|]. rewrite Nat2Z.id. reflexivity.
  - unfold sliceIndex. rewrite sliceIndex_absent by auto. reflexivity.
Qed.

Lemma Add_xgb f x g f' : Add f x g = Ok f' -> fe_xgb f' = fe_xgb f.
Proof. unfold Add. destruct (0 <=? _); intros H; [binv H; binv H|]; injection H as <-; reflexivity. Qed.

Lemma Add_tallies adds f x g : tallies adds f -> exists f', Add f x g = Ok f' /\ tallies (adds ++ [(x, g)]) f'.
Proof.
  intros (HL & HN & HI & HS). destruct (Add_spec f x g HL) as [H1 H2].
  destruct (in_dec Z.eq_dec x (fe_feat f)) as [Hx|Hx].
  - destruct (H1 Hx) as (j & old & Hj & _ & Ho & HA). eexists. split; [exact HA|].
    unfold tallies. cbn [fe_feat fe_gains]. split; [rewrite upd_nat_length; auto|]. split; [auto|]. split.
    + intros y. rewrite HI, map_app, in_app_iff. simpl. split; auto. intros [H|[<-|[]]]; auto. apply HI; auto.
    + intros y gy Hy. apply pairs_nth in Hy as (i & Hi & Hg). cbn [fe_feat fe_gains] in *.
      rewrite upd_nat_nth in Hg. rewrite gainsFor_app. destruct (Nat.eqb_spec i j) as [E|E].
      * subst i. assert (y = x) by congruence. subst y.
        assert (j < length (fe_gains f))%nat by (apply nth_error_Some; congruence).
        destruct (Nat.ltb_spec j (length (fe_gains f))); [|lia]. injection Hg as <-.
        unfold gainsFor at 2. simpl. rewrite Z.eqb_refl. simpl. rewrite leftSum_snoc by (apply gainsFor_nonempty, HI; auto).
        f_equal. apply HS. apply pairs_nth. eauto.
      * assert (x <> y). { intros ->. apply E. eapply NoDup_nth_inj; eauto. }
        unfold gainsFor at 2. simpl. destruct (Z.eqb_spec x y); [congruence|]. simpl. rewrite app_nil_r.
        apply HS. apply pairs_nth. eauto.
  - eexists. split; [exact (H2 Hx)|]. unfold tallies. cbn [fe_feat fe_gains].
    split; [rewrite !app_length; simpl; lia|]. split.
    { eapply Permutation_NoDup; [apply Permutation_cons_append|]. constructor; auto. }
    split.
    + intros y. rewrite map_app, !in_app_iff, HI. simpl. tauto.
    + intros y gy Hy. apply pairs_nth in Hy as (i & Hi & Hg). cbn [fe_feat fe_gains] in *.
      apply nth_snoc in Hi, Hg. rewrite gainsFor_app.
      destruct Hi as [Hi|[Ei ->]].
      * assert (i < length (fe_feat f))%nat by (apply nth_error_Some; congruence).
        destruct Hg as [Hg|[Eg _]]; [|lia].
        assert (x <> y). { intros ->. apply Hx. eapply nth_error_In; eauto. }
        unfold gainsFor at 2. simpl. destruct (Z.eqb_spec x y); [congruence|]. simpl. rewrite app_nil_r.
        apply HS, pairs_nth. eauto.
      * destruct Hg as [Hg|[_ ->]].
        { assert (i < length (fe_gains f))%nat by (apply nth_error_Some; congruence). lia. }
        rewrite (gainsFor_absent adds) by (rewrite <- HI; auto). unfold gainsFor. simpl. rewrite Z.eqb_refl. reflexivity.
Qed.

(** order of first addition *)
Definition fo (adds : list (Z * f64)) (f : feats) : Prop := firstOccurrences (map fst adds) (fe_feat f).
Lemma Add_fo adds f x g f' : length (fe_gains f) = length (fe_feat f) -> fo adds f -> Add f x g = Ok f' -> fo (adds ++ [(x, g)]) f'.
Proof.
  intros HL (H1 & H2 & H3) HA. unfold fo. rewrite map_app. simpl. destruct (Add_spec f x g HL) as [Ha Hb].
  destruct (in_dec Z.eq_dec x (fe_feat f)) as [Hx|Hx].
  - destruct (Ha Hx) as (j & old & _ & _ & _ & E). rewrite E in HA. injection HA as <-. cbn [fe_feat].
    split; [auto|]. split.
    + intros y. rewrite in_app_iff, H2. simpl. split; auto. intros [H|[<-|[]]]; auto. apply H2; auto.
    + intros a b u v Hab Hu Hv. apply before_snoc. eauto.
  - rewrite (Hb Hx) in HA. injection HA as <-. cbn [fe_feat]. split; [|split].
    + eapply Permutation_NoDup; [apply Permutation_cons_append|]. constructor; auto.
    + intros y. rewrite !in_app_iff, H2. tauto.
    + intros a b u v Hab Hu Hv. apply nth_snoc in Hu, Hv. destruct Hu as [Hu|[-> ->]].
      2: { destruct Hv as [Hv|[-> _]]; [|lia]. assert (b < length (fe_feat f))%nat by (apply nth_error_Some; congruence). lia. }
      destruct Hv as [Hv|[-> ->]]; [apply before_snoc; eauto|].
      assert (Hin : In u (map fst adds)) by (apply H2; eapply nth_error_In; eauto).
      apply In_nth_error in Hin as [i Hi]. exists i. split; [apply nth_snoc; auto|].
      assert (i < length (map fst adds))%nat by (apply nth_error_Some; congruence).
      intros j Hj Hy. apply nth_snoc in Hy as [Hy|[-> _]]; [|lia]. apply Hx, H2. eapply nth_error_In; eauto.
Qed.

Definition goodOp (o : featOp) : Prop := match o with OpAdd _ _ => True | OpMerge f2 => (length (fe_feat f2) <= length (fe_gains f2))%nat end.

Lemma mergeLoop_spec fs : forall gs i f adds, (i + length fs <= length gs)%nat -> tallies adds f -> fo adds f ->
  exists f', mergeLoop f fs gs (Z.of_nat i) = Ok f' /\ tallies (adds ++ combine fs (skipn i gs)) f' /\ fo (adds ++ combine fs (skipn i gs)) f'.
Proof.
  induction fs as [|v fs IH]; intros gs i f adds HL HT HF; cbn [mergeLoop].
  - exists f. split; [auto|]. simpl combine. rewrite app_nil_r. auto.
  - simpl in HL. destruct (nth_error gs i) as [g|] eqn:Eg; [|apply nth_error_None in Eg; lia].
    rewrite (proj2 (idx_of_nat _ _ _) Eg). simpl bind.
    destruct (Add_tallies adds f v g HT) as (f1 & HA & HT1). rewrite HA. simpl bind.
    replace (Z.of_nat i + 1) with (Z.of_nat (S i)) by lia.
    destruct (IH gs (S i) f1 (adds ++ [(v, g)])) as (f' & HM & HT' & HF').
    + lia.
    + auto.
    + eapply Add_fo; eauto. apply HT.
    + exists f'. split; [auto|].
      assert (HX : skipn i gs = g :: skipn (S i) gs).
      { revert Eg. clear. revert i. induction gs as [|a gs IH]; intros [|i] H; simpl in *; try discriminate; [congruence|]. apply IH. auto. }
      rewrite HX. cbn [combine]. rewrite <- !app_assoc in HT', HF'. simpl app in HT', HF'. auto.
Qed.

Lemma run_ops_spec ops : forall f adds, (forall o, In o ops -> goodOp o) -> tallies adds f -> fo adds f ->
  exists f', foldM runOp f ops = Ok f' /\ tallies (adds ++ flat_map opAdds ops) f' /\ fo (adds ++ flat_map opAdds ops) f'.
Proof.
  induction ops as [|o ops IH]; intros f adds HG HT HF; simpl.
  - rewrite app_nil_r. eauto.
  - assert (H1 : exists f1, runOp f o = Ok f1 /\ tallies (adds ++ opAdds o) f1 /\ fo (adds ++ opAdds o) f1).
    { destruct o as [x g|f2]; simpl.
      - destruct (Add_tallies adds f x g HT) as (f1 & HA & HT1). exists f1. split; [auto|]. split; [auto|]. eapply Add_fo; eauto. apply HT.
      - unfold Merge. destruct (mergeLoop_spec (fe_feat f2) (fe_gains f2) O f adds) as (f1 & HM & HT1 & HF1); auto.
        + simpl. apply (HG (OpMerge f2)). left; auto.
        + eauto. }
    destruct H1 as (f1 & -> & HT1 & HF1). simpl bind. rewrite app_assoc. apply IH; auto. intros; apply HG; right; auto.
Qed.

Lemma tallies_nil xgb : tallies [] (NewFeats xgb).
Proof. repeat split; simpl; auto; [constructor|tauto]. Qed.
Lemma fo_nil xgb : fo [] (NewFeats xgb).
Proof. split; [constructor|]. split; [simpl; tauto|]. intros [|a] b x y _ H; discriminate H. Qed.

Lemma c68_lemma xgb ops : (forall f2, In (OpMerge f2) ops -> length (fe_gains f2) = length (fe_feat f2)) ->
  exists f, foldM runOp (NewFeats xgb) ops = Ok f /\
    firstOccurrences (map fst (flat_map opAdds ops)) (fe_feat f) /\ length (fe_gains f) = length (fe_feat f) /\
    forall i x g, nth_error (fe_feat f) i = Some x -> nth_error (fe_gains f) i = Some g -> g = leftSum (gainsFor (flat_map opAdds ops) x).
Proof.
  intros HG. destruct (run_ops_spec ops (NewFeats xgb) []) as (f & Hf & HT & HF).
  - intros [x g|f2] Ho; simpl; auto. rewrite (HG f2 Ho). auto.
  - apply tallies_nil.
  - apply fo_nil.
  - exists f. split; [auto|]. split; [exact HF|]. split; [apply HT|]. intros i x g Hx Hg. apply HT. apply pairs_nth. eauto.
Qed.

(** *** C70 *)
Lemma combine_fst_snd {A B} (l : list (A * B)) : combine (map fst l) (map snd l) = l.
Proof. induction l as [|(a & b) l IH]; simpl; congruence. Qed.
Section Imp.
Context (E : Env) (HE : EnvOk E).
Lemma pairs_fst f : length (fe_gains f) = length (fe_feat f) -> map fst (pairsOf f) = fe_feat f.
Proof. intros H. apply combine_map_fst. auto. Qed.
Lemma pairs_snd f : length (fe_gains f) = length (fe_feat f) -> map snd (pairsOf f) = fe_gains f.
Proof. intros H. apply combine_map_snd. auto. Qed.

Lemma sort_tallies adds f : tallies adds f -> tallies adds (sortFeats E f) /\
  fe_xgb (sortFeats E f) = fe_xgb f /\
  ((forall g, In g (fe_gains (sortFeats E f)) -> fnanb g = false) -> bestFirst (fe_xgb f) (sortFeats E f)).
Proof.
  intros (HL & HN & HI & HS). unfold sortFeats. fold (pairsOf f).
  set (l := e_sort E (Z * f64) (featLess (fe_xgb f)) (pairsOf f)).
  assert (HP : Permutation (pairsOf f) l) by apply (ok_sort_perm E HE).
  assert (HPf : Permutation (fe_feat f) (map fst l)) by (rewrite <- (pairs_fst f) by auto; apply Permutation_map; auto).
  split; [|split; [reflexivity|]].
  - unfold tallies, pairsOf. cbn [fe_feat fe_gains]. rewrite combine_fst_snd, !map_length. split; [auto|]. split.
    + eapply Permutation_NoDup; eauto.
    + split.
      * intros x. rewrite <- HI. split; apply Permutation_in; auto using Permutation_sym.
      * intros x g Hg. apply HS. eapply Permutation_in; [apply Permutation_sym; eauto|auto].
  - cbn [fe_gains]. intros HNN. unfold bestFirst. cbn [fe_gains].
    assert (Hs : no_inversion (featLess (fe_xgb f)) l).
    { apply (ok_sort_sorted E HE).
      assert (HN' : forall p, In p (pairsOf f) -> fnanb (snd p) = false).
      { intros p Hp. apply HNN. apply in_map. eapply Permutation_in; eauto. }
      unfold featLess. destruct (fe_xgb f); repeat split; intros.
      - apply fltb_irrefl.
      - eapply fltb_trans; eauto.
      - apply fltb_false in H2; auto. apply fltb_false in H3; auto. apply fltb_false; auto. lra.
      - apply fltb_irrefl.
      - eapply fltb_trans; eauto.
      - apply fltb_false in H2; auto. apply fltb_false in H3; auto. apply fltb_false; auto. lra. }
    intros i j x y Hij Hx Hy.
    assert (Nx : fnanb x = false) by (apply HNN; eapply nth_error_In; eauto).
    assert (Ny : fnanb y = false) by (apply HNN; eapply nth_error_In; eauto).
    rewrite nth_error_map in Hx, Hy.
    destruct (nth_error l i) as [p|] eqn:Ep; [|discriminate Hx]. destruct (nth_error l j) as [q|] eqn:Eq; [|discriminate Hy].
    injection Hx as <-. injection Hy as <-. specialize (Hs i j p q Hij Ep Eq). unfold featLess in Hs.
    destruct (fe_xgb f); apply fltb_false in Hs; auto; apply fleb_true; auto.
Qed.

Definition sortedSet (f : feats) : Prop := (forall g, In g (fe_gains f) -> fnanb g = false) -> bestFirst (fe_xgb f) f.

Lemma collect_spec t : twoChildren t -> forall adds f, tallies adds f ->
  exists f', collect E t f = Ok f' /\ tallies (adds ++ splitScores t) f' /\ fe_xgb f' = fe_xgb f /\ sortedSet f'.
Proof.
  induction 1 as [d l r Hd|d l r Hd Hl IHl Hr IHr]; intros adds f HT; cbn [collect splitScores]; rewrite Hd.
  - rewrite app_nil_r. destruct (sort_tallies adds f HT) as (H1 & H2 & H3). exists (sortFeats E f).
    split; [auto|]. split; [auto|]. split; [auto|]. intros HN. rewrite H2. apply H3. auto.
  - destruct (Add_tallies adds f (t_split d) (t_best d) HT) as (f1 & HA & HT1). rewrite HA. simpl bind.
    destruct (IHl _ _ HT1) as (f2 & -> & HT2 & Hx2 & _). simpl bind.
    destruct (IHr _ _ HT2) as (f3 & -> & HT3 & Hx3 & HS). exists f3. split; [auto|]. split.
    + rewrite <- !app_assoc in HT3. simpl app in HT3. exact HT3.
    + split; [|auto]. rewrite Hx3, Hx2. eapply Add_xgb; eauto.
Qed.

Lemma tree_importance_lemma xgb t : twoChildren t ->
  (Leaf t = Ok true -> TreeImportance E xgb t = Ok None) /\
  (Leaf t = Ok false -> exists f, TreeImportance E xgb t = Ok (Some f) /\ tallies (splitScores t) f /\
     ((forall g, In g (fe_gains f) -> fnanb g = false) -> bestFirst xgb f)).
Proof.
  intros HT. destruct (collect_spec t HT [] (NewFeats xgb) (tallies_nil xgb)) as (f & Hf & H1 & H2 & H3).
  destruct t as [|d l r]; [inversion HT|]. simpl Leaf. unfold TreeImportance. split; intros [= Hd]; rewrite Hd.
  - reflexivity.
  - rewrite Hf. simpl. exists f. split; [auto|]. split; [exact H1|]. unfold sortedSet in H3. rewrite H2 in H3. exact H3.
Qed.

Lemma ens_spec ens : forall adds f, (forall t, In t ens -> twoChildren t) -> tallies adds f ->
  exists f', foldM (fun g t => collect E t g) f ens = Ok f' /\ tallies (adds ++ flat_map splitScores ens) f' /\ fe_xgb f' = fe_xgb f /\
    (ens <> [] -> sortedSet f') /\ (ens = [] -> f' = f).
Proof.
  induction ens as [|t ens IH]; intros adds f HW HT; simpl.
  - rewrite app_nil_r. exists f. repeat split; auto; try apply HT. congruence.
  - destruct (collect_spec t (HW t ltac:(left; auto)) adds f HT) as (f1 & -> & HT1 & Hx1 & HS1). simpl bind.
    destruct (IH (adds ++ splitScores t) f1 ltac:(intros; apply HW; right; auto) HT1) as (f' & Hf' & HT' & Hx' & HS' & HE').
    exists f'. split; [auto|]. rewrite <- app_assoc in HT'. split; [auto|]. split; [congruence|]. split; [|congruence].
    intros _. destruct ens as [|t2 ens]; [rewrite HE' by auto; auto|]. apply HS'. congruence.
Qed.
Lemma mc_spec b : forall adds f, (forall t, In t (concat b) -> twoChildren t) -> tallies adds f -> sortedSet f ->
  exists f', foldM (fun g ens => foldM (fun g t => collect E t g) g ens) f b = Ok f' /\
    tallies (adds ++ flat_map splitScores (concat b)) f' /\ fe_xgb f' = fe_xgb f /\ sortedSet f'.
Proof.
  induction b as [|ens b IH]; intros adds f HW HT HS; cbn [foldM concat].
  - rewrite app_nil_r. eauto.
  - destruct (ens_spec ens adds f) as (f1 & -> & HT1 & Hx1 & HS1 & HE1); auto.
    { intros t Ht. apply HW. simpl. apply in_app_iff. auto. }
    simpl bind. rewrite flat_map_app, app_assoc.
    destruct (IH (adds ++ flat_map splitScores ens) f1) as (f' & Hf' & HT' & Hx' & HS'); auto.
    { intros t Ht. apply HW. simpl. apply in_app_iff. auto. }
    { destruct ens; [rewrite HE1 by auto; auto|apply HS1; congruence]. }
    exists f'. split; [auto|]. split; [auto|]. split; [congruence|auto].
Qed.
Lemma importance_lemma M : (forall t, In t (concat (mc_b M)) -> twoChildren t) ->
  exists f, FeatureImportance E M = Ok f /\ tallies (flat_map splitScores (concat (mc_b M))) f /\
    ((forall g, In g (fe_gains f) -> fnanb g = false) -> bestFirst (mc_xgb M) f).
Proof.
  intros HW. destruct (mc_spec (mc_b M) [] (NewFeats (mc_xgb M)) HW (tallies_nil _)) as (f & Hf & HT & Hx & HS).
  - intros _ [|i] j x y _ H; discriminate H.
  - exists f. split; [auto|]. split; [auto|]. unfold sortedSet in HS. rewrite Hx in HS. exact HS.
Qed.
End Imp.

(** ** a set merged into itself *)
Lemma upd_nat_middle {A} (a : list A) x y b : upd_nat (a ++ x :: b) (length a) y = a ++ y :: b.
Proof. induction a as [|z a IH]; cbn [app length upd_nat]; [reflexivity|]. rewrite IH. reflexivity. Qed.
Lemma self_gen xgb feat b : forall a ga gb, feat = a ++ b -> NoDup feat -> length ga = length a -> length gb = length b ->
  selfLoop (MkFeats xgb feat (map (fun g => fadd g g) ga ++ gb)) b (Z.of_nat (length a)) = Ok (MkFeats xgb feat (map (fun g => fadd g g) (ga ++ gb))).
Proof.
  induction b as [|v b IH]; intros a ga gb HF HN HA HB.
  - destruct gb; [|discriminate HB]. cbn [selfLoop]. rewrite !app_nil_r. reflexivity.
  - destruct gb as [|g gb]; [discriminate HB|]. cbn [length] in HB. cbn [selfLoop fe_gains].
    assert (Hm : length (map (fun g => fadd g g) ga) = length a) by (rewrite map_length; auto).
    assert (Hi : idx (map (fun g => fadd g g) ga ++ g :: gb) (Z.of_nat (length a)) = Ok g).
    { apply idx_of_nat. rewrite nth_error_app2 by lia. rewrite Hm, Nat.sub_diag. reflexivity. }
    rewrite Hi. cbn [bind].
    destruct (Add_spec (MkFeats xgb feat (map (fun g => fadd g g) ga ++ g :: gb)) v g) as [H1 _].
    { cbn [fe_feat fe_gains]. subst feat. rewrite !app_length. cbn [length]. lia. }
    destruct H1 as (j & old & Hj & _ & Ho & HAd); [cbn [fe_feat]; subst feat; apply in_or_app; right; left; auto|].
    cbn [fe_feat fe_gains fe_xgb] in *.
    assert (Ej : j = length a).
    { apply (proj1 (NoDup_nth_error feat) HN); [apply nth_error_Some; congruence|]. rewrite Hj. subst feat. rewrite nth_error_app2, Nat.sub_diag by lia. reflexivity. }
    subst j. apply idx_of_nat in Ho. rewrite Hi in Ho. assert (old = g) by congruence. subst old. rewrite HAd. cbn [bind].
    rewrite <- Hm at 1. rewrite upd_nat_middle.
    replace (Z.of_nat (length a) + 1) with (Z.of_nat (length (a ++ [v]))) by (rewrite app_length; cbn [length]; lia).
    specialize (IH (a ++ [v]) (ga ++ [g]) gb). rewrite map_app, <- !app_assoc in IH. cbn [map app] in IH. apply IH; auto; rewrite ?app_length; cbn [length]; lia.
Qed.
Lemma c68_self_lemma f : NoDup (fe_feat f) -> length (fe_gains f) = length (fe_feat f) ->
  MergeSelf f = Ok (MkFeats (fe_xgb f) (fe_feat f) (map (fun g => fadd g g) (fe_gains f))).
Proof. destruct f as [xgb feat gains]. cbn [fe_xgb fe_feat fe_gains]. intros HN HL. apply (self_gen xgb feat feat [] [] gains); auto. Qed.
