(** Proofs about what is printed and logged: training and cross-validation (C157, C158). *)
From Verif Require Import Base F64 Env Utils Tree Options Train Spec SpecTrain TrainProofs TrainThms TrainSteps TrainMore OptProofs Text Confu Print CV SpecCV CVProofs Grid Grad Verbose SpecVerbose.
From Coq Require Import List.
Open Scope Z_scope.

(** ** Code that writes *)
Lemma snd_wbind {A B} (m : wr A) (k : A -> wr B) : snd (wbind m k) = bind (snd m) (fun a => snd (k a)).
Proof. unfold wbind. destruct m as [o [a| |]]; reflexivity. Qed.
Lemma wbind_Ok {A B} (m : wr A) (k : A -> wr B) b : snd (wbind m k) = Ok b ->
  exists a, snd m = Ok a /\ snd (k a) = Ok b /\ fst (wbind m k) = fst m ++ fst (k a).
Proof. unfold wbind. destruct m as [o [a| |]]; simpl; intros H; try discriminate H. exists a. auto. Qed.
Lemma lift_Ok {A B} (m : res A) (k : A -> wr B) b : snd (wbind (lift m) k) = Ok b ->
  exists a, m = Ok a /\ snd (k a) = Ok b /\ fst (wbind (lift m) k) = fst (k a).
Proof. intros H. apply wbind_Ok in H as (a & H1 & H2 & H3). exists a. auto. Qed.
Lemma say_eq {B} l (k : unit -> wr B) : wbind (say l) k = (l ++ fst (k tt), snd (k tt)).
Proof. reflexivity. Qed.
Lemma bind_ext {A B} (m : res A) (f g : A -> res B) : (forall a, m = Ok a -> f a = g a) -> bind m f = bind m g.
Proof. destruct m; simpl; auto. Qed.
Lemma snd_foldW {A S} (f : S -> A -> wr S) (g : S -> A -> res S) : (forall s a, snd (f s a) = g s a) -> forall l s, snd (foldW f s l) = foldM g s l.
Proof. intros H. induction l as [|a l IH]; intros s; cbn [foldW foldM]; auto. rewrite snd_wbind, H. apply bind_ext. auto. Qed.
Lemma foldW_inv {A S} (f : S -> A -> wr S) (I : list line -> S -> Prop) : forall l acc s s',
  (forall acc s a s', In a l -> I acc s -> snd (f s a) = Ok s' -> I (acc ++ fst (f s a)) s') -> I acc s -> snd (foldW f s l) = Ok s' -> I (acc ++ fst (foldW f s l)) s'.
Proof.
  induction l as [|a l IH]; intros acc s s' HS HI H; cbn [foldW] in *.
  - injection H as <-. simpl. rewrite app_nil_r. auto.
  - apply wbind_Ok in H as (s1 & H1 & H2 & ->). rewrite app_assoc. apply IH; auto.
    + intros acc1 s2 a' s3 Hin. apply HS. right. auto.
    + apply HS; auto. left. auto.
Qed.

(** ** Training *)
Lemma snd_classStepV E O data ohe ix cols round sa k : snd (classStepV E O data ohe ix cols round sa k) = classStep E O data ohe ix cols round sa k.
Proof.
  unfold classStepV, classStep. destruct sa as [st acc]. destruct (nth k (s_stopped st) false); [reflexivity|].
  do 7 (rewrite snd_wbind; cbn [lift snd]; apply bind_ext; intros ? _). cbv zeta. rewrite !say_eq. reflexivity.
Qed.
Lemma snd_roundStepV E O data ohe nl rnd sb round : snd (roundStepV E O data ohe nl rnd sb round) = roundStep E O data ohe nl rnd sb round.
Proof.
  unfold roundStepV, roundStep. destruct sb as [st b]. rewrite snd_wbind. cbn [lift snd]. apply bind_ext. intros [ix cols] _.
  destruct (_ <? _); [reflexivity|]. rewrite snd_wbind, (snd_foldW _ (classStep E O data ohe ix cols round)) by (intros; apply snd_classStepV).
  apply bind_ext. intros [st' cl] _. reflexivity.
Qed.
Lemma snd_NewMultiClassV {K} E rnd (D : DataBunch K) O : snd (NewMultiClassV E rnd D O) = NewMultiClass E rnd D O.
Proof.
  unfold NewMultiClassV, NewMultiClass. rewrite snd_wbind. cbn [lift snd]. apply bind_ext. intros [ohe labels] _. cbv zeta.
  do 2 (rewrite snd_wbind; cbn [lift snd]; apply bind_ext; intros ? _).
  rewrite snd_wbind, (snd_foldW _ (roundStep E (fixMCW O) (Data D) ohe (length labels) rnd)) by (intros; apply snd_roundStepV).
  apply bind_ext. intros [st hist] _. reflexivity.
Qed.

Section Training.
Context (E : Env) (O : Options) (data : list (list f64)) (ohe : dense) (nl : nat) (rnd : draws).
Definition stopInv (es : list entryG) (stopped : list bool) (out : list line) : Prop :=
  (forall k r, In (k, r) (stopLines out) <-> nth k stopped false = true /\ exists L l, lossesOf es k = L ++ [(r, l)] /\ fleb l epsilon = false) /\
  NoDup (map fst (stopLines out)).
Definition outInv (out : list line) (st : tstate) (es : list entryG) : Prop :=
  length (s_stopped st) = nl /\ (exists saids, Forall2 entrySays es saids /\ out = concat saids) /\ stopInv es (s_stopped st) out.

Lemma stopLines_app a b : stopLines (a ++ b) = stopLines a ++ stopLines b.
Proof. apply flat_map_app. Qed.
Lemma nth_upd l : forall k j (v : bool), (k < length l)%nat -> nth j (upd_nat l k v) false = if Nat.eqb j k then v else nth j l false.
Proof.
  induction l as [|a l IH]; intros [|k] [|j] v H; simpl in *; try lia; auto. apply IH. lia.
Qed.
Lemma lossesOf_snoc es e k : lossesOf (es ++ [e]) k = lossesOf es k ++ (if Nat.eqb (g_class e) k then [(g_round e, g_loss e)] else []).
Proof. unfold lossesOf. rewrite filter_app, map_app. simpl. destruct (Nat.eqb (g_class e) k); reflexivity. Qed.
Lemma earlyStop_stopped round k l st : s_stopped (earlyStop O round k l st) =
  if (0 <? o_earlystop O) && fleb l epsilon || stopsNow O round k l st then upd_nat (s_stopped st) k true else s_stopped st.
Proof.
  unfold earlyStop, stopsNow. destruct (0 <? o_earlystop O); simpl; auto. destruct (fleb l epsilon); simpl; auto.
  destruct (Nat.eqb round 0); simpl; auto.
Qed.
Lemma classStepV_inv ix cols round pre acc k st es sa' : o_verbose O = true -> (k < nl)%nat ->
  outInv acc st (pre ++ es) -> snd (classStepV E O data ohe ix cols round (st, es) k) = Ok sa' ->
  outInv (acc ++ fst (classStepV E O data ohe ix cols round (st, es) k)) (fst sa') (pre ++ snd sa').
Proof.
  intros HV Hk HI H. unfold classStepV in *. destruct (nth k (s_stopped st) false) eqn:Es.
  - injection H as <-. cbn [lift fst snd]. rewrite app_nil_r. auto.
  - do 7 (apply lift_Ok in H as (? & _ & H & HF); rewrite HF; clear HF). cbv zeta in *. rewrite !say_eq in *. cbn [fst snd lift] in *.
    injection H as <-. cbn [fst snd]. rewrite HV. set (l := l_loss _ _ _). set (st1 := MkSt _ _ _ _ _ _).
    match goal with |- context [MkG k round ?t l] => set (e := MkG k round t l) end.
    destruct HI as (I1 & (saids & I2 & I3) & I4 & I5). cbn [andb].
    assert (HS1 : s_stopped st1 = s_stopped st) by reflexivity.
    assert (Hno : forall r, ~ In (k, r) (stopLines acc)) by (intros r Hr; apply I4 in Hr as [Hr _]; congruence).
    split; [|split].
    + rewrite earlyStop_stopped. destruct (_ || _); rewrite ?upd_nat_length; auto.
    + exists (saids ++ [[LTrain round k l] ++ (if stopsNow O round k l st1 then [LStop k round] else []) ++ []]). split.
      * rewrite app_assoc. apply Forall2_app; auto. constructor; [|constructor]. unfold entrySays. destruct (stopsNow O round k l st1); auto.
      * rewrite concat_app, <- I3. simpl. rewrite !app_nil_r. auto.
    + unfold stopInv. rewrite stopLines_app. assert (HL : stopLines ([LTrain round k l] ++ (if stopsNow O round k l st1 then [LStop k round] else []) ++ []) = if stopsNow O round k l st1 then [(k, round)] else []) by (destruct (stopsNow O round k l st1); reflexivity).
      rewrite HL. clear HL. split.
      * intros j r. rewrite in_app_iff, I4, earlyStop_stopped, HS1, app_assoc, lossesOf_snoc. cbn [g_class e g_round g_loss].
        assert (HE : stopsNow O round k l st1 = true -> fleb l epsilon = false) by (unfold stopsNow; destruct (fleb l epsilon); rewrite ?andb_false_r; auto).
        destruct (Nat.eqb_spec k j) as [<-|Hne].
        -- split.
           ++ intros [[Hs _]|Hs]; [congruence|]. destruct (stopsNow O round k l st1) eqn:En; [|destruct Hs]. destruct Hs as [Hs|[]]. injection Hs as <-.
              rewrite orb_true_r, nth_upd, Nat.eqb_refl by lia. split; [auto|]. exists (lossesOf (pre ++ es) k), l. auto.
           ++ intros (Hs & L & l' & HL & Hl). apply app_inj_tail in HL as [_ HL]. injection HL as <- <-. right. rewrite Hl, andb_false_r in Hs. cbn [orb] in Hs.
              destruct (stopsNow O round k l st1); [left; auto|congruence].
        -- rewrite app_nil_r. assert (HN : nth j (if (0 <? o_earlystop O) && fleb l epsilon || stopsNow O round k l st1 then upd_nat (s_stopped st) k true else s_stopped st) false = nth j (s_stopped st) false).
           { destruct (_ || _); auto. rewrite nth_upd by lia. destruct (Nat.eqb_spec j k); congruence. }
           rewrite HN. split; [intros [Hx|Hx]; auto; exfalso; destruct (stopsNow O round k l st1); [destruct Hx as [Hx|[]]; congruence|destruct Hx]|auto].
      * rewrite map_app. destruct (stopsNow O round k l st1); simpl; [|rewrite app_nil_r; auto]. apply NoDup_app_intro || idtac.
        apply Permutation_NoDup with (l := k :: map fst (stopLines acc)); [apply Permutation_cons_append|]. constructor; auto.
        intros Hi. apply in_map_iff in Hi as ((k' & r) & Hx & Hi). simpl in Hx. subst. apply (Hno r). auto.
Qed.
Lemma roundStepV_inv acc st b round sb' : o_verbose O = true -> outInv acc st (concat b) -> snd (roundStepV E O data ohe nl rnd (st, b) round) = Ok sb' ->
  outInv (acc ++ fst (roundStepV E O data ohe nl rnd (st, b) round)) (fst sb') (concat (snd sb')).
Proof.
  intros HV HI H. unfold roundStepV in *. apply lift_Ok in H as ([ix cols] & _ & H & HF). rewrite HF. clear HF. destruct (_ <? _).
  - injection H as <-. cbn [lift fst snd]. rewrite app_nil_r. auto.
  - apply wbind_Ok in H as ([st' cl] & H1 & H2 & HF). rewrite HF. clear HF. injection H2 as <-. cbn [lift fst snd]. rewrite app_nil_r, concat_app. simpl. rewrite app_nil_r.
    apply (foldW_inv _ (fun out sa => outInv out (fst sa) (concat b ++ snd sa)) _ acc) in H1; auto.
    + intros acc1 [st1 es1] k sa' Hin HI1 H1'. apply in_seq in Hin. cbn [fst snd] in *. apply classStepV_inv; auto. lia.
    + cbn [fst snd]. rewrite app_nil_r. auto.
Qed.
Lemma quiet_lift {A B} (m : res A) (k : A -> wr B) : (forall a, fst (k a) = []) -> fst (wbind (lift m) k) = [].
Proof. intros H. unfold wbind, lift. destruct m; cbn [fst snd app]; auto. Qed.
Lemma quiet_class ix cols round sa k : o_verbose O = false -> fst (classStepV E O data ohe ix cols round sa k) = [].
Proof.
  intros HV. unfold classStepV. destruct sa as [st acc]. destruct (nth k (s_stopped st) false); [reflexivity|].
  do 7 (apply quiet_lift; intros ?). cbv zeta. rewrite !say_eq, HV. reflexivity.
Qed.
Lemma quiet_fold {A S} (f : S -> A -> wr S) : (forall s a, fst (f s a) = []) -> forall l s, fst (foldW f s l) = [].
Proof.
  intros H. induction l as [|a l IH]; intros s; cbn [foldW]; auto. unfold wbind. destruct (snd (f s a)); cbn [fst]; rewrite ?H, ?IH; auto.
Qed.
Lemma quiet_round sb round : o_verbose O = false -> fst (roundStepV E O data ohe nl rnd sb round) = [].
Proof.
  intros HV. unfold roundStepV. destruct sb as [st b]. unfold wbind at 1. cbn [lift fst snd]. destruct (roundSamples _ _ _) as [[ix cols]| |]; cbn [fst app]; auto.
  destruct (_ <? _); auto. unfold wbind. pose proof (quiet_fold (classStepV E O data ohe ix cols round) (fun s a => quiet_class ix cols round s a HV) (seq 0 nl) (st, [])) as HQ.
  destruct (snd (foldW _ _ _)) as [[st' cl]| |]; cbn [fst lift]; rewrite HQ; auto.
Qed.
End Training.

Lemma c157_quiet_lemma {K} E rnd (D : DataBunch K) O : o_verbose O = false -> fst (NewMultiClassV E rnd D O) = [].
Proof.
  intros HV. unfold NewMultiClassV, wbind, lift. cbn [fst snd]. destruct (oneHotEncodeDense (Labels D)) as [[ohe labels]| |]; cbn [fst snd app]; auto.
  destruct (NewDense _ _ _); cbn [fst snd app]; auto. destruct (SoftMaxDense _ _ _); cbn [fst snd app]; auto.
  match goal with |- context [snd (foldW ?f ?s0 ?l0)] => pose proof (quiet_fold f (fun sb k => quiet_round E (fixMCW O) (Data D) ohe (length labels) rnd sb k HV) l0 s0) as HQ; destruct (snd (foldW f s0 l0)) as [[st h]| |] end;
  cbn [fst]; rewrite HQ; auto.
Qed.
Lemma c157_lemma {K} E rnd (D : DataBunch K) O tr : o_verbose O = true -> snd (NewMultiClassV E rnd D O) = Ok tr ->
  let out := fst (NewMultiClassV E rnd D O) in let es := concat (tr_hist tr) in
  (exists saids, Forall2 entrySays es saids /\ out = concat saids) /\ NoDup (map fst (stopLines out)) /\
  (forall k r, In (k, r) (stopLines out) <->
     (k < length (ClassLabels (tr_model tr)))%nat /\ 0 < o_earlystop O /\ exists L l, lossesOf es k = L ++ [(r, l)] /\ fleb l epsilon = false /\
     o_earlystop O <= Z.of_nat (length (L ++ [(r, l)])) /\
     forall j, (length (L ++ [(r, l)]) - Z.to_nat (o_earlystop O) <= j < length (L ++ [(r, l)]))%nat -> stalled (L ++ [(r, l)]) j).
Proof.
  intros HV H. pose proof H as HT. rewrite snd_NewMultiClassV in HT. cbv zeta.
  assert (HO : outInv (length (ClassLabels (tr_model tr))) (fst (NewMultiClassV E rnd D O)) (tr_state tr) (concat (tr_hist tr))).
  { clear HT. unfold NewMultiClassV in *. apply lift_Ok in H as ([ohe labels] & _ & H & HF). rewrite HF. clear HF. cbv zeta in *.
    do 2 (apply lift_Ok in H as (? & _ & H & HF); rewrite HF; clear HF).
    apply wbind_Ok in H as ([st hist] & H1 & H2 & HF). rewrite HF. clear HF. injection H2 as <-. cbn [lift fst snd tr_model tr_state tr_hist ClassLabels mc_labels]. rewrite app_nil_r.
    match type of H1 with snd (foldW ?f ?s ?l) = _ => change (fst (foldW f s l)) with ([] ++ fst (foldW f s l)) end.
    apply (foldW_inv _ (fun out sb => outInv (length labels) out (fst sb) (concat (snd sb))) _ []) in H1; auto.
    - intros acc [st1 b] k sb' _ HI HS. cbn [fst snd] in HI. apply roundStepV_inv; auto.
    - cbn [fst snd s_stopped concat]. split; [cbn [s_stopped]; apply repeat_length|]. split; [exists []; split; [constructor|reflexivity]|]. split; [|constructor].
      intros k r. split; [intros []|]. intros [_ (L & l & HL & _)]. destruct L; discriminate HL. }
  destruct HO as (I1 & I2 & I3 & I4). split; [auto|]. split; [auto|]. intros k r. rewrite I3.
  assert (HOpt : o_earlystop (tr_opts tr) = o_earlystop O) by (apply train_opts in HT; rewrite HT; reflexivity).
  split.
  - intros (Hs & L & l & HL & Hl). assert (Hk : (k < length (ClassLabels (tr_model tr)))%nat).
    { destruct (Nat.lt_ge_cases k (length (ClassLabels (tr_model tr)))); auto. rewrite nth_overflow in Hs by lia. discriminate Hs. }
    destruct (c32_lemma E rnd D O tr HT k Hk) as [HC _]. rewrite HOpt, HL in HC.
    assert (HN : nth_error (s_stopped (tr_state tr)) k = Some true) by (rewrite (nth_error_nth' _ false) by lia; congruence).
    apply HC in HN as [He [(r' & l' & _ & Hr & Hl')|[H1 H2]]].
    + exfalso. rewrite app_length in Hr. simpl length in Hr. replace (length L + 1 - 1)%nat with (length L) in Hr by lia.
      rewrite nth_error_app2, Nat.sub_diag in Hr by lia. injection Hr as <- <-. congruence.
    + split; [auto|]. split; [auto|]. exists L, l. auto.
  - intros (Hk & He & L & l & HL & Hl & H1 & H2). split; [|exists L, l; auto].
    destruct (c32_lemma E rnd D O tr HT k Hk) as [HC _]. rewrite HOpt, HL in HC.
    assert (HN : nth_error (s_stopped (tr_state tr)) k = Some true) by (apply HC; split; [auto|right; auto]).
    rewrite (nth_error_nth' _ false) in HN by lia. congruence.
Qed.
Lemma trainLines_says es saids : Forall2 entrySays es saids -> trainLines (concat saids) = map (fun e => (g_round e, g_class e, g_loss e)) es.
Proof.
  induction 1 as [|e said es saids HS HF IH]; simpl; auto. unfold trainLines in *. rewrite flat_map_app, IH. destruct HS as [->| ->]; reflexivity.
Qed.

Lemma streams_lemma fv l : fst (lineText fv l) = Log <-> isLogged l.
Proof. destruct l; cbn; split; intros; try exact I; try discriminate; try contradiction; reflexivity. Qed.
