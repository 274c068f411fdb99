(** Proofs about what the gradient searches print (C160). *)
From Verif Require Import Base F64 F64Lemmas Env Utils Tree Options Train Spec SpecTrain Text CV SpecCV CVProofs Grid SpecGrid GridProofs Grad SpecGrad Verbose SpecVerbose VerboseProofs VerboseGrid.
From Coq Require Import List.
Open Scope Z_scope.

Lemma climbBests_app a b : climbBests (a ++ b) = climbBests a ++ climbBests b.
Proof. apply flat_map_app. Qed.
Lemma weights_app a b : weights (a ++ b) = weights a ++ weights b.
Proof. apply flat_map_app. Qed.
(** no heading *)
Definition noHead (l : list line) : Prop := heads l = [] /\ weights l = [].
Lemma noHead_app a b : noHead a -> noHead b -> noHead (a ++ b).
Proof. unfold noHead. rewrite heads_app, weights_app. intros [-> ->] [-> ->]. auto. Qed.
Lemma noHead_wbind {A B} (m : wr A) (k : A -> wr B) : noHead (fst m) -> (forall a, noHead (fst (k a))) -> noHead (fst (wbind m k)).
Proof. intros H1 H2. unfold wbind. destruct (snd m); cbn [fst]; auto. apply noHead_app; auto. Qed.
Lemma noHead_nil : noHead [].
Proof. split; reflexivity. Qed.

Section Search.
Context (cv : nat -> Options -> res cvRet) (gstep : nat -> Options -> res Options) (fz : nat -> nat -> f64 * bool).
Lemma snd_compareAccsV v t tprev s : snd (compareAccsV v cv fz t tprev s) = compareAccs cv fz t tprev s.
Proof.
  unfold compareAccsV, compareAccs. do 2 (rewrite snd_wbind; cbn [lift snd]; apply bind_ext; intros ? _). cbv zeta. destruct (cv_err _); [reflexivity|].
  destruct (match rev _ with [] => false | _ => _ end); [rewrite snd_wbind; reflexivity|]. destruct (fltb _ _); [|reflexivity]. rewrite say_eq. reflexivity.
Qed.
Lemma snd_climbStepsV v : forall n k t s, snd (climbStepsV v cv gstep fz n k t s) = climbSteps cv gstep fz n k t s.
Proof.
  induction n as [|n IH]; intros k t s; cbn [climbStepsV climbSteps]; [reflexivity|]. rewrite snd_wbind. cbn [lift snd]. apply bind_ext. intros o _.
  destruct (alloc (Clone o) s) as [t1 s1]. do 2 (rewrite snd_wbind; cbn [lift snd]; apply bind_ext; intros ? _). destruct (Equal _ _).
  - rewrite snd_wbind. cbn [lift snd]. apply bind_ext. intros s2 _. destruct (_ =? 3); [reflexivity|apply IH].
  - rewrite snd_wbind, snd_compareAccsV. apply bind_ext. intros [[t'|] s2] _; [apply IH|reflexivity].
Qed.
Lemma snd_climbV v n o s : snd (climbV v cv gstep fz n o s) = climb cv gstep fz n o s.
Proof.
  unfold climbV, climb. destruct (alloc o s) as [t s1]. destruct (alloc (Clone o) s1) as [tp s2]. rewrite snd_wbind, snd_compareAccsV. apply bind_ext.
  intros [[t'|] s3] _; [apply snd_climbStepsV|reflexivity].
Qed.
Lemma c160_same_lemma fuel id o : snd (GradientGridWithV cv gstep fz fuel id o) = GradientGridWith cv gstep fz fuel id o.
Proof.
  unfold GradientGridWithV, GradientGridWith. rewrite snd_wbind. unfold forFW, forZW, forF, forZ.
  erewrite snd_forLoopW; [apply bind_ext; intros r _; reflexivity|]. intros cw s. rewrite say_eq. cbn [snd].
  erewrite snd_forLoopW; [reflexivity|]. intros md s1. apply snd_climbV.
Qed.
Lemma c160_same_h_lemma fuel id o : snd (HybridGradientGridWithV cv gstep fz fuel id o) = HybridGradientGridWith cv gstep fz fuel id o.
Proof.
  unfold HybridGradientGridWithV, HybridGradientGridWith. rewrite snd_wbind. unfold forFW, forZW, forF, forZ.
  erewrite snd_forLoopW; [apply bind_ext; intros r _; reflexivity|]. intros rounds s0. erewrite snd_forLoopW; [reflexivity|]. intros cw s. rewrite say_eq. cbn [snd].
  erewrite snd_forLoopW; [reflexivity|]. intros md s1. erewrite snd_forLoopW; [reflexivity|]. intros lam s2. apply snd_climbV.
Qed.

(** the lines about accuracies so far *)
Definition cinv (acc : list line) (s : hs) : Prop :=
  map fst (climbBests acc) = h_accs s /\ forall a o, In (a, o) (climbBests acc) -> exists o0, In (o0, o, a) (h_evals s).
Lemma cinv_same acc s s' : cinv acc s -> h_accs s' = h_accs s -> (forall e, In e (h_evals s) -> In e (h_evals s')) -> cinv acc s'.
Proof. intros [H1 H2] HA HE. split; [congruence|]. intros a o Hi. destruct (H2 a o Hi) as (o0 & Ho). exists o0. auto. Qed.
Lemma fuzzAt_keeps p t s s' : fuzzAt fz p t s = Ok s' -> h_accs s' = h_accs s /\ h_evals s' = h_evals s.
Proof. unfold fuzzAt. intros H. apply bind_Ok in H as (o & _ & H). injection H as <-. auto. Qed.
Lemma compareAccsV_inv t tprev acc s q : cinv acc s -> snd (compareAccsV true cv fz t tprev s) = Ok q -> cinv (acc ++ fst (compareAccsV true cv fz t tprev s)) (snd q).
Proof.
  intros HI H. unfold compareAccsV in *. apply lift_Ok in H as (o & _ & H & HF). rewrite HF. clear HF. apply lift_Ok in H as (r & _ & H & HF). rewrite HF. clear HF. cbv zeta in *.
  set (o' := match cv_opts r with Some o' => o' | None => o end) in *. destruct (cv_err r).
  - injection H as <-. cbn [lift fst snd]. rewrite app_nil_r. eapply cinv_same; [exact HI|reflexivity|auto].
  - set (s1 := MkHS (h_heap (store t o' s)) (h_accs (store t o' s)) (h_best (store t o' s)) (h_final (store t o' s)) (h_evals (store t o' s) ++ [(o, o', cv_acc r)]) (h_steps (store t o' s)) (h_fuzz (store t o' s))) in *.
    assert (HI1 : cinv acc s1) by (eapply cinv_same; [exact HI|reflexivity|cbn [h_evals store]; intros e He; apply in_or_app; auto]).
    destruct (match rev _ with [] => false | _ => _ end).
    + apply lift_Ok in H as (s' & Hf & H & HF). rewrite HF. injection H as <-. cbn [lift fst snd]. rewrite app_nil_r. apply fuzzAt_keeps in Hf as [F1 F2].
      eapply cinv_same; [exact HI1|exact F1|rewrite F2; auto].
    + destruct (fltb _ _).
      * rewrite say_eq in *. cbn [fst snd lift] in *. injection H as <-. cbn [snd app]. destruct HI1 as [J1 J2]. split.
        -- rewrite climbBests_app, map_app, J1. reflexivity.
        -- intros a x Hx. rewrite climbBests_app in Hx. apply in_app_or in Hx as [Hx|[Hx|[]]]; [auto|]. injection Hx as <- <-.
           exists o. apply in_or_app. right. left. reflexivity.
      * injection H as <-. cbn [lift fst snd]. rewrite app_nil_r. exact HI1.
Qed.
Lemma climbStepsV_inv : forall n k t acc s q, cinv acc s -> snd (climbStepsV true cv gstep fz n k t s) = Ok q ->
  match q with inl s' => cinv (acc ++ fst (climbStepsV true cv gstep fz n k t s)) s' | inr s' => cinv (acc ++ fst (climbStepsV true cv gstep fz n k t s)) s' end.
Proof.
  induction n as [|n IH]; intros k t acc s q HI H; cbn [climbStepsV] in *.
  - injection H as <-. cbn [lift fst]. rewrite app_nil_r. exact HI.
  - apply lift_Ok in H as (o & _ & H & HF). rewrite HF. clear HF. cbn [alloc] in *. apply lift_Ok in H as (o' & _ & H & HF). rewrite HF. clear HF. cbv zeta in *.
    apply lift_Ok in H as (o1 & _ & H & HF). rewrite HF. clear HF. destruct (Equal o' o1).
    + apply lift_Ok in H as (s2 & Hf & H & HF). rewrite HF. clear HF. apply fuzzAt_keeps in Hf as [F1 F2].
      assert (HI2 : cinv acc s2) by (eapply cinv_same; [exact HI|exact F1|rewrite F2; auto]).
      destruct (_ =? 3); [injection H as <-; cbn [lift fst]; rewrite app_nil_r; exact HI2|apply IH; auto].
    + apply wbind_Ok in H as ([r s2] & Hc & H & HF). rewrite HF. clear HF.
      match type of Hc with snd (compareAccsV _ _ _ _ _ ?s1) = _ => assert (HI1 : cinv acc s1) by (eapply cinv_same; [exact HI|reflexivity|auto]) end.
      pose proof (compareAccsV_inv _ _ _ _ _ HI1 Hc) as HI2. cbn [snd] in HI2. rewrite app_assoc. destruct r as [t'|].
      * apply IH; auto.
      * injection H as <-. cbn [lift fst]. rewrite app_nil_r. exact HI2.
Qed.
Lemma climbV_inv n o acc s q : cinv acc s -> snd (climbV true cv gstep fz n o s) = Ok q ->
  match q with inl s' => cinv (acc ++ fst (climbV true cv gstep fz n o s)) s' | inr s' => cinv (acc ++ fst (climbV true cv gstep fz n o s)) s' end.
Proof.
  intros HI H. unfold climbV in *. cbn [alloc] in *. apply wbind_Ok in H as ([r s2] & Hc & H & HF). rewrite HF. clear HF.
  match type of Hc with snd (compareAccsV _ _ _ _ _ ?s1) = _ => assert (HI1 : cinv acc s1) by (eapply cinv_same; [exact HI|reflexivity|auto]) end.
  pose proof (compareAccsV_inv _ _ _ _ _ HI1 Hc) as HI2. cbn [snd] in HI2. rewrite app_assoc. destruct r as [t'|].
  - apply climbStepsV_inv; auto.
  - injection H as <-. cbn [lift fst]. rewrite app_nil_r. exact HI2.
Qed.
Lemma compareAccsV_noHead v t tprev s : noHead (fst (compareAccsV v cv fz t tprev s)).
Proof.
  unfold compareAccsV. do 2 (apply noHead_wbind; [apply noHead_nil|intros ?]). cbv zeta. destruct (cv_err _); [apply noHead_nil|].
  destruct (match rev _ with [] => false | _ => _ end); [apply noHead_wbind; [apply noHead_nil|intros ?; apply noHead_nil]|]. destruct (fltb _ _); [|apply noHead_nil].
  apply noHead_wbind; [destruct v; split; reflexivity|intros ?; apply noHead_nil].
Qed.
Lemma climbStepsV_noHead v : forall n k t s, noHead (fst (climbStepsV v cv gstep fz n k t s)).
Proof.
  induction n as [|n IH]; intros k t s; cbn [climbStepsV]; [apply noHead_nil|]. apply noHead_wbind; [apply noHead_nil|intros o]. cbn [alloc].
  do 2 (apply noHead_wbind; [apply noHead_nil|intros ?]). destruct (Equal _ _).
  - apply noHead_wbind; [apply noHead_nil|intros ?]. destruct (_ =? 3); [apply noHead_nil|apply IH].
  - apply noHead_wbind; [apply compareAccsV_noHead|]. intros [[t'|] s2]; [apply IH|apply noHead_nil].
Qed.
Lemma climbV_noHead v n o s : noHead (fst (climbV v cv gstep fz n o s)).
Proof. unfold climbV. cbn [alloc]. apply noHead_wbind; [apply compareAccsV_noHead|]. intros [[t'|] s2]; [apply climbStepsV_noHead|apply noHead_nil]. Qed.
Lemma compareAccsV_quiet t tprev s : fst (compareAccsV false cv fz t tprev s) = [].
Proof.
  unfold compareAccsV. do 2 (apply quiet_lift; intros ?). cbv zeta. destruct (cv_err _); [reflexivity|].
  destruct (match rev _ with [] => false | _ => _ end); [apply quiet_lift; intros ?; reflexivity|]. destruct (fltb _ _); [|reflexivity]. rewrite say_eq. reflexivity.
Qed.
Lemma quiet_wbind {A B} (m : wr A) (k : A -> wr B) : fst m = [] -> (forall a, fst (k a) = []) -> fst (wbind m k) = [].
Proof. intros H1 H2. unfold wbind. destruct (snd m); cbn [fst]; rewrite ?H1, ?H2; auto. Qed.
Lemma climbStepsV_quiet : forall n k t s, fst (climbStepsV false cv gstep fz n k t s) = [].
Proof.
  induction n as [|n IH]; intros k t s; cbn [climbStepsV]; [reflexivity|]. apply quiet_lift; intros o. cbn [alloc].
  do 2 (apply quiet_lift; intros ?). destruct (Equal _ _).
  - apply quiet_lift; intros ?. destruct (_ =? 3); [reflexivity|apply IH].
  - apply quiet_wbind; [apply compareAccsV_quiet|]. intros [[t'|] s2]; [apply IH|reflexivity].
Qed.
Lemma climbV_quiet n o s : fst (climbV false cv gstep fz n o s) = [].
Proof. unfold climbV. cbn [alloc]. apply quiet_wbind; [apply compareAccsV_quiet|]. intros [[t'|] s2]; [apply climbStepsV_quiet|reflexivity]. Qed.

Lemma finish_says out q r : match q with inl s => cinv out s | inr s => cinv out s end -> ggFinish q = Ok r -> saysBests out r /\ (gg_err r = match q with inl _ => false | inr _ => true end).
Proof.
  intros HI H. unfold ggFinish in H. destruct q as [s|s]; destruct HI as [H1 H2].
  - destruct (h_final s) as [t|]; [apply bind_Ok in H as (o & _ & H)|]; injection H as <-; (split; [split; auto|reflexivity]).
  - injection H as <-. split; [split; [discriminate|auto]|reflexivity].
Qed.
Lemma c160_lemma fuel id o xc r : g_verbose o = true -> rangeF (g_mcw o) xc -> snd (GradientGridWithV cv gstep fz fuel id o) = Ok r ->
  let out := fst (GradientGridWithV cv gstep fz fuel id o) in
  saysBests out r /\ exists rest, xc = weights out ++ rest /\ (gg_err r = false -> rest = []).
Proof.
  intros HV HR H. cbv zeta. unfold GradientGridWithV in *. apply wbind_Ok in H as (q & Hq & H & HF). rewrite HF. clear HF. rewrite HV in *. cbn [lift fst snd] in *. rewrite app_nil_r.
  unfold forFW in *.
  pose proof (forW_inv fleb fadd (r_hi (g_mcw o)) (r_step (g_mcw o))
    (fun cw s => _ <~ say [LWeight cw] ;; forZW fuel (g_maxdepth o) (fun md => climbV true cv gstep fz (g_nsteps o) (gradStart id o cw md)) s)
    (fun done acc s => weights acc = done /\ cinv acc s) (fun acc e => (exists rest, xc = weights acc ++ rest) /\ cinv acc e) xc) as HW.
  match type of HW with ?P -> _ => assert (HS : P) end.
  { clear Hq H. intros done cw rest acc s q1 Hx [Hw HI] H. rewrite say_eq in *. cbn [fst snd] in *.
    pose proof (forW_keep Z.leb Z.add (r_hi (g_maxdepth o)) (r_step (g_maxdepth o)) (fun md => climbV true cv gstep fz (g_nsteps o) (gradStart id o cw md))
      (fun acc s => weights acc = done ++ [cw] /\ cinv acc s) (fun acc s => weights acc = done ++ [cw] /\ cinv acc s)) as HK.
    match type of HK with ?P -> _ => assert (HS : P) end.
    { intros md acc1 s1 q2 [Hw1 HI1] H1. pose proof (climbV_inv _ _ _ _ _ HI1 H1) as HI2. destruct (climbV_noHead true (g_nsteps o) (gradStart id o cw md) s1) as [_ HN].
      destruct q2; (split; [rewrite weights_app, HN, app_nil_r; exact Hw1|exact HI2]). }
    specialize (HK HS fuel (r_lo (g_maxdepth o)) (acc ++ [LWeight cw]) s q1).
    assert (HI0 : weights (acc ++ [LWeight cw]) = done ++ [cw] /\ cinv (acc ++ [LWeight cw]) s).
    { rewrite weights_app, Hw. split; [reflexivity|]. destruct HI as [J1 J2]. unfold cinv. rewrite climbBests_app. simpl. rewrite app_nil_r. split; auto. }
    specialize (HK HI0 H). rewrite <- app_assoc in HK. destruct q1 as [s'|e]; [exact HK|]. destruct HK as [K1 K2]. split; [|exact K2].
    exists rest. unfold forZW in *. rewrite K1, <- app_assoc. exact Hx. }
  specialize (HW HS fuel (r_lo (g_mcw o)) xc [] [] hs0 q HR eq_refl).
  assert (HI0 : weights [] = [] /\ cinv [] hs0) by (split; [reflexivity|split; [reflexivity|intros a x []]]). specialize (HW HI0 Hq). cbn [app] in HW.
  destruct (finish_says (fst (forLoopW fleb fadd fuel (r_lo (g_mcw o)) (r_hi (g_mcw o)) (r_step (g_mcw o))
     (fun cw s => _ <~ say [LWeight cw] ;; forZW fuel (g_maxdepth o) (fun md => climbV true cv gstep fz (g_nsteps o) (gradStart id o cw md)) s) hs0)) q r) as [F1 F2]; [destruct q; apply HW|exact H|].
  split; [exact F1|]. destruct q as [s|s].
  - exists []. rewrite app_nil_r. split; [symmetry; apply HW|auto].
  - destruct HW as [(rest & HW) _]. exists rest. split; [exact HW|congruence].
Qed.
Lemma c160_h_lemma fuel id o xr xc r : g_verbose o = true -> rangeZ (g_rounds o) xr -> rangeF (g_mcw o) xc -> snd (HybridGradientGridWithV cv gstep fz fuel id o) = Ok r ->
  let out := fst (HybridGradientGridWithV cv gstep fz fuel id o) in
  saysBests out r /\ exists rest, list_prod xr xc = heads out ++ rest /\ (gg_err r = false -> rest = []).
Proof.
  intros HV HR HC H. cbv zeta. unfold HybridGradientGridWithV in *. apply wbind_Ok in H as (q & Hq & H & HF). rewrite HF. clear HF. rewrite HV in *. cbn [lift fst snd] in *. rewrite app_nil_r.
  set (inner := fun rounds cw s => forZW fuel (g_maxdepth o) (fun md => forFW fuel (g_lambda o) (fun lam => climbV true cv gstep fz (g_nsteps o) (hybridStart id o rounds cw md lam))) s).
  pose proof (two_loops (g_rounds o) (g_mcw o) inner cinv cinv xr xc fuel [] hs0 q) as HT. cbv zeta in HT.
  match type of HT with ?P2 -> ?P3 -> _ => assert (X2 : P2); [|assert (X3 : P3)] end.
  { intros x c acc s [J1 J2]. unfold cinv. rewrite climbBests_app. simpl. rewrite app_nil_r. split; auto. }
  { intros x c acc s q1 HI H1. unfold inner, forZW, forFW in *.
    pose proof (forW_keep Z.leb Z.add (r_hi (g_maxdepth o)) (r_step (g_maxdepth o)) (fun md => forLoopW fleb fadd fuel (r_lo (g_lambda o)) (r_hi (g_lambda o)) (r_step (g_lambda o)) (fun lam => climbV true cv gstep fz (g_nsteps o) (hybridStart id o x c md lam)))
      (fun acc1 s => heads acc1 = heads acc /\ cinv acc1 s) (fun acc1 s => heads acc1 = heads acc /\ cinv acc1 s)) as HK.
    match type of HK with ?P -> _ => assert (HS : P) end.
    { intros md acc1 s1 q2. apply (forW_keep fleb fadd _ _ _ (fun acc1 s => heads acc1 = heads acc /\ cinv acc1 s) (fun acc1 s => heads acc1 = heads acc /\ cinv acc1 s)). clear. intros lam acc2 s2 q2 [Hh HI] H1. pose proof (climbV_inv _ _ _ _ _ HI H1) as HI2.
      destruct (climbV_noHead true (g_nsteps o) (hybridStart id o x c md lam) s2) as [HN _]. destruct q2; (split; [rewrite heads_app, HN, app_nil_r; exact Hh|exact HI2]). }
    specialize (HK HS fuel (r_lo (g_maxdepth o)) acc s q1 (conj eq_refl HI) H1).
    destruct q1 as [s'|s']; destruct HK as [HHd HK]; (split; [rewrite heads_app in HHd; rewrite <- (app_nil_r (heads acc)) in HHd at 2; apply app_inv_head in HHd; exact HHd|exact HK]). }
  assert (HI0 : cinv [] hs0) by (split; [reflexivity|intros a x []]). specialize (HT X2 X3 HR HC HI0 eq_refl Hq). cbn [app] in HT.
  match type of Hq with snd ?m = _ => destruct (finish_says (fst m) q r) as [F1 F2]; [destruct q; apply HT|exact H|] end.
  split; [exact F1|]. destruct q as [s|s].
  - exists []. rewrite app_nil_r. split; [symmetry; apply HT|auto].
  - destruct HT as [_ (rest & HT)]. exists rest. split; [exact HT|congruence].
Qed.
Lemma c160_quiet_lemma fuel id o : g_verbose o = false -> fst (GradientGridWithV cv gstep fz fuel id o) = [] /\ fst (HybridGradientGridWithV cv gstep fz fuel id o) = [].
Proof.
  intros HV. unfold GradientGridWithV, HybridGradientGridWithV. rewrite HV. split; apply quiet_wbind; try (intros; reflexivity); apply forW_quiet; intros x s.
  - rewrite say_eq. cbn [fst app]. apply forW_quiet. intros md s1. apply climbV_quiet.
  - apply forW_quiet. intros cw s1. rewrite say_eq. cbn [fst app]. apply forW_quiet. intros md s2. apply forW_quiet. intros lam s3. apply climbV_quiet.
Qed.
End Search.
