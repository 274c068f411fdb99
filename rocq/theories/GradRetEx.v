(** Gradient searches: how many evaluations, when an error, the default grid (C140). *)
From Coq Require Import Reals Lra Lia.
From Verif Require Import Base F64 F64Lemmas NumErr ErrEx Env EnvLemmas Utils Tree Spec SpecTot Options Train CV SpecCV CVProofs CVEx CVTotEx Grid SpecGrid GridProofs SpecGridTot GridTot GridTotEx
  Grad GradConc SpecGrad GradProofs GradSearch GradEx SpecGradTot GradRet.
From Coq Require Import List.
Open Scope Z_scope.

(** ** the number of evaluations *)
Section Count.
Context (cv : nat -> Options -> res cvRet) (gstep : nat -> Options -> res Options) (fz : nat -> nat -> f64 * bool).
Definition nev (s : hs) : nat := length (h_evals s).
Definition grows (c : nat) (s : hs) (r : hs + hs) : Prop := (match r with inl s' => nev s' | inr s' => nev s' end <= nev s + c)%nat.
Lemma fuzz_nev perc t s s' : fuzzAt fz perc t s = Ok s' -> nev s' = nev s.
Proof. intros H. apply fuzzAt_inv in H as (_ & _ & _ & H). unfold nev. congruence. Qed.
Lemma compare_nev t tp s r s' : compareAccs cv fz t tp s = Ok (r, s') -> (nev s' <= S (nev s))%nat.
Proof.
  unfold compareAccs. intros H. apply bind_Ok in H as (o & _ & H). apply bind_Ok in H as (c & _ & H). cbv zeta in H. destruct (cv_err c).
  - assert (E : s' = store t match cv_opts c with Some o' => o' | None => o end s) by congruence. rewrite E. unfold nev. cbn. lia.
  - set (s1 := MkHS _ _ _ _ (_ ++ _) _ _) in H. assert (E1 : nev s1 = S (nev s)) by (unfold nev; cbn; rewrite app_length; cbn; lia). clearbody s1.
    destruct (match rev (h_accs s1) with [] => false | la :: _ => fltb (cv_acc c) la end).
    + apply bind_Ok in H as (s2 & Hf & H). apply fuzz_nev in Hf. assert (s' = s2) as -> by congruence. lia.
    + destruct (fltb (h_best s1) (cv_acc c)).
      * assert (E : s' = MkHS (h_heap s1) (h_accs s1 ++ [cv_acc c]) (cv_acc c) (Some t) (h_evals s1) (h_steps s1) (h_fuzz s1)) by congruence. rewrite E. unfold nev in *. cbn [h_evals]. lia.
      * assert (s' = s1) as -> by congruence. lia.
Qed.
Lemma steps_nev : forall n k t s r, climbSteps cv gstep fz n k t s = Ok r -> grows n s r.
Proof.
  unfold grows. induction n as [|n IH]; intros k t s r H; cbn [climbSteps] in H.
  - assert (r = inl s) as -> by congruence. lia.
  - apply bind_Ok in H as (o & _ & H). unfold alloc in H. apply bind_Ok in H as (o' & _ & H). cbv zeta in H. apply bind_Ok in H as (o1 & _ & H).
    set (s1 := MkHS _ _ _ _ _ (S _) _) in H. assert (E1 : nev s1 = nev s) by reflexivity. clearbody s1. destruct (Equal o' o1).
    + apply bind_Ok in H as (s2 & Hf & H). apply fuzz_nev in Hf. destruct (k + 1 =? 3); [assert (r = inl s2) as -> by congruence; lia|]. apply IH in H. lia.
    + apply bind_Ok in H as ([r1 s2] & Hc & H). apply compare_nev in Hc. destruct r1 as [t'|]; [apply IH in H; lia|]. assert (r = inr s2) as -> by congruence. lia.
Qed.
Lemma climb_nev n o s r : climb cv gstep fz n o s = Ok r -> grows (S (Z.to_nat n)) s r.
Proof.
  unfold climb, alloc, grows. cbn [h_heap h_accs h_best h_final h_evals h_steps h_fuzz]. intros H. apply bind_Ok in H as ([r1 s2] & Hc & H). apply compare_nev in Hc.
  set (s1 := MkHS _ _ _ _ _ _ _) in Hc. assert (E1 : nev s1 = nev s) by reflexivity. destruct r1 as [t'|]; [apply steps_nev in H; unfold grows in H; lia|].
  assert (r = inr s2) as -> by congruence. lia.
Qed.
Lemma fold_nev {A} (b : A -> hs -> res (hs + hs)) c l : (forall x s r, b x s = Ok r -> grows c s r) -> forall s r, foldE b l s = Ok r -> grows (length l * c) s r.
Proof.
  unfold grows. intros HB. induction l as [|x l IH]; intros s r H; cbn [foldE length] in *.
  - assert (r = inl s) as -> by congruence. lia.
  - apply bind_Ok in H as (q & Hq & H). apply HB in Hq. destruct q as [s1|e]; [apply IH in H; lia|]. assert (r = inr e) as -> by congruence. lia.
Qed.
Lemma finish_nev r x : ggFinish r = Ok x -> length (gg_evals x) = match r with inl s => nev s | inr s => nev s end.
Proof.
  destruct r as [s|s]; cbn [ggFinish]; intros H; [|injection H as <-; reflexivity].
  destruct (h_final s); [apply bind_Ok in H as (o & _ & H)|]; injection H as <-; reflexivity.
Qed.
Lemma gg_count fuel id o r lw ld : GradientGridWith cv gstep fz fuel id o = Ok r -> rangeF (g_mcw o) lw -> rangeZ (g_maxdepth o) ld ->
  (length (gg_evals r) <= length lw * (length ld * S (Z.to_nat (g_nsteps o))))%nat.
Proof.
  unfold GradientGridWith. intros H HW HD. apply bind_Ok in H as (q & Hq & H). rewrite (finish_nev _ _ H).
  assert (HX : foldE (fun cw => foldE (fun md => climb cv gstep fz (g_nsteps o) (gradStart id o cw md)) ld) lw hs0 = Ok q).
  { revert Hq. apply forLoop_Ok; auto. intros cw s r1. apply forLoop_Ok; auto. }
  eapply fold_nev in HX; [exact HX|]. intros cw s r1 H1. eapply fold_nev in H1; [exact H1|]. intros md s' r2. apply climb_nev.
Qed.
Lemma hyb_count fuel id o r lr lw ld ll : HybridGradientGridWith cv gstep fz fuel id o = Ok r -> rangeZ (g_rounds o) lr -> rangeF (g_mcw o) lw -> rangeZ (g_maxdepth o) ld -> rangeF (g_lambda o) ll ->
  (length (gg_evals r) <= length lr * (length lw * (length ld * (length ll * S (Z.to_nat (g_nsteps o))))))%nat.
Proof.
  unfold HybridGradientGridWith. intros H HR HW HD HL. apply bind_Ok in H as (q & Hq & H). rewrite (finish_nev _ _ H).
  assert (HX : foldE (fun rounds => foldE (fun cw => foldE (fun md => foldE (fun lam => climb cv gstep fz (g_nsteps o) (hybridStart id o rounds cw md lam)) ll) ld) lw) lr hs0 = Ok q).
  { revert Hq. apply forLoop_Ok; auto. intros rounds s r1. apply forLoop_Ok; auto. intros cw s1 r2. apply forLoop_Ok; auto. intros md s2 r3. apply forLoop_Ok; auto. }
  eapply fold_nev in HX; [exact HX|]. intros rounds s r1 H1. eapply fold_nev in H1; [exact H1|]. intros cw s1 r2 H2. eapply fold_nev in H2; [exact H2|].
  intros md s2 r3 H3. eapply fold_nev in H3; [exact H3|]. intros lam s3 r4. apply climb_nev.
Qed.
End Count.

(** ** errors *)
Lemma cv5_err {K} E fuel q id (D : DataBunch K) k o c : goodOracles (length (Data D)) q -> length (Labels D) = length (Data D) ->
  searchCV E fuel q id D k o = Ok c -> cv_err c = true <-> (length (Data D) < 4)%nat.
Proof.
  intros (HQ & _) HL H. unfold searchCV in H. pose proof (c54_lemma E fuel (fst (q_cv q k)) (snd (q_cv q k)) id D 5 (Some o) false c (proj1 (HQ k)) HL H) as C. cbv zeta in C.
  change (requested 5) with 5%nat in C. pose proof (Nat.div_mod (length (Data D)) 2 ltac:(lia)) as DM. pose proof (Nat.mod_upper_bound (length (Data D)) 2 ltac:(lia)).
  destruct (cv_err c); destruct C as (C & _); split; intros; try discriminate; auto; lia.
Qed.
Lemma noerr_gen {K} E fuel q id (D : DataBunch K) r : goodOracles (length (Data D)) q -> length (Labels D) = length (Data D) -> (4 <= length (Data D))%nat ->
  searchOk (searchCV E fuel q id D) r -> gg_err r = false.
Proof.
  intros HQ HL H4 [_ H]. destruct (gg_err r) eqn:Er; auto. destruct H as (_ & _ & _ & o & c & Hc & He). exfalso.
  apply (cv5_err E fuel q id D _ o c HQ HL Hc) in He. lia.
Qed.
Lemma gg_noerr {K} E fuel q id (D : DataBunch K) nfold options r : goodOracles (length (Data D)) q -> length (Labels D) = length (Data D) -> (4 <= length (Data D))%nat ->
  GradientGrid E fuel q id D nfold options = Ok r \/ HybridGradientGrid E fuel q id D nfold options = Ok r -> gg_err r = false.
Proof. intros HQ HL H4 [H|H]; [apply gg_ok in H|apply hyb_ok in H]; eapply noerr_gen; eauto. Qed.
Lemma none_gen {K} E fuel q id (D : DataBunch K) r : goodOracles (length (Data D)) q -> length (Labels D) = length (Data D) -> (length (Data D) < 4)%nat ->
  searchOk (searchCV E fuel q id D) r -> gg_evals r = [].
Proof.
  intros HQ HL H4 [H _]. destruct (gg_evals r) as [|[[o o'] a] l]; auto. exfalso. destruct (H 0%nat o o' a eq_refl) as (c & Hc & He & _).
  apply (cv5_err E fuel q id D 0%nat o c HQ HL Hc) in H4. congruence.
Qed.
Lemma gg_error {K} E fuel q id (D : DataBunch K) nfold o r : goodOracles (length (Data D)) q -> length (Labels D) = length (Data D) -> (length (Data D) < 4)%nat ->
  fleb (r_lo (g_mcw o)) (r_hi (g_mcw o)) = true -> r_lo (g_maxdepth o) <= r_hi (g_maxdepth o) -> goodClimb o ->
  GradientGrid E fuel q id D nfold (Some o) = Ok r -> gg_err r = true /\ gg_acc r = fofZ (-1) /\ gg_accuracies r = [] /\ gg_opts r = None.
Proof.
  intros HQ HL H4 W D0 HC H. pose proof (gg_ok _ _ _ _ _ _ _ _ H) as HO. pose proof (none_gen _ _ _ _ _ _ HQ HL H4 HO) as HN.
  destruct (gg_err r) eqn:Er; [destruct HO as [_ HO]; rewrite Er in HO; destruct HO as (H1 & H2 & H3 & _); auto|]. exfalso.
  destruct (axisF _ (gc_mcw o HC)) as (lw & HW & _). destruct (axisZ _ (gc_maxdepth o HC)) as (ld & HD & _).
  assert (IW : In (r_lo (g_mcw o)) lw) by (inversion HW as [x Hx|x l Hx HX]; subst; [congruence|left; reflexivity]).
  apply Z.leb_le in D0. assert (ID : In (r_lo (g_maxdepth o)) ld) by (inversion HD as [x Hx|x l Hx HX]; subst; [congruence|left; reflexivity]).
  destruct (gg_search _ _ _ _ _ _ _ H) as [_ HS]. destruct (HS Er lw ld HW HD _ _ IW ID) as (o' & a & Hin). rewrite HN in Hin. destruct Hin.
Qed.
Lemma hyb_error {K} E fuel q id (D : DataBunch K) nfold o r : goodOracles (length (Data D)) q -> length (Labels D) = length (Data D) -> (length (Data D) < 4)%nat ->
  fleb (r_lo (g_mcw o)) (r_hi (g_mcw o)) = true -> r_lo (g_maxdepth o) <= r_hi (g_maxdepth o) -> r_lo (g_rounds o) <= r_hi (g_rounds o) -> fleb (r_lo (g_lambda o)) (r_hi (g_lambda o)) = true ->
  goodClimb o -> 1 <= r_step (g_rounds o) -> fairStep (g_lambda o) ->
  HybridGradientGrid E fuel q id D nfold (Some o) = Ok r -> gg_err r = true /\ gg_acc r = fofZ (-1) /\ gg_accuracies r = [] /\ gg_opts r = None.
Proof.
  intros HQ HL H4 W D0 R0 L0 HC CR CL H. pose proof (hyb_ok _ _ _ _ _ _ _ _ H) as HO. pose proof (none_gen _ _ _ _ _ _ HQ HL H4 HO) as HN.
  destruct (gg_err r) eqn:Er; [destruct HO as [_ HO]; rewrite Er in HO; destruct HO as (H1 & H2 & H3 & _); auto|]. exfalso.
  destruct (axisF _ (gc_mcw o HC)) as (lw & HW & _). destruct (axisZ _ (gc_maxdepth o HC)) as (ld & HD & _). destruct (axisZ _ CR) as (lr & HR & _). destruct (axisF _ CL) as (ll & HLl & _).
  assert (IW : In (r_lo (g_mcw o)) lw) by (inversion HW as [x Hx|x l Hx HX]; subst; [congruence|left; reflexivity]).
  assert (IL : In (r_lo (g_lambda o)) ll) by (inversion HLl as [x Hx|x l Hx HX]; subst; [congruence|left; reflexivity]).
  apply Z.leb_le in D0, R0. assert (ID : In (r_lo (g_maxdepth o)) ld) by (inversion HD as [x Hx|x l Hx HX]; subst; [congruence|left; reflexivity]).
  assert (IR : In (r_lo (g_rounds o)) lr) by (inversion HR as [x Hx|x l Hx HX]; subst; [congruence|left; reflexivity]).
  destruct (hyb_search _ _ _ _ _ _ _ H) as [_ HS]. destruct (HS Er lr lw ld ll HR HW HD HLl _ _ _ _ IR IW ID IL) as (o' & a & Hin). rewrite HN in Hin. destruct Hin.
Qed.

(** ** the default grid *)
Lemma defaultX_climb : goodClimb DefaultXGridOptions /\ 1 <= r_step (g_rounds DefaultXGridOptions) /\ fairStep (g_lambda DefaultXGridOptions).
Proof.
  pose proof defaultX_good as G. split; [|split; [apply G|apply G]]. split; try apply G.
  - split; vm_compute; reflexivity.
  - split; vm_compute; reflexivity.
  - split; vm_compute; reflexivity.
  - intros _. vm_compute. reflexivity.
Qed.
Lemma gOr_good : goodOracles (length (Data exCV)) gOr.
Proof.
  destruct ex_c100 as (_ & _ & _ & _ & _ & H6 & H7). split; [|split; [|split]]; try (intros; split; [exact H6|exact H7]).
  intros k i. cbn [gOr q_fuzz fst]. split; [vm_compute; reflexivity|].
  assert (E : B2SF (fdec 5 10) = SpecFloat.S754_finite false 4503599627370496 (-53)) by (vm_compute; reflexivity).
  rewrite (B2R_SF (fdec 5 10)), E. cbn [SF2R]. unfold F2R. cbn [Fnum Fexp cond_Zopp].
  replace (bpow radix2 (-53)) with (/ 9007199254740992)%R by (cbn; lra). lra.
Qed.
Lemma ex_c140 : goodTable (Data exCV) /\ (4 <= length (Data exCV))%nat /\ length (Labels exCV) = length (Data exCV) /\ sizesOk (Data exCV) /\
  goodOracles (length (Data exCV)) gOr /\ goodClimb DefaultXGridOptions /\ 1 <= r_step (g_rounds DefaultXGridOptions) /\ fairStep (g_lambda DefaultXGridOptions).
Proof.
  destruct ex_c100 as (H1 & _ & H3 & H4 & _). split; [auto|]. split; [cbn; lia|]. split; [auto|]. split; [auto|]. split; [exact gOr_good|exact defaultX_climb].
Qed.
Lemma gradient_returns {K} E q id (D : DataBunch K) nfold options : EnvOk E -> goodTable (Data D) -> (2 <= length (Data D))%nat ->
  length (Labels D) = length (Data D) -> sizesOk (Data D) -> goodOracles (length (Data D)) q -> (forall o, options = Some o -> goodClimb o) ->
  exists fuel r, GradientGrid E fuel q id D nfold options = Ok r /\ forall o, gg_opts r = Some o -> optsOk o.
Proof.
  intros HE HG H2 HL HS HQ HO. assert (HC : goodClimb (match options with Some o => o | None => DefaultXGridOptions end)) by (destruct options as [o|]; [apply HO; reflexivity|exact (proj1 defaultX_climb)]).
  destruct (gg_returns E q id D nfold HE HG H2 HL HS HQ _ HC) as (fuel & r & Hr & Ho). exists fuel, r. split; [exact Hr|]. intros o Eo. apply okO_optsOk, Ho, Eo.
Qed.
Lemma hybridgrid_returns {K} E q id (D : DataBunch K) nfold options : EnvOk E -> goodTable (Data D) -> (2 <= length (Data D))%nat ->
  length (Labels D) = length (Data D) -> sizesOk (Data D) -> goodOracles (length (Data D)) q ->
  (forall o, options = Some o -> goodClimb o /\ 1 <= r_step (g_rounds o) /\ fairStep (g_lambda o)) ->
  exists fuel r, HybridGradientGrid E fuel q id D nfold options = Ok r /\ forall o, gg_opts r = Some o -> optsOk o.
Proof.
  intros HE HG H2 HL HS HQ HO. set (o0 := match options with Some o => o | None => DefaultXGridOptions end).
  assert (HC : goodClimb o0 /\ 1 <= r_step (g_rounds o0) /\ fairStep (g_lambda o0)) by (unfold o0; destruct options as [o|]; [apply HO; reflexivity|exact defaultX_climb]).
  destruct HC as (C1 & C2 & C3). destruct (hybrid_returns E q id D nfold HE HG H2 HL HS HQ o0 C1 C2 C3) as (fuel & r & Hr & Ho). exists fuel, r. split; [exact Hr|]. intros o Eo. apply okO_optsOk, Ho, Eo.
Qed.
Lemma gradient_count {K} E fuel q id (D : DataBunch K) nfold o r lw ld : GradientGrid E fuel q id D nfold (Some o) = Ok r -> rangeF (g_mcw o) lw -> rangeZ (g_maxdepth o) ld ->
  (length (gg_evals r) <= length lw * (length ld * S (Z.to_nat (g_nsteps o))))%nat.
Proof. intros H. eapply gg_count; eauto. Qed.
Lemma hybrid_count {K} E fuel q id (D : DataBunch K) nfold o r lr lw ld ll : HybridGradientGrid E fuel q id D nfold (Some o) = Ok r ->
  rangeZ (g_rounds o) lr -> rangeF (g_mcw o) lw -> rangeZ (g_maxdepth o) ld -> rangeF (g_lambda o) ll ->
  (length (gg_evals r) <= length lr * (length lw * (length ld * (length ll * S (Z.to_nat (g_nsteps o))))))%nat.
Proof. intros H. eapply hyb_count; eauto. Qed.
