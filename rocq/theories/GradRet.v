(** Proofs for C140: the gradient searches return. *)
From Coq Require Import Reals Lra Lia.
From Verif Require Import Base F64 F64Lemmas NumErr ErrProofs Env EnvLemmas Utils UtilsProofs Tree Spec Options Train SpecTot TrainTot
  CV SpecCV CVProofs CVTot Grid SpecGrid GridProofs SpecGridTot GridTot Grad GradConc SpecGrad GradProofs GradNum GradTot GradSearch GradDir SpecGradTot.
From Coq Require Import List.
Open Scope Z_scope.
Local Opaque Mx.

(** ** fractions stay non-negative *)
Definition nn (x : f64) : Prop := signOk 1 x.
Lemma nn_le x : fleb fzero x = true -> nn x.
Proof. intros H. apply fleb_true in H as (_ & _ & H). rewrite ext_fzero in H. right. lra. Qed.
Lemma nn_fraction x : nn x -> fractionOk x.
Proof.
  intros [H|H] Hl; apply fltb_true in Hl as (N & _ & _); [congruence|]. apply fleb_true. split; [reflexivity|]. split; [auto|]. rewrite ext_fzero. lra.
Qed.
Lemma nn_add a b : nn a -> nn b -> nn (fadd a b).
Proof.
  intros [HA|HA] HB.
  - left. destruct a; try discriminate HA. destruct b; reflexivity.
  - destruct (nan_or a) as [N|N]; [left; destruct a; try discriminate N; destruct b; reflexivity|].
    destruct (add_sign 1 a b (or_introl eq_refl) N HB) as [H|H]; [left; auto|right; lra].
Qed.
Lemma nan_sub a b : fnanb a = true \/ fnanb b = true -> fnanb (fsub a b) = true.
Proof. intros [H|H]; [destruct a; try discriminate H; destruct b; reflexivity|destruct b; try discriminate H; destruct a; reflexivity]. Qed.
(** the product with a number between 0 and 1 is not larger *)
Lemma mul_shrinks x c : ffinite x = true -> (0 <= B2R x)%R -> ffinite c = true -> (0 <= B2R c <= 1)%R ->
  ffinite (fmul x c) = true /\ (0 <= B2R (fmul x c) <= B2R x)%R.
Proof.
  intros Fx Px Fc Pc. destruct (fmul_ext x c Fx Fc) as [N E]. pose proof (B2R_bounds x) as BX.
  assert (H1 : (0 <= rnd (B2R x * B2R c))%R) by (apply rnd_ge_0; apply Rmult_le_pos; lra).
  assert (H2 : (rnd (B2R x * B2R c) <= B2R x)%R).
  { rewrite <- (rnd_B2R x) at 2. apply rnd_mono. rewrite <- (Rmult_1_r (B2R x)) at 2. apply Rmult_le_compat_l; lra. }
  rewrite clamp_id in E by lra. destruct (finite_B2R _ _ N E) as [F1 V]; [rewrite Rabs_pos_eq by lra; lra|]. rewrite V. auto.
Qed.
Lemma nn_shift (up : bool) fd x : fleb fzero fd = true /\ fleb fd fone = true -> nn x -> nn (if up then fadd x (fmul x fd) else fsub x (fmul x fd)).
Proof.
  intros [D0 D1] Hx. assert (Hd : nn fd) by (apply nn_le; auto). assert (Hm : nn (fmul x fd)) by (apply mul_sign; auto).
  destruct up; [apply nn_add; auto|].
  destruct (nan_or x) as [N|N]; [left; apply nan_sub; auto|]. destruct (nan_or (fmul x fd)) as [M|M]; [left; apply nan_sub; auto|].
  apply sub_sign; auto. destruct Hx as [Hx|Hx]; [congruence|].
  apply fleb_true in D0 as (_ & ND & D0). apply fleb_true in D1 as (_ & _ & D1). rewrite ext_fzero in D0. change (ext fone) with (B2R fone) in D1. rewrite B2R_fone in D1.
  pose proof Mx_pos as MP. assert (FD : ffinite fd = true).
  { apply finite_ext; auto. split; [lra|]. eapply Rle_lt_trans; [exact D1|]. rewrite <- B2R_fone. apply (proj2 (B2R_bounds fone)). }
  rewrite (ext_finite _ FD) in *. destruct (ffinite x) eqn:Fx.
  - rewrite (ext_finite _ Fx) in *. destruct (mul_shrinks x fd Fx ltac:(lra) FD ltac:(lra)) as [F1 V]. rewrite (ext_finite _ F1). lra.
  - assert (HX : ext x = Mx).
    { destruct x as [s|[|]| |s m e B]; try discriminate Fx; [|reflexivity|discriminate N]. cbn [ext] in Hx. lra. }
    rewrite HX. pose proof (ext_bounds (fmul x fd)). lra.
Qed.
Lemma nn_fuzz u neg f q : ffinite u = true -> (0 <= B2R u < 1)%R -> ffinite q = true -> (0 <= B2R q <= 1)%R -> nn f -> nn (fuzz F u neg f q).
Proof.
  intros Fu Hu Fq Hq Hf. destruct (ffinite f) eqn:Ff.
  - destruct Hf as [Hf|Hf]; [rewrite (finite_nnan f Ff) in Hf; discriminate Hf|]. rewrite (ext_finite _ Ff) in Hf.
    destruct (fuzz_float u neg f q Fu Hu Fq Hq Ff) as [HL _]. apply fleb_true in HL as (N1 & N2 & HL). right.
    assert (EA : ffinite (Babs f) = true /\ B2R (Babs f) = B2R f).
    { split; [destruct f; try discriminate Ff; reflexivity|]. rewrite B2R_Babs. apply Rabs_pos_eq. lra. }
    destruct EA as [FA VA]. destruct (mul_shrinks (Babs f) q FA ltac:(lra) Fq Hq) as [F1 V]. rewrite fmul_comm in F1, V.
    destruct (sub_sign 1 f (fmul q (Babs f)) (or_introl eq_refl) (finite_nnan _ Ff) (finite_nnan _ F1)) as [H|H]; [|congruence|].
    + rewrite (ext_finite _ Ff), (ext_finite _ F1). lra.
    + lra.
  - unfold fuzz. cbn [nmul nadd nofZ F]. set (c := fmul _ (fmul u q)). destruct (nan_or (fadd f (fmul c f))) as [N|N]; [left; exact N|]. right.
    destruct f as [s|[|]| |s m e B]; try discriminate Ff; [| |discriminate N].
    + destruct Hf as [Hf|Hf]; [discriminate Hf|]. cbn [ext] in Hf. pose proof Mx_pos. lra.
    + clear -N. clearbody c. pose proof Mx_pos as MP. assert (HP : forall x : f64, fnanb (fadd (B754_infinity false) x) = false -> ext (fadd (B754_infinity false) x) = Mx).
      { intros x. destruct x as [s|[|]| |s m e B]; intros H; try discriminate H; reflexivity. }
      rewrite HP; auto. lra.
Qed.

(** ** the options a search looks at *)
Definition okO (o : Options) : Prop := lossSized (o_loss o) /\ nn (o_ss o) /\ nn (o_css o) /\ (o_xgb o = false \/ 1 <= o_minsample o).
Lemma okO_optsOk o : okO o -> optsOk o.
Proof. intros (H1 & H2 & H3 & H4). split; auto using nn_fraction. destruct H4; auto. Qed.
Lemma okO_raised o o' : raisedMCW o o' -> okO o -> okO o'.
Proof. unfold raisedMCW, okO. intros [_ H]. injection H as E1 _ _ _ _ _ _ E2 E3 _ E4 _ _ E5. rewrite E1, E2, E3, E4, E5. auto. Qed.
Lemma okO_same a b : (o_xgb a, o_minsample a, o_loss a) = (o_xgb b, o_minsample b, o_loss b) -> nn (o_ss a) -> nn (o_css a) -> okO b -> okO a.
Proof. intros H N1 N2 (H1 & _ & _ & H4). injection H as E1 E2 E3. unfold okO. rewrite E1, E2, E3. auto. Qed.
Lemma okO_others a b : othersOf a = othersOf b -> nn (o_ss a) -> nn (o_css a) -> okO b -> okO a.
Proof. unfold othersOf. intros H. injection H as E1 _ _ _ _ E2 _ _ E3. apply okO_same. rewrite E1, E2, E3. reflexivity. Qed.
Lemma okO_Clone o : okO o -> okO (Clone o).
Proof. intros H. apply (okO_same _ o); auto; destruct H as (_ & H1 & H2 & _); auto. Qed.
Lemma inF_nn x r : fleb fzero (r_lo r) = true -> inF x r -> nn x.
Proof.
  intros H0 [H1 _]. destruct (nan_or x) as [N|N]; [left; auto|]. right. apply fleb_true in H0 as (_ & NL & H0). rewrite ext_fzero in H0.
  apply fltb_false in H1; auto. lra.
Qed.
Section Step.
Context (co : GridOptions) (HC : goodClimb co).
Lemma okO_box v c : inBox co v -> othersOf v = othersOf c -> okO c -> okO v.
Proof.
  intros (_ & _ & B3 & B4 & _) HO. apply okO_others; auto.
  - eapply inF_nn; [|exact B3]. apply (gc_ss co HC).
  - eapply inF_nn; [|exact B4]. apply (gc_css co HC).
Qed.
Lemma okO_shifted up p o o' : shifted (g_delta co) up p o o' -> okO o -> okO o'.
Proof.
  intros [[H1 H2] H3] HO. apply (okO_others o' o); auto.
  - assert (HN : nn (o_ss o)) by apply HO. destruct (param_eq_dec p PSubSample) as [->|Hp].
    + cbv zeta in H3. rewrite H3. apply nn_shift; auto. apply (gc_delta co HC).
    + assert (E : paramOf PSubSample o' = paramOf PSubSample o) by (apply H2; congruence). cbn [paramOf] in E. assert (o_ss o' = o_ss o) as -> by congruence. auto.
  - assert (HN : nn (o_css o)) by apply HO. destruct (param_eq_dec p PColSubSample) as [->|Hp].
    + cbv zeta in H3. rewrite H3. apply nn_shift; auto. apply (gc_delta co HC).
    + assert (E : paramOf PColSubSample o' = paramOf PColSubSample o) by (apply H2; congruence). cbn [paramOf] in E. assert (o_css o' = o_css o) as -> by congruence. auto.
Qed.
Lemma okO_copy p v acc : okO v -> okO acc -> okO (copyParam p v acc).
Proof.
  intros HV HA. apply (okO_others _ acc (copy_others p v acc)); auto; destruct p; cbn; try apply HV; apply HA.
Qed.
Lemma okO_fuzz d perc o : (perc = None \/ perc = Some (fdec 2 10)) -> (forall i, ffinite (fst (d i)) = true /\ (0 <= B2R (fst (d i)) < 1)%R) -> okO o -> okO (fuzzOptions d perc o).
Proof.
  intros HP Hd HO. set (q := match perc with Some q => if fltb fzero q then q else fdec 1 10 | None => fdec 1 10 end).
  assert (HQ : ffinite q = true /\ (0 <= B2R q <= 1)%R).
  { pose proof B2R_tenth. pose proof B2R_fifth. unfold q. destruct HP as [-> | ->].
    - split; [vm_compute; reflexivity|lra].
    - replace (fltb fzero (fdec 2 10)) with true by (vm_compute; reflexivity). split; [vm_compute; reflexivity|lra]. }
  destruct HQ as [FQ VQ]. apply (okO_same _ o); auto.
  - change (nn (fuzz F (fst (d 1%nat)) (snd (d 1%nat)) (o_ss o) q)). destruct (Hd 1%nat). apply nn_fuzz; auto. apply HO.
  - change (nn (fuzz F (fst (d 2%nat)) (snd (d 2%nat)) (o_css o) q)). destruct (Hd 2%nat). apply nn_fuzz; auto. apply HO.
Qed.
Lemma nn_mid r : fleb fzero (r_lo r) = true /\ fleb fzero (r_hi r) = true -> nn (fdiv (fadd (r_lo r) (r_hi r)) ftwo).
Proof. intros [H1 H2]. apply div_sign; [left; reflexivity|apply nn_add; apply nn_le; auto|vm_compute; reflexivity]. Qed.
Lemma okO_start id cw md : okO (gradStart id co cw md).
Proof.
  split; [cbn; unfold defaultFor; destruct (g_xgb co); apply lossSized_std|]. split; [apply nn_mid, (gc_ss co HC)|]. split; [apply nn_mid, (gc_css co HC)|].
  cbn. unfold defaultFor. destruct (g_xgb co); [right; cbn; lia|auto].
Qed.
Lemma okO_hybrid id rounds cw md lam : okO (hybridStart id co rounds cw md lam).
Proof.
  split; [cbn; unfold defaultFor; destruct (g_xgb co); apply lossSized_std|]. split; [apply nn_mid, (gc_ss co HC)|]. split; [apply nn_mid, (gc_css co HC)|].
  cbn. unfold defaultFor. destruct (g_xgb co); [right; cbn; lia|auto].
Qed.
(** a step returns options of that kind *)
Lemma step_returns fuel evc evs central Ori : (12 <= fuel)%nat ->
  (forall o, okO o -> exists r, evc o = Ok r /\ forall o', cv_opts r = Some o' -> okO o') -> (forall p up o, okO o -> exists r, evs p up o = Ok r) -> parShape evs ->
  okO Ori -> exists R, GradStep fuel evc evs co (g_step co) (g_delta co) central Ori = Ok R /\ okO R.
Proof.
  intros HF HEc HEs HP HO.
  assert (HB : exists b, gradBegin evc central Ori = Ok b /\ match b with inl (_, o) => okO o | inr o => okO o end).
  { unfold gradBegin. destruct central; [eexists; split; [reflexivity|exact HO]|]. destruct (HEc Ori HO) as (r & -> & Hr). cbn [bind].
    assert (okO (match cv_opts r with Some o' => o' | None => Ori end)) by (destruct (cv_opts r); auto).
    destruct (cv_err r); eexists; (split; [reflexivity|]); auto. }
  destruct HB as (b & HB & Hb). destruct (grad_total fuel co (g_step co) (g_delta co) central HF (gc_step co HC) evc evs Ori b HB) as (R & HR); auto.
  { intros curr o -> p up o' _ Hs. apply HEs. apply (okO_shifted up p (Clone o) o' Hs). apply okO_Clone. exact Hb. }
  exists R. split; auto. unfold GradStep in HR. rewrite HB in HR. cbn [bind] in HR. destruct b as [[curr o]|o]; [|injection HR as <-; auto].
  assert (HG : forall ps acc R, okO acc -> foldM (fun acc p => l <- ParamaterGradStep fuel (evs p) co p (g_step co) (g_delta co) curr central o ;;
     match l with v :: _ => Ok (copyParam p v acc) | [] => Diverge end) acc ps = Ok R -> okO R).
  { clear HR. induction ps as [|p ps IH]; intros acc R' HA HR; cbn [foldM] in HR; [injection HR as <-; auto|]. apply bind_Ok in HR as (acc' & H1 & HR). apply IH in HR; auto.
    apply bind_Ok in H1 as (l & Hl & H1). destruct l as [|v l]; [discriminate H1|]. injection H1 as <-. apply okO_copy; auto.
    destruct (c59_lemma fuel (evs p) co p (g_step co) (g_delta co) curr central (HP p) o (v :: l) v Hl (or_introl eq_refl)) as (c & Hc & _ & Hs & HV).
    assert (okO c). { apply (okO_same c o); auto; unfold copyOf in Hc; injection Hc; intros; try congruence; repeat match goal with H : _ = _ |- _ => rewrite H end; apply Hb. }
    destruct HV as [->|HV]; auto. apply (okO_box v c HV); auto. apply Hs. }
  eapply HG; eauto.
Qed.
End Step.

(** ** the searches *)
Section Climb.
Context (cv : nat -> Options -> res cvRet) (gstep : nat -> Options -> res Options) (fz : nat -> nat -> f64 * bool) (N : nat).
Context (Hcv : forall k o, (k < N)%nat -> okO o -> exists r, cv k o = Ok r /\ forall o', cv_opts r = Some o' -> okO o').
Context (Hgs : forall k o, (k < N)%nat -> okO o -> exists o', gstep k o = Ok o' /\ okO o').
Context (Hfz : forall k i, ffinite (fst (fz k i)) = true /\ (0 <= B2R (fst (fz k i)) < 1)%R).

Definition HI (s : hs) : Prop := Forall okO (h_heap s) /\ forall t, h_final s = Some t -> (t < length (h_heap s))%nat.
Definition cnt (s : hs) : nat := Nat.max (length (h_evals s)) (h_steps s).
Lemma Forall_upd {A} (P : A -> Prop) l : forall t v, Forall P l -> P v -> Forall P (upd_nat l t v).
Proof. induction l as [|x l IH]; intros t v H HV; [destruct t; constructor|]. inversion H; subst. destruct t; cbn; constructor; auto. Qed.
Lemma load_HI t s : HI s -> (t < length (h_heap s))%nat -> exists o, load t s = Ok o /\ okO o.
Proof.
  intros [H _] Ht. destruct (nth_error (h_heap s) t) as [o|] eqn:E; [|apply nth_error_None in E; lia]. exists o. split; [apply load_ok; auto|].
  eapply Forall_forall; [exact H|]. eapply nth_error_In; eauto.
Qed.
Lemma store_HI t o s : HI s -> okO o -> HI (store t o s) /\ length (h_heap (store t o s)) = length (h_heap s).
Proof.
  intros [H1 H2] Ho. unfold store. cbn [h_heap h_final]. split; [split; [apply Forall_upd; auto|]|apply upd_nat_length].
  cbn [h_heap h_final]. intros t' Ht. rewrite upd_nat_length. auto.
Qed.
Lemma fuzz_ret perc t s : (perc = None \/ perc = Some (fdec 2 10)) -> HI s -> (t < length (h_heap s))%nat -> exists s', fuzzAt fz perc t s = Ok s' /\ HI s' /\
  length (h_heap s') = length (h_heap s) /\ h_evals s' = h_evals s /\ h_steps s' = h_steps s.
Proof.
  intros HP HH Ht. unfold fuzzAt. destruct (load_HI t s HH Ht) as (o & -> & Ho). cbn [bind]. eexists. split; [reflexivity|].
  destruct (store_HI t (fuzzOptions (fz (h_fuzz s)) perc o) s HH) as [S1 S2]; [apply okO_fuzz; auto|].
  split; [exact S1|]. split; [exact S2|]. auto.
Qed.
Lemma compare_ret t tp s : HI s -> (t < length (h_heap s))%nat -> (tp < length (h_heap s))%nat -> (length (h_evals s) < N)%nat ->
  exists r s', compareAccs cv fz t tp s = Ok (r, s') /\ HI s' /\ length (h_heap s') = length (h_heap s) /\
    (length (h_evals s') <= S (length (h_evals s)))%nat /\ h_steps s' = h_steps s /\ forall t', r = Some t' -> (t' < length (h_heap s'))%nat.
Proof.
  intros HH Ht Hp Hn. unfold compareAccs. destruct (load_HI t s HH Ht) as (o & -> & Ho). cbn [bind]. destruct (Hcv _ o Hn Ho) as (r & -> & Hr). cbn [bind].
  assert (Ho' : okO (match cv_opts r with Some o' => o' | None => o end)) by (destruct (cv_opts r); auto).
  set (o' := match cv_opts r with Some o' => o' | None => o end) in *. destruct (store_HI t o' s HH Ho') as [S1 S2]. cbv zeta.
  destruct (cv_err r).
  - exists None. eexists. split; [reflexivity|]. split; [exact S1|]. split; [exact S2|]. split; [cbn; lia|]. split; [reflexivity|discriminate].
  - set (s1 := MkHS (h_heap (store t o' s)) (h_accs (store t o' s)) (h_best (store t o' s)) (h_final (store t o' s)) (h_evals (store t o' s) ++ [(o, o', cv_acc r)]) (h_steps (store t o' s)) (h_fuzz (store t o' s))).
    assert (H1 : HI s1) by exact S1. assert (L1 : length (h_heap s1) = length (h_heap s)) by exact S2.
    assert (E1 : length (h_evals s1) = S (length (h_evals s))) by (cbn; rewrite app_length; cbn; lia). assert (T1 : h_steps s1 = h_steps s) by reflexivity. clearbody s1.
    destruct (match rev (h_accs s1) with [] => false | la :: _ => fltb (cv_acc r) la end).
    + destruct (fuzz_ret None tp s1) as (s2 & -> & F1 & F2 & F3 & F4); auto; [lia|]. cbn [bind]. exists (Some tp), s2. split; [reflexivity|]. split; [auto|]. split; [lia|]. split; [rewrite F3; lia|]. split; [congruence|].
      intros t' Et. injection Et as <-. lia.
    + destruct (fltb (h_best s1) (cv_acc r)).
      * exists (Some t). eexists. split; [reflexivity|]. cbn [h_heap h_evals h_steps]. split; [split; [apply H1|]|].
        -- cbn [h_final h_heap]. intros t' Et. injection Et as <-. lia.
        -- split; [auto|]. split; [lia|]. split; [auto|]. intros t' Et. injection Et as <-. lia.
      * exists (Some t), s1. split; [reflexivity|]. split; [auto|]. split; [auto|]. split; [lia|]. split; [auto|]. intros t' Et. injection Et as <-. lia.
Qed.
Lemma steps_ret : forall n k t s, HI s -> (t < length (h_heap s))%nat -> (length (h_evals s) + n <= N)%nat -> (h_steps s + n <= N)%nat ->
  exists r, climbSteps cv gstep fz n k t s = Ok r /\
    match r with inl s' => HI s' /\ (length (h_evals s') <= length (h_evals s) + n)%nat /\ (h_steps s' <= h_steps s + n)%nat | inr _ => True end.
Proof.
  induction n as [|n IH]; intros k t s HH Ht He Hs; cbn [climbSteps].
  - eexists. split; [reflexivity|]. split; [auto|lia].
  - destruct (load_HI t s HH Ht) as (o & -> & Ho). cbn [bind]. unfold alloc. cbn [h_steps].
    destruct (Hgs (h_steps s) o) as (o' & -> & Ho'); [lia|auto|]. cbn [bind].
    set (s0 := MkHS (h_heap s ++ [Clone o]) (h_accs s) (h_best s) (h_final s) (h_evals s) (h_steps s) (h_fuzz s)).
    assert (H0 : HI s0).
    { destruct HH as [A1 A2]. split; cbn [s0 h_heap h_final]; [apply Forall_app; split; auto; constructor; auto; apply okO_Clone; auto|].
      intros t' Et. rewrite app_length. cbn. specialize (A2 _ Et). lia. }
    assert (L0 : length (h_heap s0) = S (length (h_heap s))) by (cbn; rewrite app_length; cbn; lia).
    destruct (store_HI t o' s0 H0 Ho') as [S1 S2].
    set (s1 := MkHS (h_heap (store t o' s0)) (h_accs (store t o' s0)) (h_best (store t o' s0)) (h_final (store t o' s0)) (h_evals (store t o' s0)) (S (h_steps (store t o' s0))) (h_fuzz (store t o' s0))).
    assert (H1 : HI s1) by exact S1. assert (L1 : length (h_heap s1) = S (length (h_heap s))) by (rewrite <- L0; exact S2).
    assert (E1 : h_evals s1 = h_evals s) by reflexivity. assert (T1 : h_steps s1 = S (h_steps s)) by reflexivity.
    destruct (load_HI (length (h_heap s)) s1 H1) as (o1 & Ho1 & _); [lia|]. fold s0. fold s1. rewrite Ho1. cbn [bind]. clearbody s1. clear s0 H0 L0 S1 S2 Ho1.
    destruct (Equal o' o1).
    + destruct (fuzz_ret (Some (fdec 2 10)) t s1) as (s2 & -> & F1 & F2 & F3 & F4); auto; [lia|]. cbn [bind]. destruct (k + 1 =? 3).
      * eexists. split; [reflexivity|]. split; [auto|]. rewrite F3, F4, E1. lia.
      * destruct (IH (k + 1) t s2) as (r & Hr & HR); auto; try (rewrite ?F3, ?F4, ?E1; lia). exists r. split; auto. destruct r; auto. rewrite F3, F4, E1 in HR. destruct HR as (R1 & R2 & R3). split; [auto|lia].
    + destruct (compare_ret t (length (h_heap s)) s1) as (r1 & s2 & -> & C1 & C2 & C3 & C4 & C5); auto; try lia; try (rewrite E1; lia). cbn [bind]. destruct r1 as [t'|]; [|exists (inr s2); auto]. rewrite E1 in C3.
      destruct (IH 0 t' s2) as (r & Hr & HR); auto; try lia. exists r. split; auto. destruct r; auto. destruct HR as (R1 & R2 & R3). split; [auto|lia].
Qed.
Lemma climb_ret n o s : okO o -> HI s -> (cnt s + S (Z.to_nat n) <= N)%nat ->
  exists r, climb cv gstep fz n o s = Ok r /\ match r with inl s' => HI s' /\ (cnt s' <= cnt s + S (Z.to_nat n))%nat | inr _ => True end.
Proof.
  intros Ho HH Hn. unfold cnt in *. unfold climb, alloc. cbn [h_heap h_accs h_best h_final h_evals h_steps h_fuzz].
  set (s1 := MkHS ((h_heap s ++ [o]) ++ [Clone o]) (h_accs s) (h_best s) (h_final s) (h_evals s) (h_steps s) (h_fuzz s)).
  assert (L1 : length (h_heap s1) = S (S (length (h_heap s)))) by (cbn; rewrite !app_length; cbn; lia).
  assert (H1 : HI s1).
  { destruct HH as [A1 A2]. split.
    - cbn [s1 h_heap]. apply Forall_app. split; [apply Forall_app; split; auto|]; constructor; auto.
    - intros t' Et. specialize (A2 _ Et). lia. }
  assert (E1 : h_evals s1 = h_evals s) by reflexivity. assert (T1 : h_steps s1 = h_steps s) by reflexivity.
  assert (LL : length (h_heap s ++ [o]) = S (length (h_heap s))) by (rewrite app_length; cbn; lia). clearbody s1.
  destruct (compare_ret (length (h_heap s)) (length (h_heap s ++ [o])) s1) as (r1 & s2 & -> & C1 & C2 & C3 & C4 & C5); auto; try lia; try (rewrite E1; lia).
  cbn [bind]. destruct r1 as [t'|]; [|exists (inr s2); auto]. rewrite E1 in C3.
  destruct (steps_ret (Z.to_nat n) 0 t' s2) as (r & Hr & HR); auto; try lia. exists r. split; auto. destruct r; auto. destruct HR as (R1 & R2 & R3). split; [auto|lia].
Qed.
(** a loop over a list *)
Lemma fold_ret {A} (b : A -> hs -> res (hs + hs)) c l : (forall x s, In x l -> HI s -> (cnt s + c <= N)%nat ->
    exists r, b x s = Ok r /\ match r with inl s' => HI s' /\ (cnt s' <= cnt s + c)%nat | inr _ => True end) ->
  forall s, HI s -> (cnt s + length l * c <= N)%nat -> exists r, foldE b l s = Ok r /\ match r with inl s' => HI s' /\ (cnt s' <= cnt s + length l * c)%nat | inr _ => True end.
Proof.
  induction l as [|x l IH]; intros HB s HH Hn; cbn [foldE length] in *.
  - eexists. split; [reflexivity|]. split; [auto|lia].
  - destruct (HB x s) as (r & -> & Hr); [left; auto|auto|lia|]. cbn [bind]. destruct r as [s'|e]; [|exists (inr e); auto]. destruct Hr as [H1 H2].
    destruct IH with (s := s') as (r2 & -> & H3); auto; [intros; apply HB; auto; right; auto|lia|]. exists r2. split; auto. destruct r2; auto. destruct H3. split; [auto|lia].
Qed.
Lemma finish_ret r : match r with inl s => HI s | inr _ => True end -> exists x, ggFinish r = Ok x /\ forall o, gg_opts x = Some o -> okO o.
Proof.
  destruct r as [s|s]; cbn [ggFinish]; [|intros _; eexists; split; [reflexivity|discriminate]]. intros HH.
  destruct (h_final s) as [t|] eqn:Ef; [|eexists; split; [reflexivity|discriminate]].
  destruct (load_HI t s HH) as (o & -> & Ho); [apply HH; auto|]. cbn [bind]. eexists. split; [reflexivity|]. cbn [gg_opts]. intros o' Eo. injection Eo as <-. exact Ho.
Qed.
End Climb.
Lemma HI0 : HI hs0. Proof. split; [constructor|]. intros t H. discriminate H. Qed.

(** ** with real cross-validations *)
Section Real.
Context {K : Type} (E : Env) (q : oracles) (id : Z) (D : DataBunch K) (nfold : Z).
Hypothesis HE : EnvOk E.
Hypothesis HG : goodTable (Data D).
Hypothesis H2 : (2 <= length (Data D))%nat.
Hypothesis HL : length (Labels D) = length (Data D).
Hypothesis HS : sizesOk (Data D).
Hypothesis HQ : goodOracles (length (Data D)) q.

(** how long the splits take does not depend on the options *)
Lemma cv_uniform ints rndf nf conc : goodInts (length (Data D)) ints -> exists F, forall fuel o, (F <= fuel)%nat -> okO o ->
  exists r, MultiClassCrossValidation E fuel ints rndf id D nf (Some o) conc = Ok r /\ forall o', cv_opts r = Some o' -> okO o'.
Proof.
  intros [HV HF]. destruct (CVS_terminates D ints nf H2 HV HF) as (F & [[n so] e] & Hc). exists F. intros fuel o Hf Ho.
  assert (HR : exists r, MultiClassCrossValidation E fuel ints rndf id D nf (Some o) conc = Ok r).
  { apply (CVS_more _ _ _ _ _ _ Hf) in Hc. unfold MultiClassCrossValidation. rewrite Hc. cbn [bind].
    apply CVS_inv in Hc as (_ & [(_ & -> & -> & ->)|(U2 & Hn & _ & s & -> & E1 & E2 & E3 & HGF)]); auto.
    - cbn. eauto.
    - destruct (e && Nat.eqb n 0)%bool; [eauto|].
      assert (Hq : (2 <= length (Data D) / n)%nat) by (rewrite Hn; apply used_min; [auto|exact U2]).
      destruct (cvLoop_ex E HE D rndf id HG HL HS n 0 s (Some o) fzero E1) as [[accus O'] ->]; rewrite ?E2; auto; try lia; [apply okO_optsOk; auto|].
      cbn [bind]. eauto. }
  destruct HR as (r & Hr). exists r. split; auto. pose proof (c54_lemma E fuel ints rndf id D nf (Some o) conc r HV HL Hr) as C. cbv zeta in C.
  intros o' Eo. destruct (cv_err r).
  - destruct C as (_ & _ & C & _). rewrite Eo in C. assert (o' = o) as -> by congruence. auto.
  - rewrite Eo in C. destruct C as (_ & ? & ? & ? & _ & _ & _ & _ & _ & HM & _). eapply okO_raised; eauto.
Qed.
Lemma up_to (P : nat -> nat -> Prop) : (forall k, exists F, forall fuel, (F <= fuel)%nat -> P k fuel) -> forall n, exists F, forall fuel k, (F <= fuel)%nat -> (k < n)%nat -> P k fuel.
Proof.
  intros H. induction n as [|n (F & IH)]; [exists 0%nat; lia|]. destruct (H n) as (F' & H'). exists (max F F'). intros fuel k Hf Hk.
  destruct (Nat.eq_dec k n) as [->|]; [apply H'; lia|apply IH; lia].
Qed.
Definition evalsOk (co : GridOptions) (N fuel : nat) : Prop :=
  (forall k o, (k < N)%nat -> okO o -> exists r, searchCV E fuel q id D k o = Ok r /\ forall o', cv_opts r = Some o' -> okO o') /\
  (forall k o, (k < N)%nat -> okO o -> exists o', searchStep E fuel q id D nfold co k o = Ok o' /\ okO o').
Lemma evals_ex co N : goodClimb co -> exists F, forall fuel, (F <= fuel)%nat -> evalsOk co N fuel.
Proof.
  intros HC. destruct HQ as (Q1 & Q2 & Q3 & _).
  destruct (up_to (fun k fuel => forall o, okO o -> exists r, searchCV E fuel q id D k o = Ok r /\ forall o', cv_opts r = Some o' -> okO o')) with (n := N) as (F1 & HF1).
  { intros k. destruct (cv_uniform (fst (q_cv q k)) (snd (q_cv q k)) 5 false (Q1 k)) as (F & HF). exists F. intros fuel Hf o Ho. apply HF; auto. }
  destruct (up_to (fun k fuel => forall o, okO o -> exists o', searchStep E fuel q id D nfold co k o = Ok o' /\ okO o')) with (n := N) as (F2 & HF2).
  { intros k. destruct (cv_uniform (fst (q_cur q k)) (snd (q_cur q k)) nfold false (Q2 k)) as (F & HF).
    assert (HP : exists F, forall fuel, (F <= fuel)%nat -> forall p up o, okO o ->
      exists r, MultiClassCrossValidation E fuel (fst (q_par q k p up)) (snd (q_par q k p up)) id D nfold (Some o) true = Ok r).
    { assert (H1 : forall p up, exists F, forall fuel, (F <= fuel)%nat -> forall o, okO o -> exists r, MultiClassCrossValidation E fuel (fst (q_par q k p up)) (snd (q_par q k p up)) id D nfold (Some o) true = Ok r).
      { intros p up. destruct (cv_uniform (fst (q_par q k p up)) (snd (q_par q k p up)) nfold true (Q3 k p up)) as (F' & HF'). exists F'. intros fuel Hf o Ho. destruct (HF' fuel o Hf Ho) as (r & Hr & _). eauto. }
      assert (H3 : forall p, exists F, forall fuel, (F <= fuel)%nat -> forall up o, okO o -> exists r, MultiClassCrossValidation E fuel (fst (q_par q k p up)) (snd (q_par q k p up)) id D nfold (Some o) true = Ok r).
      { intros p. destruct (H1 p true) as (Fa & Ha). destruct (H1 p false) as (Fb & Hb). exists (max Fa Fb). intros fuel Hf [|] o Ho; [apply Ha|apply Hb]; auto; lia. }
      destruct (H3 PGamma) as (f1 & h1). destruct (H3 PLambda) as (f2 & h2). destruct (H3 PSubSample) as (f3 & h3). destruct (H3 PColSubSample) as (f4 & h4).
      destruct (H3 PLearningRate) as (f5 & h5). destruct (H3 PRounds) as (f6 & h6). destruct (H3 PCurr) as (f7 & h7). destruct (H3 POther) as (f8 & h8).
      exists (f1 + f2 + f3 + f4 + f5 + f6 + f7 + f8)%nat. intros fuel Hf p. destruct p; [apply h1|apply h2|apply h3|apply h4|apply h5|apply h6|apply h7|apply h8]; lia. }
    destruct HP as (F' & HF'). exists (12 + F + F')%nat. intros fuel Hf o Ho. unfold searchStep. apply step_returns; auto.
    - lia.
    - intros o1 Ho1. apply HF; auto. lia.
    - intros p up o1 Ho1. apply HF'; auto. lia.
    - intros p up o1 r Hr. eapply MCCV_shape; eauto. }
  exists (max F1 F2). intros fuel Hf. split; intros k o Hk Ho; [apply HF1|apply HF2]; auto; lia.
Qed.
Lemma gg_returns o : goodClimb o -> exists fuel r, GradientGrid E fuel q id D nfold (Some o) = Ok r /\ forall o', gg_opts r = Some o' -> okO o'.
Proof.
  intros HC. destruct (axisF _ (gc_mcw o HC)) as (lw & HW & _). destruct (axisZ _ (gc_maxdepth o HC)) as (ld & HD & _).
  set (c := S (Z.to_nat (g_nsteps o))). set (N := (length lw * (length ld * c))%nat). destruct (evals_ex o N HC) as (F & HF).
  set (fuel := (F + S (length lw + length ld))%nat). destruct (HF fuel ltac:(unfold fuel; lia)) as [EV1 EV2]. destruct HQ as (_ & _ & _ & HFz).
  exists fuel. unfold GradientGrid, GradientGridWith.
  set (body := fun cw md => climb (searchCV E fuel q id D) (searchStep E fuel q id D nfold o) (q_fuzz q) (g_nsteps o) (gradStart id o cw md)).
  assert (HB : exists r, forF fuel (g_mcw o) (fun cw => forZ fuel (g_maxdepth o) (body cw)) hs0 = Ok r /\ match r with inl s => HI s | inr _ => True end).
  { unfold forF. rewrite (forLoop_enough fleb fadd _ _ _ (fun cw => foldE (body cw) ld) lw); auto; [|intros cw s _; unfold forZ; apply (forLoop_enough Z.leb Z.add); auto; unfold fuel; lia|unfold fuel; lia].
    destruct (fold_ret N (fun cw => foldE (body cw) ld) (length ld * c) lw) with (s := hs0) as (r & Hr & HR).
    - intros cw s _ HH Hn. apply fold_ret with (N := N); auto. intros md s' _ HH' Hn'. apply climb_ret with (N := N); auto. apply okO_start; auto.
    - exact HI0.
    - unfold N. cbn. lia.
    - exists r. split; auto. destruct r; auto. apply HR. }
  destruct HB as (r & Hr & HR). unfold body in Hr. rewrite Hr. cbn [bind]. apply finish_ret. exact HR.
Qed.
Lemma hybrid_returns o : goodClimb o -> 1 <= r_step (g_rounds o) -> fairStep (g_lambda o) -> exists fuel r, HybridGradientGrid E fuel q id D nfold (Some o) = Ok r /\ forall o', gg_opts r = Some o' -> okO o'.
Proof.
  intros HC HR0 HLm. destruct (axisF _ (gc_mcw o HC)) as (lw & HW & _). destruct (axisZ _ (gc_maxdepth o HC)) as (ld & HD & _).
  destruct (axisZ _ HR0) as (lr & HR & _). destruct (axisF _ HLm) as (ll & HLl & _).
  set (c := S (Z.to_nat (g_nsteps o))). set (N := (length lr * (length lw * (length ld * (length ll * c))))%nat). destruct (evals_ex o N HC) as (F & HF).
  set (fuel := (F + S (length lw + length ld + length lr + length ll))%nat). destruct (HF fuel ltac:(unfold fuel; lia)) as [EV1 EV2]. destruct HQ as (_ & _ & _ & HFz).
  exists fuel. unfold HybridGradientGrid, HybridGradientGridWith.
  set (body := fun rounds cw md lam => climb (searchCV E fuel q id D) (searchStep E fuel q id D nfold o) (q_fuzz q) (g_nsteps o) (hybridStart id o rounds cw md lam)).
  assert (HB : exists r, forZ fuel (g_rounds o) (fun rounds => forF fuel (g_mcw o) (fun cw => forZ fuel (g_maxdepth o) (fun md => forF fuel (g_lambda o) (body rounds cw md)))) hs0 = Ok r /\ match r with inl s => HI s | inr _ => True end).
  { assert (HX : forZ fuel (g_rounds o) (fun rounds => forF fuel (g_mcw o) (fun cw => forZ fuel (g_maxdepth o) (fun md => forF fuel (g_lambda o) (body rounds cw md)))) hs0 =
      foldE (fun rounds => foldE (fun cw => foldE (fun md => foldE (body rounds cw md) ll) ld) lw) lr hs0).
    { unfold forZ at 1. apply (forLoop_enough Z.leb Z.add); auto; [|unfold fuel; lia]. intros rounds s _. unfold forF at 1. apply (forLoop_enough fleb fadd); auto; [|unfold fuel; lia].
      intros cw s1 _. unfold forZ. apply (forLoop_enough Z.leb Z.add); auto; [|unfold fuel; lia]. intros md s2 _. unfold forF. apply (forLoop_enough fleb fadd); auto. unfold fuel; lia. }
    rewrite HX. destruct (fold_ret N (fun rounds => foldE (fun cw => foldE (fun md => foldE (body rounds cw md) ll) ld) lw) (length lw * (length ld * (length ll * c))) lr) with (s := hs0) as (r & Hr & Hr2).
    - intros rounds s _ HH Hn. apply fold_ret with (N := N); auto. intros cw s1 _ HH1 Hn1. apply fold_ret with (N := N); auto. intros md s2 _ HH2 Hn2.
      apply fold_ret with (N := N); auto. intros lam s3 _ HH3 Hn3. apply climb_ret with (N := N); auto. apply okO_hybrid; auto.
    - exact HI0.
    - unfold N. cbn. lia.
    - exists r. split; auto. destruct r; auto. apply Hr2. }
  destruct HB as (r & Hr & HB). unfold body in Hr. rewrite Hr. cbn [bind]. apply finish_ret. exact HB.
Qed.
End Real.
