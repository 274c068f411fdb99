(** Totality of the gradient steps, and zero parameters. *)
From Coq Require Import Reals Lra.
From Verif Require Import Base F64 F64Lemmas Env EnvLemmas Utils Tree Options Train Spec CV SpecCV CVProofs Grid SpecGrid GridProofs Grad GradConc SpecGrad GradProofs GradNum.
Open Scope Z_scope.

Lemma received_total r : sentShape r -> exists a, received r = Ok (cv_err r, a).
Proof. unfold sentShape, received. intros ->. destruct (cv_err r); eauto. Qed.
Section Tot.
Context (fuel : nat) (co : GridOptions) (step fd : f64) (central : bool).
Context (HF : (12 <= fuel)%nat) (HS : fltb fzero step = true -> fleb (flit 1 (-990)) step = true).

Lemma par_total eval p curr Op : p <> POther ->
  (forall up o', shifted fd up p (Clone Op) o' -> exists r, eval up o' = Ok r /\ sentShape r) -> exists l, ParamaterGradStep fuel eval co p step fd curr central Op = Ok l.
Proof.
  intros Hp HE. unfold ParamaterGradStep. set (c := Clone Op) in *.
  destruct (nudge_total fd true p c Hp) as (pO & Hpo). destruct (nudge_total fd false p c Hp) as (mO & Hmo).
  destruct (HE true pO (nudge_spec _ _ _ _ _ Hpo)) as (rp & Hrp & Sp). destruct (HE false mO (nudge_spec _ _ _ _ _ Hmo)) as (rm & Hrm & Sm).
  destruct (received_total rp Sp) as (pa & Pa). destruct (received_total rm Sm) as (ma & Ma).
  assert (HR : forall der, exists l, (if fltb (fmul (fdec 1 10) step) step then
      match move co der step p c with
      | None => Ok [ASend0]
      | Some O1 => O' <- trialLoop fuel co p der step step c (Clone c) ;; Ok [AMut O1; ASendV (if checkAgainstOptions O' co then O' else Clone c)]
      end
    else Ok [ASendV (if checkAgainstOptions c co then c else Clone c)]) = Ok l).
  { intros der. destruct (fltb (fmul (fdec 1 10) step) step); [|eexists; reflexivity]. destruct (move co der step p c); [|eexists; reflexivity].
    destruct (trial_total co p der step (Clone c) c fuel HF HS) as (O' & ->). cbn [bind]. eauto. }
  assert (HG : exists l, gradActs fuel eval co p step fd curr central Op = Ok l).
  { unfold gradActs. fold c. change (Clone c) with c in *. rewrite Hpo. cbn [bind]. destruct central.
    - rewrite Hmo. cbn [bind]. rewrite Hrp. cbn [bind]. rewrite Pa. cbn [bind]. rewrite Hrm. cbn [bind]. rewrite Ma. cbn [bind].
      match goal with |- context[centralDer F ?a ?b ?h] => destruct (HR (centralDer F a b h)) as (l & ->) end. cbn [bind]. eauto.
    - cbn [bind]. rewrite Hrp. cbn [bind]. rewrite Pa. cbn [bind]. destruct (fltb _ fzero); [eauto|].
      match goal with |- context[forwardDer F ?a ?b ?h] => destruct (HR (forwardDer F a b h)) as (l & ->) end. cbn [bind]. eauto. }
  destruct HG as (l & ->). cbn [bind]. eauto.
Qed.
Lemma grad_total evc evs Ori b : gradBegin evc central Ori = Ok b ->
  (forall curr o, b = inl (curr, o) -> forall p up o', In p gradOrder -> shifted fd up p (Clone o) o' -> exists r, evs p up o' = Ok r) -> parShape evs ->
  exists R, GradStep fuel evc evs co step fd central Ori = Ok R.
Proof.
  intros HB HE HP. unfold GradStep. rewrite HB. cbn [bind]. destruct b as [[curr o]|o]; [|eauto].
  assert (HG : forall ps acc, (forall p, In p ps -> In p gradOrder) -> exists R, foldM (fun acc p => l <- ParamaterGradStep fuel (evs p) co p step fd curr central o ;;
     match l with v :: _ => Ok (copyParam p v acc) | [] => Diverge end) acc ps = Ok R).
  { induction ps as [|p ps IH]; intros acc HN; cbn [foldM]; [eauto|]. assert (Hp : In p gradOrder) by (apply HN; left; reflexivity).
    destruct (par_total (evs p) p curr o) as (l & Hl).
    - intros ->. cbn in Hp. intuition discriminate.
    - intros up o' Ho. destruct (HE curr o eq_refl p up o' Hp Ho) as (r & Hr). exists r. split; [exact Hr|eapply HP; exact Hr].
    - rewrite Hl. cbn [bind]. destruct (par_spec fuel (evs p) co p step fd curr central (HP p) o _ Hl) as (n & w & -> & _).
      assert (HX : exists v l', repeat (Clone o) n ++ [w] = v :: l') by (destruct n; cbn; eauto). destruct HX as (v & l' & ->). cbn [bind]. apply IH. intros q Hq. apply HN. right. exact Hq. }
  apply HG. auto.
Qed.
Lemma shifted_nudge up p o o' : In p gradOrder -> shifted fd up p o o' -> nudge fd up p o = Ok o'.
Proof.
  intros Hp [[H1 H2] H3]. destruct (nudge_total fd up p o) as (o2 & H4); [intros ->; cbn in Hp; intuition discriminate|]. rewrite H4. f_equal.
  apply nudge_spec in H4 as [[H5 H6] H7]. apply opts_ext; [congruence|]. intros q. destruct (param_eq_dec q p) as [->|Hq]; [|rewrite H2, H6 by auto; reflexivity].
  destruct p; cbn in Hp; try (intuition discriminate; fail); cbn in *; congruence.
Qed.
End Tot.

(** a parameter whose value is zero, forward differences, same accuracy *)
Lemma fsub_self a : ffinite a = true -> exists s, fsub a a = B754_zero s.
Proof.
  intros Fa. destruct (fsub_ext a a Fa Fa) as [N E]. rewrite Rminus_diag_eq in E by reflexivity. rewrite rnd_0 in E. rewrite clamp_id in E by (pose proof Mx_pos; lra).
  destruct (finite_B2R _ 0%R N E) as [F1 H1]; [rewrite Rabs_R0; apply Mx_pos|]. destruct (fsub a a) as [s|s| |s m e B]; try discriminate F1; [eauto|].
  exfalso. cbn in H1. apply eq_0_F2R in H1. destruct s; discriminate H1.
Qed.
Lemma fmul_zero a : ffinite a = true -> exists s, fmul a fzero = B754_zero s.
Proof. destruct a as [s|s| |s m e B]; intros H; try discriminate H; eexists; reflexivity. Qed.
Lemma inF_nan r : inF fnan r.
Proof. split; [apply fcmp_nan_l|apply fcmp_nan_r]. Qed.
Lemma fnan_ops x : fmul fnan x = fnan /\ fadd fzero fnan = fnan. Proof. split; reflexivity. Qed.
Lemma move_nan co st p o : paramOf p o = inl fzero -> inBox co o -> exists o1, move co fnan st p o = Some o1 /\ paramOf p o1 = inl fnan /\ inBox co o1.
Proof.
  intros HP (B1 & B2 & B3 & B4 & B5 & B6 & B7 & B8 & B9). pose proof (inF_nan) as HN.
  destruct p; try discriminate HP; injection HP as HP; eexists; (split; [reflexivity|]); cbn [paramOf o_gamma o_lambda o_ss o_css o_lr set_gamma set_lambda set_ss set_css set_lr]; rewrite HP; (split; [reflexivity|]);
    unfold inBox; cbn; repeat split; first [apply B1|apply B2|apply B3|apply B4|apply B5|apply B6|apply B7|apply B8|exact B9|apply fcmp_nan_l|apply fcmp_nan_r].
Qed.
Lemma par_nan fuel eval co p step fd curr Op r : (1 <= fuel)%nat -> fltb (fmul (fdec 1 10) step) step = true -> ffinite fd = true -> ffinite curr = true ->
  paramOf p Op = inl fzero -> inBox co Op ->
  (forall o', shifted fd true p (Clone Op) o' -> eval true o' = Ok r) -> sentShape r -> cv_err r = false -> cv_acc r = curr ->
  exists v, ParamaterGradStep fuel eval co p step fd curr false Op = Ok [v] /\ paramOf p v = inl fnan.
Proof.
  intros Hfu Hst Ffd Fc HP HB HE HSh He Ha. assert (Hp : p <> POther) by (intros ->; discriminate HP). set (c := Clone Op) in *.
  destruct (nudge_total fd true p c Hp) as (pO & Hpo). assert (Pc : paramOf p c = inl fzero) by (unfold c; rewrite paramOf_Clone; exact HP).
  assert (HV : currentValue c p = fzero) by (destruct p; try discriminate HP; injection Pc as Pc; exact Pc).
  destruct (fmul_zero fd Ffd) as (s1 & H1). destruct (fsub_self curr Fc) as (s2 & H2).
  assert (HD : forwardDer F (cv_acc r) curr (fmul fd (currentValue c p)) = fnan).
  { unfold forwardDer. rewrite HV, Ha. cbn [ndiv nsub F]. rewrite H1, H2. reflexivity. }
  destruct (move_nan co step p c Pc HB) as (o1 & M1 & M2 & M3). apply check_box in M3.
  exists o1. split; [|exact M2]. unfold ParamaterGradStep, gradActs. fold c. change (Clone c) with c. rewrite Hpo. cbn [bind].
  rewrite (HE pO (nudge_spec _ _ _ _ _ Hpo)). cbn [bind]. assert (received r = Ok (false, cv_acc r)) as ->.
  { unfold received. rewrite HSh, He. reflexivity. }
  cbn [bind]. rewrite HV at 1. rewrite H1 at 1. assert (fltb (B754_zero s1) fzero = false) as -> by (destruct s1; reflexivity). rewrite HD, Hst, M1.
  destruct fuel as [|f]; [lia|]. cbn [trialLoop]. rewrite Hst, M1, M3. cbn [bind]. rewrite M3. reflexivity.
Qed.

(** the smallest step: st never changes *)
Definition tiny : f64 := flit 1 (-1074).
Lemma tiny_facts : fltb (fmul (fdec 1 10) tiny) tiny = true /\ fsub tiny (fmul tiny (fdec 2 10)) = tiny.
Proof.
  split; [vm_compute; reflexivity|]. apply B2SF_inj. vm_compute. reflexivity.
Qed.
Lemma trial_stuck co p der prev : (forall O, (O = prev \/ O = Clone prev) -> exists O1, move co der tiny p O = Some O1 /\ checkAgainstOptions O1 co = false) ->
  forall fuel O, (O = prev \/ O = Clone prev) -> trialLoop fuel co p der tiny tiny O prev = Diverge.
Proof.
  destruct tiny_facts as [T1 T2]. intros HM fuel. induction fuel as [|f IH]; intros O HO; [reflexivity|]. cbn [trialLoop]. rewrite T1. destruct (HM O HO) as (O1 & -> & ->).
  rewrite T2. apply IH. auto.
Qed.
Lemma check_ms o co : o_minsample o < 1 -> checkAgainstOptions o co = false.
Proof. intros H. destruct (checkAgainstOptions o co) eqn:E; auto. apply check_box in E. destruct E as (_ & _ & _ & _ & _ & _ & _ & _ & E). lia. Qed.
(** options with MinSample below 1 never get out of the loop *)
Lemma par_stuck fuel eval co p fd curr Op : In p gradOrder -> o_minsample Op < 1 -> fltb (fmul fd (currentValue Op p)) fzero = false ->
  (forall o', shifted fd true p (Clone Op) o' -> exists r, eval true o' = Ok r /\ sentShape r) ->
  forall l, ParamaterGradStep fuel eval co p tiny fd curr false Op <> Ok l.
Proof.
  intros Hp HM Hh HE l H. unfold ParamaterGradStep, gradActs in H. set (c := Clone Op) in *. change (Clone c) with c in H.
  assert (Hpo : p <> POther) by (intros ->; cbn in Hp; intuition discriminate). destruct (nudge_total fd true p c Hpo) as (pO & HN). rewrite HN in H. cbn [bind] in H.
  destruct (HE pO (nudge_spec _ _ _ _ _ HN)) as (r & Hr & HS). rewrite Hr in H. cbn [bind] in H. destruct (received_total r HS) as (a & Ha). rewrite Ha in H. cbn [bind] in H.
  assert (EV : currentValue c p = currentValue Op p) by (destruct p; reflexivity). rewrite EV, Hh in H. destruct tiny_facts as [T1 T2]. rewrite T1 in H.
  match type of H with context[forwardDer F ?x ?y ?h] => set (der := forwardDer F x y h) in * end.
  destruct (move co der tiny p c) as [O1|] eqn:EM; [|apply move_none in EM; destruct EM as [-> | ->]; cbn in Hp; intuition discriminate].
  rewrite trial_stuck in H; [discriminate H| |auto].
  intros O [-> | ->].
  - exists O1. split; [exact EM|]. apply check_ms. apply move_same in EM. destruct EM as [EM _]. unfold othersOf in EM. injection EM. intros. cbn in *. lia.
  - exists O1. split; [exact EM|]. apply check_ms. apply move_same in EM. destruct EM as [EM _]. unfold othersOf in EM. injection EM. intros. cbn in *. lia.
Qed.
