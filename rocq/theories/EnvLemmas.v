(** Facts about [is_sum] and satisfiability of [EnvOk] (proof support). *)
From Coq Require Import Reals Lra.
From Verif Require Import Base F64 F64Lemmas Env.
Open Scope R_scope.

(** "not NaN and >= 0" in terms of the Go comparison *)
Definition fnn (x : f64) : Prop := fleb fzero x = true.

Lemma ext_fzero : ext fzero = 0. Proof. reflexivity. Qed.
Lemma fnn_iff x : fnn x <-> fnanb x = false /\ 0 <= ext x.
Proof. unfold fnn. rewrite fleb_true, ext_fzero. simpl. intuition. Qed.

Lemma fadd_fnn a b : fnn a -> fnn b -> fnn (fadd a b) /\ ext a <= ext (fadd a b) /\ ext b <= ext (fadd a b).
Proof.
  rewrite !fnn_iff. intros [Na Ha] [Nb Hb].
  pose proof Mx_pos as HM.
  destruct (ffinite a) eqn:Fa, (ffinite b) eqn:Fb.
  - destruct (fadd_ext a b Fa Fb) as [N E]. rewrite E. rewrite (ext_finite a Fa), (ext_finite b Fb) in *.
    pose proof (B2R_bounds a). pose proof (B2R_bounds b).
    assert (Ga : B2R a <= rnd (B2R a + B2R b)).
    { rewrite <- (rnd_B2R a) at 1. apply rnd_mono. lra. }
    assert (Gb : B2R b <= rnd (B2R a + B2R b)).
    { rewrite <- (rnd_B2R b) at 1. apply rnd_mono. lra. }
    assert (Ka : B2R a <= clamp (rnd (B2R a + B2R b))).
    { apply Rle_trans with (clamp (B2R a)); [rewrite clamp_id; lra|apply clamp_mono; auto]. }
    assert (Kb : B2R b <= clamp (rnd (B2R a + B2R b))).
    { apply Rle_trans with (clamp (B2R b)); [rewrite clamp_id; lra|apply clamp_mono; auto]. }
    repeat split; auto; lra.
  - destruct b as [s|[|]| |s m e H]; try discriminate; simpl in Hb; try lra.
    pose proof (ext_bounds a).
    destruct a as [s1|s1| |s1 m1 e1 H1]; try discriminate; simpl in *; repeat split; lra.
  - destruct a as [s|[|]| |s m e H]; try discriminate; simpl in Ha; try lra.
    pose proof (ext_bounds b).
    destruct b as [s1|s1| |s1 m1 e1 H1]; try discriminate; simpl in *; repeat split; lra.
  - destruct a as [s|[|]| |s m e H]; try discriminate; simpl in Ha; try lra.
    destruct b as [s1|[|]| |s1 m1 e1 H1]; try discriminate; simpl in Hb; try lra.
    simpl. repeat split; lra.
Qed.

Lemma is_sum_nn l s : is_sum l s -> Forall fnn l -> fnn s /\ forall x, In x l -> ext x <= ext s.
Proof.
  intros H; induction H as [|x|l1 l2 a b H1 IH1 H2 IH2|l1 l2 a P H IH]; intros HF.
  - split; [reflexivity|intros x []].
  - inversion HF; subst. split; auto. intros y [<-|[]]. lra.
  - apply Forall_app in HF as [HF1 HF2]. destruct (IH1 HF1) as [A1 B1]. destruct (IH2 HF2) as [A2 B2].
    destruct (fadd_fnn a b A1 A2) as (A & B & C). split; auto.
    intros x Hx. apply in_app_iff in Hx as [Hx|Hx].
    + specialize (B1 x Hx). lra.
    + specialize (B2 x Hx). lra.
  - assert (HF1 : Forall fnn l1).
    { eapply Permutation_Forall; [apply Permutation_sym; exact P|auto]. }
    destruct (IH HF1) as [A B]. split; auto. intros x Hx. apply B.
    eapply Permutation_in; [apply Permutation_sym; exact P|auto].
Qed.

Lemma exp_go_nan x : fnanb (exp_go x) = fnanb x.
Proof.
  unfold exp_go. destruct (fnanb x) eqn:E; [reflexivity|]. cbv zeta.
  destruct (fnanb (exp_raw x)) eqn:E1; [reflexivity|]. destruct (fltb (exp_raw x) fzero); [reflexivity|]. exact E1.
Qed.
Lemma exp_go_pos x : fltb (exp_go x) fzero = false.
Proof.
  unfold exp_go. destruct (fnanb x); [reflexivity|]. cbv zeta.
  destruct (fnanb (exp_raw x)) eqn:E1; [reflexivity|]. destruct (fltb (exp_raw x) fzero) eqn:E2; [reflexivity|]. exact E2.
Qed.

Theorem env0_ok : EnvOk env0.
Proof.
  constructor.
  - apply isort_perm.
  - apply isort_sorted.
  - apply sum_left_ok.
  - apply exp_go_nan.
  - apply exp_go_pos.
Qed.
