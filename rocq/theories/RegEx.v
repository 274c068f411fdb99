(** Concrete cases for C135. *)
From Verif Require Import Base F64 F64Lemmas Env EnvLemmas Utils Tree Options Spec Examples TrainEx ConfuEx ErrProofs SpecReg.
From Coq Require Import List.
Open Scope Z_scope.

Definition tenths (l : list Z) : list f64 := map (fun z => fdec z 10) l.
Definition xo (w lam gam : f64) (g h : list f64) (md : Z) : TreeOptions := MkTO true w [] lam gam (Some g) (Some h) [] None None md None.

Lemma harsher_gamma o g : fleb (to_gamma o) g = true -> harsher o (withGamma o g).
Proof. intros H. unfold harsher. cbn [withGamma to_xgb to_grads to_hess to_y to_lambda to_mcw to_gamma]. repeat split; auto. lia. Qed.
Lemma harsher_mcw o w : (ftoZ (to_mcw o) <=? ftoZ w) && negb (fnanb (to_gamma o)) = true -> harsher o (withMCW o w).
Proof.
  intros H. apply andb_prop in H as [H1 H2]. apply Z.leb_le in H1. unfold harsher. cbn [withMCW to_xgb to_grads to_hess to_y to_lambda to_mcw to_gamma]. repeat split; auto.
  intros _. apply fleb_refl. destruct (fnanb (to_gamma o)); auto.
Qed.
Lemma harsher_both o g w : (ftoZ (to_mcw o) <=? ftoZ w) && fleb (to_gamma o) g = true -> harsher o (withGamma (withMCW o w) g).
Proof.
  intros H. apply andb_prop in H as [H1 H2]. apply Z.leb_le in H1. unfold harsher. cbn [withGamma withMCW to_xgb to_grads to_hess to_y to_lambda to_mcw to_gamma]. auto 10.
Qed.
Lemma gamma_same o g : withGamma o g = withGamma o (to_gamma (withGamma o g)). Proof. reflexivity. Qed.
Lemma mcw_same o g : withMCW o g = withMCW o (to_mcw (withMCW o g)). Proof. reflexivity. Qed.
Lemma lambda_same o g : withLambda o g = withLambda o (to_lambda (withLambda o g)). Proof. reflexivity. Qed.

(** a larger Gamma gives a larger tree: 6 rows, 2 columns *)
Definition gamX : list (list f64) := mat [[2; 0]; [1; 2]; [2; 2]; [0; 1]; [1; 0]; [0; 1]].
Definition gamO : TreeOptions := xo fone fzero fzero (tenths [5; -8; -8; 9; -9; -1]) (vec [1; 1; 1; 1; 1; 1]) 4.
Lemma ex_gamma : exists o o' t t', harsher o o' /\ o' = withGamma o (to_gamma o') /\ NewTree env0 gamX o = Ok t /\ NewTree env0 gamX o' = Ok t' /\
  Branches t = Ok 7 /\ Branches t' = Ok 9.
Proof.
  exists gamO, (withGamma gamO (flit 1 (-53))).
  destruct (ok_ex (NewTree env0 gamX gamO) (fun t => match Branches t with Ok z => z =? 7 | _ => false end)) as (t & Ht & H1); [vm_compute; reflexivity|].
  destruct (ok_ex (NewTree env0 gamX (withGamma gamO (flit 1 (-53)))) (fun t => match Branches t with Ok z => z =? 9 | _ => false end)) as (t' & Ht' & H2); [vm_compute; reflexivity|].
  exists t, t'. split; [|split; [apply gamma_same|split; [exact Ht|split; [exact Ht'|]]]].
  - apply harsher_gamma. vm_compute. reflexivity.
  - destruct (Branches t) as [z| |]; try discriminate H1. destruct (Branches t') as [z'| |]; try discriminate H2. apply Z.eqb_eq in H1, H2. subst. auto.
Qed.

(** a larger MinChildWeight gives a larger tree: 10 rows, 2 columns *)
Definition mcwX : list (list f64) := mat [[8; 5]; [5; 10]; [6; 5]; [9; 7]; [2; 9]; [3; 4]; [6; 5]; [3; 9]; [4; 9]; [3; 8]].
Definition mcwO : TreeOptions := xo fone fone fzero (vec [1; 2; 1; -1; 1; 2; 0; 2; 0; 0]) (vec [1; 1; 1; 1; 1; 1; 1; 1; 1; 1]) 3.
Lemma ex_mcw : exists o o' t t', harsher o o' /\ o' = withMCW o (to_mcw o') /\ NewTree env0 mcwX o = Ok t /\ NewTree env0 mcwX o' = Ok t' /\
  Branches t = Ok 3 /\ Branches t' = Ok 5.
Proof.
  exists mcwO, (withMCW mcwO (fZ 2)).
  destruct (ok_ex (NewTree env0 mcwX mcwO) (fun t => match Branches t with Ok z => z =? 3 | _ => false end)) as (t & Ht & H1); [vm_compute; reflexivity|].
  destruct (ok_ex (NewTree env0 mcwX (withMCW mcwO (fZ 2))) (fun t => match Branches t with Ok z => z =? 5 | _ => false end)) as (t' & Ht' & H2); [vm_compute; reflexivity|].
  exists t, t'. split; [|split; [apply mcw_same|split; [exact Ht|split; [exact Ht'|]]]].
  - apply harsher_mcw. vm_compute. reflexivity.
  - destruct (Branches t) as [z| |]; try discriminate H1. destruct (Branches t') as [z'| |]; try discriminate H2. apply Z.eqb_eq in H1, H2. subst. auto.
Qed.

(** a larger Lambda makes a leaf splittable, by rounding *)
Definition lamX : list (list f64) := mat [[0]; [1]; [2]].
Definition lamO : TreeOptions := xo fone fzero fzero (tenths [14; 6; 4]) (tenths [7; 3; 2]) 3.
Lemma ex_lambda : exists o o' t t', o' = withLambda o (to_lambda o') /\ fleb (to_lambda o) (to_lambda o') = true /\ NewTree env0 lamX o = Ok t /\ NewTree env0 lamX o' = Ok t' /\
  Leaf t = Ok true /\ Leaf t' = Ok false.
Proof.
  exists lamO, (withLambda lamO (flit 1 (-53))).
  destruct (ok_ex (NewTree env0 lamX lamO) (fun t => match Leaf t with Ok b => b | _ => false end)) as (t & Ht & H1); [vm_compute; reflexivity|].
  destruct (ok_ex (NewTree env0 lamX (withLambda lamO (flit 1 (-53)))) (fun t => match Leaf t with Ok b => negb b | _ => false end)) as (t' & Ht' & H2); [vm_compute; reflexivity|].
  exists t, t'. split; [apply lambda_same|]. split; [vm_compute; reflexivity|]. split; [exact Ht|]. split; [exact Ht'|].
  destruct (Leaf t) as [[]| |]; try discriminate H1. destruct (Leaf t') as [[]| |]; try discriminate H2. auto.
Qed.

(** the hypotheses of the positive statements: the tree of [exX] with Gamma 0, and with Gamma 100 and MinChildWeight 2 *)
Lemma ex_harsher : exists o o' t t' d l r d' l' r', harsher o o' /\ NewTree env0 exX o = Ok t /\ NewTree env0 exX o' = Ok t' /\
  t = Node d l r /\ t' = Node d' l' r' /\ samplesOf d' = samplesOf d /\ 0 < to_maxdepth o /\ t_leaf d = true /\ fltb (to_gamma o) (to_gamma o') = true /\ ftoZ (to_mcw o) < ftoZ (to_mcw o').
Proof.
  set (o1 := withGamma exO (fZ 100)). exists o1, (withGamma (withMCW o1 (fZ 2)) (fZ 200)).
  destruct (ok_ex (NewTree env0 exX o1) (fun t => match t with Node d _ _ => t_leaf d && (zl_eqb (samplesOf d) [0; 1; 2; 3]) | Nil => false end)) as (t & Ht & H1); [vm_compute; reflexivity|].
  destruct (ok_ex (NewTree env0 exX (withGamma (withMCW o1 (fZ 2)) (fZ 200))) (fun t => match t with Node d _ _ => zl_eqb (samplesOf d) [0; 1; 2; 3] | Nil => false end)) as (t' & Ht' & H2); [vm_compute; reflexivity|].
  destruct t as [|d l r]; try discriminate H1. destruct t' as [|d' l' r']; try discriminate H2. apply andb_prop in H1 as [A B]. apply zl_eq in B, H2.
  exists (Node d l r), (Node d' l' r'), d, l, r, d', l', r'. split; [|do 2 (split; [assumption|]); do 2 (split; [reflexivity|]); split; [congruence|]; split; [vm_compute; reflexivity|]; split; [exact A|]; split; vm_compute; reflexivity].
  apply harsher_both. vm_compute. reflexivity.
Qed.

Lemma ex_lambda_value : exists o o' t t' d l r d' l' r' g h, NewTree env0 lamX o = Ok t /\ NewTree env0 lamX o' = Ok t' /\
  t = Node d l r /\ t' = Node d' l' r' /\ to_xgb o = true /\ to_xgb o' = true /\ to_grads o' = to_grads o /\ to_hess o' = to_hess o /\ samplesOf d' = samplesOf d /\
  Forall2 (look (orNil (to_grads o))) (samplesOf d) g /\ Forall2 (look (orNil (to_hess o))) (samplesOf d) h /\
  ffinite (e_sum env0 g) = true /\ ffinite (e_sum env0 h) = true /\ ffinite (to_lambda o) = true /\ ffinite (to_lambda o') = true /\
  fltb fzero (fadd (e_sum env0 h) (to_lambda o)) = true /\ fleb (to_lambda o) (to_lambda o') = true /\ fltb (magnitude (t_value d')) (magnitude (t_value d)) = true.
Proof.
  destruct (ok_ex (t <- NewTree env0 lamX lamO ;; t' <- NewTree env0 lamX (withLambda lamO fone) ;; Ok (t, t'))
    (fun p => match p with
      | (Node d _ _, Node d' _ _) => zl_eqb (samplesOf d) [0; 1; 2] && zl_eqb (samplesOf d') [0; 1; 2] && fltb (magnitude (t_value d')) (magnitude (t_value d))
      | _ => false end)) as ([t t'] & Ht & H); [vm_compute; reflexivity|].
  apply bind_Ok in Ht as (u & Hu & Ht). apply bind_Ok in Ht as (u' & Hu' & Ht). assert (Eu : (u, u') = (t, t')) by (exact (Ok_inj' _ _ Ht)).
  destruct t as [|d l r]; try discriminate H. destruct t' as [|d' l' r']; try discriminate H. pose proof (f_equal fst Eu) as E1. pose proof (f_equal snd Eu) as E2. cbn [fst snd] in E1, E2. subst u u'.
  apply andb_prop in H as [H H3]. apply andb_prop in H as [H1 H2]. apply zl_eq in H1, H2.
  exists lamO, (withLambda lamO fone), (Node d l r), (Node d' l' r'), d, l, r, d', l', r', (tenths [14; 6; 4]), (tenths [7; 3; 2]).
  rewrite H1, H2. do 4 (split; [assumption || reflexivity|]). do 5 (split; [reflexivity|]).
  split; [repeat constructor; lia|]. split; [repeat constructor; lia|]. repeat (split; [vm_compute; reflexivity|]). exact H3.
Qed.
