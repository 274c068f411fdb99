(** Examples for C143. *)
From Coq Require Import Reals Lra.
From Verif Require Import Base F64 F64Lemmas Env EnvLemmas Utils Tree Spec Options Train UtilsProofs TreeProofs TreeSplit TreeThms SpecTrain TrainProofs TreeInv SpecCols ColProofs Examples TrainEx.
From Coq Require Import List.
Open Scope Z_scope.

(** a test for [noTies] *)
Fixpoint noTiesB (E : Env) (X : list (list f64)) (o : TreeOptions) (n : nat) (A : list Z) (t : tree) : bool :=
  match t with
  | Nil => true
  | Node d l r =>
      (t_leaf d || forallb (fun f => (f =? t_split d) ||
         match findBetterSplit E X (prepare X o) (samplesOf d) (b0 (to_xgb o)) f with Ok b => betterScore (to_xgb o) (t_best d) (b_score b) | _ => false end) (scannedColumns n A)) &&
      noTiesB E X o n [] l && noTiesB E X o n [] r
  end.
Lemma better_eq xgb a b c : feqb a b = true -> betterScore xgb b c = true -> betterScore xgb a c = true.
Proof.
  unfold betterScore. intros HQ H. apply feqb_true in HQ as (N1 & N2 & HQ). destruct xgb; apply fltb_true in H as (M1 & M2 & H); apply fltb_true; repeat split; auto; rewrite HQ; auto.
Qed.
Lemma noTiesB_ok E X o n : EnvOk E -> forall t A, noTiesB E X o n A t = true -> noTies E X o n A t.
Proof.
  intros HE. induction t as [|d l IHl r IHr]; intros A H; [exact I|]. cbn [noTiesB] in H. apply andb_true_iff in H as [H H3]. apply andb_true_iff in H as [H1 H2].
  cbn [noTies]. split; [|auto]. intros HL f j sc thr Hf HA HC HQ. rewrite HL in H1. cbn [orb] in H1. rewrite forallb_forall in H1.
  specialize (H1 f (proj2 (scanned_in n A f) (conj Hf HA))). apply orb_true_iff in H1 as [H1|H1]; [lia|]. exfalso.
  destruct (findBetterSplit E X (prepare X o) (samplesOf d) (b0 (to_xgb o)) f) as [b| |] eqn:EB; try discriminate H1.
  apply (findBetterSplit_cand E HE) in EB as [P _]. apply (proj2 (candidate_prepare E X o (samplesOf d) f j sc thr)) in HC. specialize (P _ _ _ HC).
  change (to_xgb (prepare X o)) with (to_xgb o) in P. rewrite (better_eq _ _ _ _ HQ H1) in P. discriminate P.
Qed.

Definition swap2 (f : Z) : Z := 1 - f.
Lemma swap2_ok : reorders 2 swap2.
Proof. unfold reorders, swap2. split; [intros; lia|]. intros g Hg. exists (1 - g). lia. Qed.
Lemma swap2_row a b : movedRow 2 swap2 [a; b] [b; a].
Proof.
  split; [reflexivity|]. split; [reflexivity|]. intros f v [H0 H]. unfold look, swap2.
  assert (Hf : f = 0 \/ f = 1). { assert (Z.to_nat f < 2)%nat by (change 2%nat with (List.length [a; b]); apply nth_error_Some; congruence). lia. }
  destruct Hf as [-> | ->]; (split; [lia|exact H]).
Qed.
Definition exX' : list (list f64) := mat [[0; 0]; [1; 0]; [0; 1]; [1; 1]].
Lemma ex_c143 : EnvOk env0 /\ reorders 2 swap2 /\ movedColumns 2 swap2 exX exX' /\ movedSet 2 swap2 (to_allowed exO) [] /\
  exists t, NewTree env0 exX exO = Ok t /\ noTies env0 exX exO 2 (to_allowed exO) t /\ depth t = 2%nat.
Proof.
  split; [exact env0_ok|]. split; [exact swap2_ok|]. split; [repeat (apply Forall2_cons; [apply swap2_row|]); apply Forall2_nil|]. split; [apply set_nil|].
  destruct (ok_ex (NewTree env0 exX exO) (fun t => noTiesB env0 exX exO 2 (to_allowed exO) t && (depth t =? 2)%nat)) as (t & Ht & HB); [vm_compute; reflexivity|].
  apply andb_true_iff in HB as [H1 H2]. exists t. split; [exact Ht|]. split; [apply noTiesB_ok; [exact env0_ok|exact H1]|]. apply Nat.eqb_eq. exact H2.
Qed.

(** training data with a second column that is constant *)
Definition colD : DataBunch unit := MkData (mat [[0; 7]; [1; 7]; [2; 7]]) [] [7; 5; 6].
Definition colD' : DataBunch unit := MkData (mat [[7; 0]; [7; 1]; [7; 2]]) [] [7; 5; 6].
Fixpoint allSplits0 (t : tree) : bool := match t with Nil => true | Node d l r => (t_split d =? 0) && allSplits0 l && allSplits0 r end.
Definition someSplit (t : tree) : bool := match t with Nil => false | Node d _ _ => negb (t_leaf d) end.
Lemma const_cand o ix j sc thr : candidate env0 (Data colD) o ix 1 j sc thr -> False.
Proof.
  intros (col & a & b & H1 & _ & H2 & H3 & H4 & _).
  assert (HC : forall v, In v col -> v = fZ 7).
  { intros v Hv. apply In_nth_error in Hv as [k Hk]. destruct (Forall2_nth2 _ _ _ H1 _ _ Hk) as (i & _ & (row & [R0 R1] & [_ R2])).
    apply nth_error_In in R1. cbn [colD Data mat map In] in R1. destruct R1 as [<-|[<-|[<-|[]]]]; change (Z.to_nat 1) with 1%nat in R2; cbn [map nth_error] in R2; congruence. }
  assert (HL : forall k w, nth_error (snd (ArgSort env0 col)) k = Some w -> w = fZ 7).
  { intros k w Hk. destruct (Forall2_nth2 _ _ _ (ArgSort_look env0 env0_ok col) _ _ Hk) as (z & _ & [_ Hz]). apply HC. eapply nth_error_In; eauto. }
  rewrite (HL _ _ H2), (HL _ _ H3) in H4. vm_compute in H4. discriminate H4.
Qed.
Lemma splits0_noTies o : forall t A, allSplits0 t = true -> noTies env0 (Data colD) o 2 A t.
Proof.
  induction t as [|d l IHl r IHr]; intros A H; [exact I|]. cbn [allSplits0] in H. apply andb_true_iff in H as [H H3]. apply andb_true_iff in H as [H1 H2].
  cbn [noTies]. split; [|auto]. intros _ f j sc thr Hf _ HC _. assert (f = 0 \/ f = 1) as [-> | ->] by lia; [lia|]. exfalso. eapply const_cand; eauto.
Qed.
Notation colRun := (NewMultiClass env0 draws0 colD (mkO true 0 3 2 (fdec 3 10))).
Lemma ex_c143_train : movedColumns 2 swap2 (Data colD) (Data colD') /\ movedDraws 2 swap2 draws0 draws0 /\
  exists tr, NewMultiClass env0 draws0 colD (mkO true 0 3 2 (fdec 3 10)) = Ok tr /\ noTiesTraining env0 draws0 colD 2 tr /\
    exists e d l r, In e (concat (tr_hist tr)) /\ g_tree e = Node d l r /\ t_leaf d = false.
Proof.
  split; [repeat (apply Forall2_cons; [apply swap2_row|]); apply Forall2_nil|]. split; [intros r; split; reflexivity|].
  destruct (ok_ex colRun (fun tr => forallb (fun e => allSplits0 (g_tree e)) (concat (tr_hist tr)) && existsb (fun e => someSplit (g_tree e)) (concat (tr_hist tr)))) as (tr & Ht & HB); [vm_compute; reflexivity|].
  apply andb_true_iff in HB as [H1 H2]. exists tr. split; [exact Ht|]. split.
  - intros es1 e es2 lab pr o He _ _ _ _. apply splits0_noTies. rewrite forallb_forall in H1. apply H1. rewrite He. apply in_elt.
  - apply existsb_exists in H2 as (e & He & HE). destruct (g_tree e) as [|d l r] eqn:ET; [discriminate HE|]. exists e, d, l, r. split; [exact He|]. split; [exact ET|]. apply negb_true_iff. exact HE.
Qed.

(** two equal columns: exchanging them exchanges the column that decides *)
Definition tieD : DataBunch unit := MkData (mat [[0; 0]; [1; 1]]) [] [5; 6].
Lemma ref_c143 : exists (D : DataBunch unit) O tr row row', movedColumns 2 swap2 (Data D) (Data D) /\ movedDraws 2 swap2 draws0 draws0 /\
  NewMultiClass env0 draws0 D O = Ok tr /\ movedRow 2 swap2 row row' /\
  PredictSingleClass (tr_model tr) row [] = Ok (0, []) /\ PredictSingleClass (tr_model tr) row' [] = Ok (1, []).
Proof.
  destruct (ok_ex (NewMultiClass env0 draws0 tieD (mkO true 0 3 2 (fdec 3 10))) (fun tr =>
    match PredictSingleClass (tr_model tr) [fZ 0; fZ 1] [], PredictSingleClass (tr_model tr) [fZ 1; fZ 0] [] with Ok (k, []), Ok (k', []) => (k =? 0) && (k' =? 1) | _, _ => false end)) as (tr & Ht & HB); [vm_compute; reflexivity|].
  exists tieD, (mkO true 0 3 2 (fdec 3 10)), tr, [fZ 0; fZ 1], [fZ 1; fZ 0].
  split; [repeat (apply Forall2_cons; [apply swap2_row|]); apply Forall2_nil|]. split; [intros r; split; reflexivity|]. split; [exact Ht|]. split; [apply swap2_row|].
  destruct (PredictSingleClass (tr_model tr) [fZ 0; fZ 1] []) as [[k [|]]| |]; try discriminate HB.
  destruct (PredictSingleClass (tr_model tr) [fZ 1; fZ 0] []) as [[k' [|]]| |]; try discriminate HB.
  apply andb_true_iff in HB as [H1 H2]. apply Z.eqb_eq in H1, H2. subst. auto.
Qed.
