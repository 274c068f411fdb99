(** Proofs about the example program (C147). *)
From Coq Require Import Reals Lra String.
From Verif Require Import Base F64 F64Lemmas NumErr ErrProofs Env EnvLemmas Utils UtilsProofs Tree Spec Options Train SpecTrain SpecTot TrainThms TrainMore TrainTot CV SpecCV CVProofs CVTot CVTotEx
  Grid SpecGrid GridProofs SpecGridTot GridTot GridTotEx Grad SpecGrad SpecGradTot GradRet GradRetEx Text Readers SpecReaders ReadersProofs ReadersMore Main.
From Coq Require Import List.
Open Scope Z_scope.

(** ** few rows *)
Lemma filter_le {A} (p : A -> bool) l : (length (filter p l) <= length l)%nat.
Proof. induction l as [|x l IH]; cbn; [lia|]. destruct (p x); cbn; lia. Qed.
Lemma sampled_le O n d : sampledRows O n d <= Z.of_nat n.
Proof.
  unfold sampledRows. destruct (_ && _)%bool; [|lia]. apply inj_le. pose proof (filter_le (fun i => fleb (d i) (o_ss O)) (seq 0 n)) as H. rewrite seq_length in H. exact H.
Qed.
Lemma few_rows {K} E rnd (D : DataBunch K) O tr : NewMultiClass E rnd D O = Ok tr -> Z.of_nat (length (Data D)) < o_minsample O ->
  mc_b (tr_model tr) = [] /\ Rounds (tr_model tr) None = Ok (-1) /\ forall row bufs, PredictMC (tr_model tr) row bufs = Panic.
Proof.
  intros H Hm. pose proof (c31_lemma E rnd D O tr H) as HL.
  assert (HB : mc_b (tr_model tr) = []).
  { rewrite (filter_ext _ (fun _ => false)) in HL.
    - destruct (mc_b (tr_model tr)); auto. exfalso. clear - HL. induction (seq 0 (Z.to_nat (o_rounds O))); simpl in *; [discriminate|auto].
    - intros rd. apply Z.leb_gt. pose proof (sampled_le O (length (Data D)) (fst (rnd rd))). lia. }
  split; [exact HB|]. split; [unfold Rounds, Classes; rewrite HB; reflexivity|]. intros row bufs. unfold PredictMC, rawScores. rewrite HB. reflexivity.
Qed.
Lemma empty_accuracy {K} M (D : DataBunch K) : mc_b M = [] -> Data D <> [] -> Accuracy M D = Panic.
Proof.
  intros HB HD. unfold Accuracy. destruct (Data D) as [|row rows]; [congruence|]. cbn [countRight]. unfold PredictSingleClass, PredictMC, rawScores. rewrite HB. reflexivity.
Qed.
Lemma zero_mean n : 1 <= n < 2 ^ 53 -> fdiv fzero (fofZ n) = fzero.
Proof.
  intros Hn. destruct (fofZ_exact50 n ltac:(lia)) as [HF HR]. destruct (fofZ n) as [s|s| |s m e B] eqn:EZ; try discriminate HF.
  - exfalso. cbn in HR. symmetry in HR. apply eq_IZR_R0 in HR. lia.
  - destruct s; [|reflexivity]. exfalso. assert (B2R (B754_finite true m e B) < 0)%R by (apply F2R_lt_0; cbn; lia). assert (1 <= IZR n)%R by (apply IZR_le; lia). lra.
Qed.
Lemma Forall2_In_r {A B} (P : A -> B -> Prop) l1 l2 : Forall2 P l1 l2 -> forall b, In b l2 -> exists a, In a l1 /\ P a b.
Proof. induction 1 as [|x y l l' Hp Hf IH]; intros b Hb; [destruct Hb|]. destruct Hb as [<-|Hb]; [exists x; split; [left; reflexivity|exact Hp]|]. destruct (IH b Hb) as (a & Ha & HA). exists a. split; [right; exact Ha|exact HA]. Qed.
Lemma all_none {A} (l : list (option A)) : (forall o, In o l -> o = None) -> somes l = [].
Proof. induction l as [|o l IH]; intros H; [reflexivity|]. unfold somes in IH |- *. cbn [flat_map]. rewrite (H o (or_introl eq_refl)), (IH (fun o' Ho => H o' (or_intror Ho))). reflexivity. Qed.
(** fewer than MinSample + 2 rows: no training set of a fold reaches MinSample *)
Lemma few_cv {K} E fuel ints rndf id (D : DataBunch K) nfold O conc r : validInts (Z.of_nat (length (Data D))) ints -> length (Labels D) = length (Data D) ->
  Z.of_nat (length (Data D)) < 2 ^ 53 ->
  MultiClassCrossValidation E fuel ints rndf id D nfold (Some O) conc = Ok r -> Z.of_nat (length (Data D)) < o_minsample O + 2 -> cv_acc r = fzero.
Proof.
  intros HV HL HB H Hm. pose proof (c54_lemma E fuel ints rndf id D nfold (Some O) conc r HV HL H) as C. cbv zeta in C.
  destruct (cv_err r); [apply C|]. destruct C as (Hn & folds & pairs & outs & (G1 & G2 & G3 & G4) & L1 & L2 & HO & -> & _).
  set (n := Nat.min (requested nfold) (length (Data D) / 2)) in *.
  assert (HT : (2 <= length (Data D))%nat).
  { destruct (le_lt_dec 2 (length (Data D))) as [G|G]; [exact G|]. exfalso. unfold n in Hn. assert (length (Data D) / 2 < 1)%nat by (apply Nat.div_lt_upper_bound; lia). lia. }
  pose proof (used_min _ nfold HT Hn) as HU. fold n in HU.
  assert (HN : (n <= length (Data D))%nat) by (unfold n; pose proof (Nat.div_le_upper_bound (length (Data D)) 2 (length (Data D)) ltac:(lia) ltac:(lia)); lia).
  rewrite all_none; [cbn [fold_left]; apply zero_mean; lia|].
  intros o Ho. apply In_nth_error in Ho as (i & Hi). assert (Hil : (i < n)%nat) by (rewrite <- L2; apply nth_error_Some; congruence).
  destruct (nth_error pairs i) as [p|] eqn:Ep; [|apply nth_error_None in Ep; lia].
  destruct (HO i p o Ep Hi) as ((te & trn & Ht & HP & E1 & E2) & tr & rr & HT1 & HR & HC). destruct o as [a|]; [|reflexivity]. exfalso. destruct HC as [HC _].
  assert (Hte : (2 <= length te)%nat) by (destruct (Nat.eq_dec i (n - 1)) as [->|Hne]; [rewrite (G4 te Ht); lia|rewrite (G3 i te Ht); lia]).
  assert (Hlen : (length trn + length te = length (Data D))%nat).
  { apply Permutation_length in HP. rewrite app_length in HP. unfold indices in HP. rewrite map_length, seq_length in HP. lia. }
  unfold trainWith in HT1. destruct (few_rows E (rndf i) (fst p) O tr HT1) as (_ & HR' & _).
  - rewrite E1. cbn [Data]. unfold rowsAt. rewrite map_length. lia.
  - rewrite HR in HR'. apply Ok_inj' in HR'. lia.
Qed.
(** so a search over the default XGB options finds nothing *)
Lemma few_grid {K} E fuel ints rndf id (D : DataBunch K) nfold o r : (forall k, validInts (Z.of_nat (length (Data D))) (ints k)) -> length (Labels D) = length (Data D) ->
  goodGrid o -> g_xgb o = true -> (length (Data D) < 7)%nat -> Grid E fuel ints rndf id D nfold (Some o) = Ok r -> gr_opts r = None.
Proof.
  intros HV HL G HX HD H. destruct (axes_ex o G) as (a & HA). unfold Grid in H.
  pose proof (c56_lemma fuel id _ o r (fun k t r' H => MCCV_shape E fuel (ints k) (rndf k) id D nfold (Some t) r' H) (gg_ncpus o G) (ex_intro _ a HA) H) as (_ & HC). cbv zeta in HC.
  destruct (gr_err r); [apply HC|]. destruct HC as (outs & _ & HO & HB). destruct HB as [(_ & HB & _)|(k & Hk & HB & _)]; [exact HB|]. exfalso.
  destruct (HO k _ Hk) as (t & rr & Ht & Hr & HI). destruct HI as (_ & HI & _). cbn in HI.
  destruct (c55_lemma fuel id _ o a r HA H) as (pts & rest & HP & Hpts & _).
  assert (Hin : In t pts) by (rewrite Hpts; apply in_app_iff; left; eapply nth_error_In; eauto).
  destruct (Forall2_In_r _ _ _ HP _ Hin) as (c & _ & (_ & _ & _ & Hd)).
  assert (Hms : o_minsample t = 5) by (rewrite HX in Hd; assert (o_minsample t = o_minsample (DefaultXOptions id)) by congruence; exact H0).
  rewrite (few_cv E fuel (ints k) (rndf k) id D nfold t true rr (HV k) HL ltac:(lia) Hr ltac:(lia)) in HI. rewrite <- HI in HB. discriminate HB.
Qed.

(** ** how many combinations *)
Fixpoint genP {A} (le : A -> A -> bool) (add : A -> A -> A) (hi st : A) (fuel : nat) (x : A) : option (list A) :=
  match fuel with
  | O => None
  | S f => if le x hi then match genP le add hi st f (add x st) with Some l => Some (x :: l) | None => None end else Some []
  end.
Lemma genP_ok {A} le (add : A -> A -> A) hi st : forall fuel x l, genP le add hi st fuel x = Some l -> progression le add hi st x l.
Proof.
  induction fuel as [|f IH]; intros x l H; [discriminate H|]. cbn [genP] in H. destruct (le x hi) eqn:EL.
  - destruct (genP le add hi st f (add x st)) as [l'|] eqn:EG; [|discriminate H]. injection H as <-. apply pr_more; [exact EL|apply IH; exact EG].
  - injection H as <-. apply pr_end. exact EL.
Qed.
Definition genF (r : range f64) : option (list f64) := genP fleb fadd (r_hi r) (r_step r) 40 (r_lo r).
Definition genZ (r : range Z) : option (list Z) := genP Z.leb Z.add (r_hi r) (r_step r) 40 (r_lo r).
Definition countF (r : range f64) : Z := match genF r with Some l => Z.of_nat (length l) | None => -1 end.
Definition countZ (r : range Z) : Z := match genZ r with Some l => Z.of_nat (length l) | None => -1 end.
Lemma countF_ok r n : countF r = n -> 0 <= n -> exists l, genF r = Some l /\ rangeF r l /\ Z.of_nat (length l) = n.
Proof. unfold countF. intros <- H. destruct (genF r) as [l|] eqn:EG; [|lia]. exists l. split; [reflexivity|]. split; [exact (genP_ok _ _ _ _ _ _ _ EG)|reflexivity]. Qed.
Lemma countZ_ok r n : countZ r = n -> 0 <= n -> exists l, genZ r = Some l /\ rangeZ r l /\ Z.of_nat (length l) = n.
Proof. unfold countZ. intros <- H. destruct (genZ r) as [l|] eqn:EG; [|lia]. exists l. split; [reflexivity|]. split; [exact (genP_ok _ _ _ _ _ _ _ EG)|reflexivity]. Qed.
Lemma flat_len {A B} (f : A -> list B) l c : (forall x, Z.of_nat (length (f x)) = c) -> Z.of_nat (length (flat_map f l)) = Z.of_nat (length l) * c.
Proof. intros H. induction l as [|x l IH]; [reflexivity|]. cbn [flat_map length]. rewrite app_length, Nat2Z.inj_add, H, IH. lia. Qed.
Lemma combos_len a n1 n2 n3 n4 n5 n6 n7 n8 : Z.of_nat (length (x_rounds a)) = n1 -> Z.of_nat (length (x_mcw a)) = n2 -> Z.of_nat (length (x_md a)) = n3 -> Z.of_nat (length (x_css a)) = n4 ->
  Z.of_nat (length (x_lr a)) = n5 -> Z.of_nat (length (x_lam a)) = n6 -> Z.of_nat (length (x_gam a)) = n7 -> Z.of_nat (length (x_ss a)) = n8 ->
  Z.of_nat (length (combinations a)) = n1 * (n2 * (n3 * (n4 * (n5 * (n6 * (n7 * n8)))))).
Proof.
  intros <- <- <- <- <- <- <- <-. unfold combinations. apply flat_len; intros rounds. apply flat_len; intros cw. apply flat_len; intros md. apply flat_len; intros css.
  apply flat_len; intros lr. apply flat_len; intros lam. apply flat_len; intros gam. rewrite map_length. reflexivity.
Qed.
Definition sizes (o : GridOptions) : list Z :=
  [countZ (g_rounds o); countF (g_mcw o); countZ (g_maxdepth o); countF (g_css o); countF (g_lr o); countF (g_lambda o); countF (g_gamma o); countF (g_ss o)].
Lemma grid_count id eval o fuel r n1 n2 n3 n4 n5 n6 n7 n8 : sizes o = [n1; n2; n3; n4; n5; n6; n7; n8] -> Forall (fun n => 0 <= n) (sizes o) ->
  GridWith fuel id eval o = Ok r -> gr_err r = false ->
  exists a, axesOf o a /\ genF (g_lr o) = Some (x_lr a) /\ Z.of_nat (length (gr_spawned r)) = n1 * (n2 * (n3 * (n4 * (n5 * (n6 * (n7 * n8)))))) /\ Forall2 (isPoint id o) (combinations a) (gr_spawned r).
Proof.
  intros HS HP H He. rewrite HS in HP. unfold sizes in HS. injection HS as E1 E2 E3 E4 E5 E6 E7 E8.
  repeat match goal with H : Forall _ (_ :: _) |- _ => let A := fresh in inversion H as [|? ? A ?]; subst; clear H end.
  destruct (countZ_ok (g_rounds o) _ eq_refl ltac:(assumption)) as (l1 & _ & L1 & N1). destruct (countF_ok (g_mcw o) _ eq_refl ltac:(assumption)) as (l2 & _ & L2 & N2).
  destruct (countZ_ok (g_maxdepth o) _ eq_refl ltac:(assumption)) as (l3 & _ & L3 & N3). destruct (countF_ok (g_css o) _ eq_refl ltac:(assumption)) as (l4 & _ & L4 & N4).
  destruct (countF_ok (g_lr o) _ eq_refl ltac:(assumption)) as (l5 & G5 & L5 & N5). destruct (countF_ok (g_lambda o) _ eq_refl ltac:(assumption)) as (l6 & _ & L6 & N6).
  destruct (countF_ok (g_gamma o) _ eq_refl ltac:(assumption)) as (l7 & _ & L7 & N7). destruct (countF_ok (g_ss o) _ eq_refl ltac:(assumption)) as (l8 & _ & L8 & N8).
  set (a := MkAxes l1 l2 l3 l4 l5 l6 l7 l8). assert (HA : axesOf o a) by (repeat (split; [assumption|]); assumption).
  destruct (c55_lemma fuel id eval o a r HA H) as (pts & rest & HF & Hpts & Hrest & _). rewrite (Hrest He), app_nil_r in Hpts. subst pts.
  exists a. split; [exact HA|]. split; [exact G5|]. split; [|exact HF]. assert (HN : length (combinations a) = length (gr_spawned r)) by (clear -HF; induction HF; cbn; congruence). rewrite <- HN.
  rewrite (combos_len a _ _ _ _ _ _ _ _ N1 N2 N3 N4 N5 N6 N7 N8). reflexivity.
Qed.
Lemma main_grid_size {K} E fuel ints rndf id (D : DataBunch K) nfold r : Grid E fuel ints rndf id D nfold (Some mainGrid) = Ok r -> gr_err r = false ->
  Z.of_nat (length (gr_spawned r)) = 27648 /\ forall t, In t (gr_spawned r) -> fleb (o_lr t) (fdec 2 10) = true.
Proof.
  intros H He. destruct (grid_count id _ mainGrid fuel r 6 3 2 4 2 8 6 2 ltac:(vm_compute; reflexivity) ltac:(repeat constructor; vm_compute; discriminate) H He) as (a & HA & HG & HN & HF).
  split; [exact HN|]. intros t Ht. destruct (Forall2_In_r _ _ _ HF t Ht) as (c & Hc & (Hc' & _)).
  assert (HL : In (o_lr t) (x_lr a)).
  { subst c. unfold combinations in Hc. repeat (apply in_flat_map in Hc as (? & ? & Hc)). apply in_map_iff in Hc as (? & Hc & ?).
    assert (HE : forall (x1 y1 : Z) (x2 y2 : f64) (x3 y3 : Z) (x4 y4 x5 y5 x6 y6 x7 y7 x8 y8 : f64), (x1, x2, x3, x4, x5, x6, x7, x8) = (y1, y2, y3, y4, y5, y6, y7, y8) -> x5 = y5) by (intros; congruence).
    apply HE in Hc. rewrite <- Hc. assumption. }
  assert (HC : match genF (g_lr mainGrid) with Some l => forallb (fun x => fleb x (fdec 2 10)) l | None => false end = true) by (vm_compute; reflexivity).
  rewrite HG in HC. exact (proj1 (forallb_forall _ _) HC _ HL).
Qed.
Lemma default_grid_size {K} E fuel ints rndf id (D : DataBunch K) nfold r : Grid E fuel ints rndf id D nfold (Some DefaultGridOptions) = Ok r -> gr_err r = false ->
  Z.of_nat (length (gr_spawned r)) = 368640.
Proof.
  intros H He. destruct (grid_count id _ DefaultGridOptions fuel r 10 3 4 4 4 8 6 4 ltac:(vm_compute; reflexivity) ltac:(repeat constructor; vm_compute; discriminate) H He) as (a & HA & HG & HN & HF).
  exact HN.
Qed.

(** ** the data of a file *)
Lemma svm_lengths pf r eof h D : ParseLibSVM pf r eof h = Ok (Some D) -> length (Labels D) = length (Data D).
Proof.
  intros H. destruct (text_lines r) as (ls & last & -> & H1 & H2). apply (svm_data pf ls last eof h D H1 H2) in H as [_ H]. unfold svmDoc in H. destruct h.
  - destruct ls as [|l ls]; [subst D; reflexivity|]. apply H.
  - apply H.
Qed.
Lemma file_lengths pf file h D : DataBunchFromLibSVMFile pf file h = Ok (Some D) -> length (Labels D) = length (Data D).
Proof. unfold DataBunchFromLibSVMFile. destruct file as [[r eof]|]; intros H; [|discriminate H]. eapply svm_lengths; eauto. Qed.

(** ** the program *)
Lemma main_options id id' : Check (mainOptions id id') = true /\ optsOk (mainOptions id id').
Proof.
  assert (HC : Check (mainOptions id id') = true) by reflexivity. split; [exact HC|]. apply check_optsOk; [apply lossSized_std|exact HC].
Qed.
Lemma main_grid_good : goodGrid mainGrid /\ goodClimb mainGrid.
Proof.
  assert (G : goodGrid mainGrid) by (apply goodb_ok; vm_compute; reflexivity). split; [exact G|]. split; try apply G.
  - split; vm_compute; reflexivity.
  - split; vm_compute; reflexivity.
  - split; vm_compute; reflexivity.
  - intros _. vm_compute. reflexivity.
Qed.
Lemma main_defaults id id' : (o_xgb (DefaultOptions id) = true /\ Check (DefaultOptions id) = true /\ optsOk (DefaultOptions id)) /\
  (g_xgb DefaultGridOptions = true /\ goodGrid DefaultGridOptions /\ goodClimb DefaultGridOptions) /\
  (Check (mainOptions id id') = true /\ optsOk (mainOptions id id')) /\ (goodGrid mainGrid /\ goodClimb mainGrid).
Proof.
  split; [|split; [|split; [apply main_options|exact main_grid_good]]].
  - split; [reflexivity|]. assert (HC : Check (DefaultOptions id) = true) by reflexivity. split; [exact HC|]. apply check_optsOk; [apply lossSized_std|exact HC].
  - split; [reflexivity|]. split; [exact defaultX_good|exact (proj1 defaultX_climb)].
Qed.
Section Main.
Context (E : Env) (pf : parser) (fuelG fuelC : nat) (id id' : Z) (rnd1 rnd2 : draws) (ints : nat -> nat -> Z) (rndf : nat -> nat -> draws) (q : oracles)
  (file : option (text * bool)).
Let prog := main E pf fuelG fuelC id id' rnd1 rnd2 ints rndf q file.
(** what a run that reaches the end has done *)
Lemma main_inv out : prog = Ok out -> exists data tr1 best1 best2 tr2 class bufs,
  DataBunchFromLibSVMFile pf file (Some true) = Ok (Some data) /\ NewMultiClass E rnd1 data (mainOptions id id') = Ok tr1 /\
  Accuracy (tr_model tr1) data = Ok (mo_train out) /\ Grid E fuelG ints rndf id data 8 (Some mainGrid) = Ok (mo_grid out) /\ gr_err (mo_grid out) = false /\
  gr_opts (mo_grid out) = Some best1 /\ GradientGrid E fuelC q id data 5 (Some mainGrid) = Ok (mo_grad out) /\ gg_err (mo_grad out) = false /\
  gg_opts (mo_grad out) = Some best2 /\ NewMultiClass E rnd2 data best2 = Ok tr2 /\ PredictSingleClass (tr_model tr2) mainSample [] = Ok (class, bufs) /\ mo_class out = class + 1.
Proof.
  unfold prog, main. intros H. apply bind_Ok in H as (od & H1 & H). destruct od as [data|]; [|discriminate H].
  apply bind_Ok in H as (tr1 & H2 & H). apply bind_Ok in H as (acc & H3 & H). apply bind_Ok in H as (g & H4 & H). destruct (gr_err g) eqn:E1; [discriminate H|].
  destruct (gr_opts g) as [b1|] eqn:E2; [|discriminate H]. apply bind_Ok in H as (c & H5 & H). destruct (gg_err c) eqn:E3; [discriminate H|].
  destruct (gg_opts c) as [b2|] eqn:E4; [|discriminate H]. apply bind_Ok in H as (tr2 & H6 & H). apply bind_Ok in H as ([class bufs] & H7 & H).
  apply Ok_inj' in H. subst out. exists data, tr1, b1, b2, tr2, class, bufs. cbn [mo_train mo_grid mo_grad mo_class]. repeat (split; [assumption|]). reflexivity.
Qed.
Lemma main_small data out : DataBunchFromLibSVMFile pf file (Some true) = Ok (Some data) -> (length (Data data) < 7)%nat ->
  (forall k, validInts (Z.of_nat (length (Data data))) (ints k)) -> prog <> Ok out.
Proof.
  intros HD HS HV H. apply main_inv in H as (data' & tr1 & b1 & b2 & tr2 & class & bufs & H1 & _ & _ & H4 & _ & H6 & _).
  assert (data' = data) by congruence. subst data'.
  pose proof (few_grid E fuelG ints rndf id data 8 mainGrid _ HV (file_lengths _ _ _ _ HD) (proj1 main_grid_good) eq_refl HS H4). congruence.
Qed.
Lemma main_class out : prog = Ok out -> exists data labels, DataBunchFromLibSVMFile pf file (Some true) = Ok (Some data) /\ firstOccurrences (Labels data) labels /\
  1 <= mo_class out <= Z.of_nat (length labels).
Proof.
  intros H. apply main_inv in H as (data & tr1 & b1 & b2 & tr2 & class & bufs & H1 & _ & _ & _ & _ & _ & _ & _ & _ & H10 & H11 & ->).
  exists data, (ClassLabels (tr_model tr2)). split; [exact H1|]. destruct (c30_lemma E rnd2 data b2 tr2 H10) as (_ & _ & C3 & C4 & _). split; [exact C4|].
  pose proof (c36_trained E rnd2 data b2 tr2 H10 _ _ _ _ H11). lia.
Qed.
End Main.
(** where it can stop *)
Lemma main_ends E pf id id' rnd1 rnd2 ints rndf q file data : EnvOk E -> DataBunchFromLibSVMFile pf file (Some true) = Ok (Some data) -> goodTable (Data data) ->
  (4 <= length (Data data))%nat -> Z.of_nat (length (Data data)) < 2 ^ 46 -> (forall row, In row (Data data) -> (length row <= 21)%nat) ->
  (forall k, goodInts (length (Data data)) (ints k)) -> goodOracles (length (Data data)) q ->
  exists fuelG fuelC tr1 g c, NewMultiClass E rnd1 data (mainOptions id id') = Ok tr1 /\ Grid E fuelG ints rndf id data 8 (Some mainGrid) = Ok g /\
    GradientGrid E fuelC q id data 5 (Some mainGrid) = Ok c /\ gr_err g = false /\ gg_err c = false /\
    let prog := main E pf fuelG fuelC id id' rnd1 rnd2 ints rndf q file in
    if match mc_b (tr_model tr1), gr_opts g, gg_opts c with _ :: _, Some _, Some _ => true | _, _, _ => false end
    then exists best tr2, gg_opts c = Some best /\ NewMultiClass E rnd2 data best = Ok tr2 /\
      (mc_b (tr_model tr2) = [] /\ prog = Panic \/ mc_b (tr_model tr2) <> [] /\ exists out, prog = Ok out)
    else prog = Panic.
Proof.
  intros HE HD HG H4 HB HC HI HQ. pose proof (file_lengths _ _ _ _ HD) as HL. destruct main_grid_good as [GG GC].
  assert (HS : sizesOk (Data data)). { split; [lia|]. intros row Hr. specialize (HC row Hr). lia. }
  assert (HW : exists row0, nth_error (Data data) 0 = Some row0 /\ (forall row, In row (Data data) -> length row = length row0) /\ (length row0 <= 21)%nat).
  { destruct (Data data) as [|row0 rows] eqn:Ed; [cbn in H4; lia|]. exists row0. split; [reflexivity|]. split; [|apply HC; left; reflexivity].
    intros row Hr. apply (gt_rect _ HG); [exact Hr|left; reflexivity]. }
  destruct HW as (row0 & Hr0 & HR & Hw).
  destruct (train_ex E rnd1 data (mainOptions id id') HE HG HL (proj2 (main_options id id')) HS) as (tr1 & Htr1).
  destruct (grid_returns E ints rndf id data 8 (Some mainGrid) HE HG ltac:(lia) HL HS (fun k => proj1 (HI k)) (fun k => proj2 (HI k)) ltac:(intros o Eo; injection Eo as <-; exact GG)) as (fuelG & g & Hg).
  destruct (gradient_returns E q id data 5 (Some mainGrid) HE HG ltac:(lia) HL HS HQ ltac:(intros o Eo; injection Eo as <-; exact GC)) as (fuelC & c & Hc & Hco).
  pose proof (grid_noerr E ints rndf id data 8 mainGrid fuelG g HL (fun k => proj1 (HI k)) GG H4 ltac:(lia) HB Hg) as Eg.
  pose proof (gg_noerr E fuelC q id data 5 (Some mainGrid) c HQ HL H4 (or_introl Hc)) as Ec.
  exists fuelG, fuelC, tr1, g, c. repeat (split; [assumption|]). cbv zeta.
  assert (HP : main E pf fuelG fuelC id id' rnd1 rnd2 ints rndf q file = (acc <- Accuracy (tr_model tr1) data ;; match gr_opts g with None => Panic | Some _ =>
     match gg_opts c with None => Panic | Some best => boosted <- NewMultiClass E rnd2 data best ;; ' (class, _) <- PredictSingleClass (tr_model boosted) mainSample [] ;; Ok (MkOut acc g c (class + 1)) end end)).
  { unfold main. rewrite HD. cbn [bind]. rewrite Htr1. cbn [bind]. destruct (Accuracy (tr_model tr1) data) as [acc| |]; [|reflexivity|reflexivity]. cbn [bind]. rewrite Hg. cbn [bind]. rewrite Eg.
    destruct (gr_opts g); [|reflexivity]. rewrite Hc. cbn [bind]. rewrite Ec. reflexivity. }
  rewrite HP. clear HP. destruct (mc_b (tr_model tr1)) as [|b bs] eqn:Eb.
  { rewrite (empty_accuracy _ data Eb); [reflexivity|]. intros Hd. rewrite Hd in H4. cbn in H4. lia. }
  destruct (countRight_ex E rnd1 data _ tr1 row0 Htr1) with (actual := Labels data) (rows := Data data) (i := 0) (right := 0) as (cr & Hcr).
  - lia.
  - rewrite Eb. discriminate.
  - exact Hr0.
  - lia.
  - intros row Hrow. rewrite (HR row Hrow). lia.
  - lia.
  - unfold Accuracy. rewrite Hcr. cbn [bind]. destruct (gr_opts g) as [b1|] eqn:E1; [|reflexivity]. destruct (gg_opts c) as [best|] eqn:E2; [|reflexivity].
    destruct (train_ex E rnd2 data best HE HG HL (Hco best eq_refl) HS) as (tr2 & Htr2). exists best, tr2. split; [reflexivity|]. split; [exact Htr2|]. rewrite Htr2. cbn [bind].
    destruct (mc_b (tr_model tr2)) as [|b' bs'] eqn:Eb2.
    + left. split; [reflexivity|]. unfold PredictSingleClass, PredictMC, rawScores. rewrite Eb2. reflexivity.
    + right. split; [discriminate|]. destruct (c82_lemma E rnd2 data best tr2 Htr2 row0 mainSample []) as (preds & k & _ & _ & Hk & _).
      * lia.
      * rewrite Eb2. discriminate.
      * exact Hr0.
      * exact Hw.
      * rewrite Hk. cbn [bind]. eexists. reflexivity.
Qed.

(** what goes wrong ends the program *)
Lemma main_failures E pf fuelG fuelC id id' rnd1 rnd2 ints rndf q file :
  let prog := main E pf fuelG fuelC id id' rnd1 rnd2 ints rndf q file in
  (DataBunchFromLibSVMFile pf file (Some true) = Ok None -> prog = Panic) /\
  (forall data tr acc g, DataBunchFromLibSVMFile pf file (Some true) = Ok (Some data) -> NewMultiClass E rnd1 data (mainOptions id id') = Ok tr ->
     Accuracy (tr_model tr) data = Ok acc -> Grid E fuelG ints rndf id data 8 (Some mainGrid) = Ok g -> gr_err g = true \/ gr_opts g = None -> prog = Panic) /\
  (forall data tr acc g c, DataBunchFromLibSVMFile pf file (Some true) = Ok (Some data) -> NewMultiClass E rnd1 data (mainOptions id id') = Ok tr ->
     Accuracy (tr_model tr) data = Ok acc -> Grid E fuelG ints rndf id data 8 (Some mainGrid) = Ok g -> GradientGrid E fuelC q id data 5 (Some mainGrid) = Ok c ->
     gg_err c = true \/ gg_opts c = None -> prog = Panic).
Proof.
  cbv zeta. unfold main. split; [intros ->; reflexivity|]. split.
  - intros data tr acc g -> H1 H2 H3 H4. cbn [bind]. rewrite H1. cbn [bind]. rewrite H2. cbn [bind]. rewrite H3. cbn [bind].
    destruct H4 as [-> | ->]; [reflexivity|]. destruct (gr_err g); reflexivity.
  - intros data tr acc g c -> H1 H2 H3 H5 H4. cbn [bind]. rewrite H1. cbn [bind]. rewrite H2. cbn [bind]. rewrite H3. cbn [bind].
    destruct (gr_err g); [reflexivity|]. destruct (gr_opts g); [|reflexivity]. rewrite H5. cbn [bind].
    destruct H4 as [-> | ->]; [reflexivity|]. destruct (gg_err c); reflexivity.
Qed.
