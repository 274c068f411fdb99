(** Proofs about the sharing of rows by the sampler of the cross-validation. *)
From Verif Require Import Base F64 Env Utils UtilsProofs Tree Options Train Spec CV SpecCV CVProofs CVShare SpecCVShare.
Open Scope Z_scope.

Lemma idx_map {A B} (f : A -> B) l i : idx (map f l) i = (x <- idx l i ;; Ok (f x)).
Proof. unfold idx. destruct (i <? 0); [reflexivity|]. rewrite nth_error_map. destruct (nth_error l (Z.to_nat i)); reflexivity. Qed.
Lemma idx_in {A} (l : list A) i x : idx l i = Ok x -> In x l.
Proof. unfold idx. destruct (i <? 0); [discriminate|]. destruct (nth_error l (Z.to_nat i)) eqn:E; [|discriminate]. intros [= <-]. eapply nth_error_In; eauto. Qed.
Lemma idx_row (h : rowHeap) p : (p < length h)%nat -> idx h (Z.of_nat p) = Ok (nth p h []).
Proof. intros H. unfold idx. replace (Z.of_nat p <? 0) with false by (symmetry; apply Z.ltb_ge; lia). rewrite Nat2Z.id, (nth_error_nth' h [] H). reflexivity. Qed.
Lemma rowsIn_app {K} h h' (D : hdata K) : rowsIn h D -> rowsIn (h ++ h') D.
Proof. intros H p Hp. rewrite app_length. specialize (H p Hp). lia. Qed.

Section Fill.
Context {K : Type} (ori : hdata K).
Notation tot := (length (hd_rows ori)).
Lemma fillH_copy ix : forall h, rowsIn h ori -> length (hd_labels ori) = tot -> (forall i, In i ix -> 0 <= i < Z.of_nat tot) ->
  fillRowsH true h ori ix = Ok (h ++ rowsAt (Data (valuesOf h ori)) ix, (seq (length h) (length ix), labelsAt (hd_labels ori) ix)).
Proof.
  induction ix as [|v ix IH]; intros h HR HL HI; cbn [fillRowsH]; [rewrite app_nil_r; reflexivity|].
  assert (Hv : 0 <= v < Z.of_nat tot) by (apply HI; left; auto).
  assert (HD : nth_error (hd_rows ori) (Z.to_nat v) = Some (nth (Z.to_nat v) (hd_rows ori) 0%nat)) by (apply nth_error_nth'; lia).
  assert (HLb : nth_error (hd_labels ori) (Z.to_nat v) = Some (nth (Z.to_nat v) (hd_labels ori) 0)) by (apply nth_error_nth'; lia).
  rewrite (proj2 (idx_Ok _ _ _) (conj (proj1 Hv) HD)). cbn [bind]. set (p := nth (Z.to_nat v) (hd_rows ori) 0%nat) in *.
  assert (Hp : (p < length h)%nat) by (apply HR; eapply nth_error_In; eauto). rewrite (idx_row h p Hp). cbn [bind].
  destruct (Z.ltb_spec v (Z.of_nat (length (hd_labels ori)))); [|lia]. rewrite (proj2 (idx_Ok _ _ _) (conj (proj1 Hv) HLb)). cbn [bind].
  rewrite IH; [|apply rowsIn_app; exact HR|exact HL|intros; apply HI; right; auto]. cbn [bind].
  assert (EV : Data (valuesOf (h ++ [nth p h []]) ori) = Data (valuesOf h ori)).
  { cbn [valuesOf Data]. apply map_ext_in. intros q Hq. apply app_nth1. apply HR. exact Hq. }
  assert (EN : nth (Z.to_nat v) (Data (valuesOf h ori)) [] = nth p h []).
  { cbn [valuesOf Data]. rewrite (nth_indep (map (fun q => nth q h []) (hd_rows ori)) [] (nth 0%nat h [])) by (rewrite map_length; lia). exact (map_nth (fun q => nth q h []) (hd_rows ori) 0%nat (Z.to_nat v)). }
  rewrite EV, app_length, Nat.add_1_r, <- app_assoc. cbn [app length seq rowsAt map]. rewrite EN. reflexivity.
Qed.
Lemma fillH_share ix h : rowsIn h ori -> length (hd_labels ori) = tot -> (forall i, In i ix -> 0 <= i < Z.of_nat tot) ->
  fillRowsH false h ori ix = Ok (h, (map (fun i => nth (Z.to_nat i) (hd_rows ori) 0%nat) ix, labelsAt (hd_labels ori) ix)).
Proof.
  intros HR HL. induction ix as [|v ix IH]; intros HI; cbn [fillRowsH]; [reflexivity|].
  assert (Hv : 0 <= v < Z.of_nat tot) by (apply HI; left; auto).
  assert (HD : nth_error (hd_rows ori) (Z.to_nat v) = Some (nth (Z.to_nat v) (hd_rows ori) 0%nat)) by (apply nth_error_nth'; lia).
  assert (HLb : nth_error (hd_labels ori) (Z.to_nat v) = Some (nth (Z.to_nat v) (hd_labels ori) 0)) by (apply nth_error_nth'; lia).
  rewrite (proj2 (idx_Ok _ _ _) (conj (proj1 Hv) HD)). cbn [bind]. set (p := nth (Z.to_nat v) (hd_rows ori) 0%nat) in *.
  assert (Hp : (p < length h)%nat) by (apply HR; eapply nth_error_In; eauto). rewrite (idx_row h p Hp). cbn [bind].
  destruct (Z.ltb_spec v (Z.of_nat (length (hd_labels ori)))); [|lia]. rewrite (proj2 (idx_Ok _ _ _) (conj (proj1 Hv) HLb)). cbn [bind].
  rewrite IH by (intros; apply HI; right; auto). reflexivity.
Qed.
Lemma share_values h ix : (forall i, In i ix -> 0 <= i < Z.of_nat tot) ->
  map (fun p => nth p h []) (map (fun i => nth (Z.to_nat i) (hd_rows ori) 0%nat) ix) = rowsAt (Data (valuesOf h ori)) ix.
Proof.
  intros HI. unfold rowsAt. rewrite map_map. apply map_ext_in. intros i Hi. specialize (HI i Hi). cbn [valuesOf Data].
  rewrite (nth_indep (map (fun q => nth q h []) (hd_rows ori)) [] (nth 0%nat h [])) by (rewrite map_length; lia). symmetry. exact (map_nth (fun q => nth q h []) (hd_rows ori) 0%nat (Z.to_nat i)).
Qed.
Lemma seq_values {A} (d : A) (h new tail : list A) : map (fun p => nth p ((h ++ new) ++ tail) d) (seq (length h) (length new)) = new.
Proof.
  rewrite <- app_assoc. revert h. induction new as [|x new IH]; intros h; [reflexivity|]. cbn [length seq map]. f_equal.
  - rewrite app_nth2, Nat.sub_diag by lia. reflexivity.
  - specialize (IH (h ++ [x])). rewrite app_length, Nat.add_1_r, <- app_assoc in IH. exact IH.
Qed.
End Fill.

Section Reach.
Context {K : Type} (D : hdata K) (docopy : bool) (nf : nat) (folds : list (list Z)).
Lemma reach_inv n h s : reachH D docopy nf folds n h s -> rowsIn h D /\ length (hd_labels D) = length (hd_rows D) /\ goodFolds (length (hd_rows D)) nf folds /\
  sh_data s = D /\ sh_folds s = folds /\ sh_nf s = nf /\ sh_copy s = docopy /\ sh_calls s = Nat.min n nf.
Proof.
  intros H. induction H as [fuel ints h nfold uc s e HR HV HL HC Hd Hf|n h s h' o s' H IH HC|n h s h' H IH HLe].
  - unfold CrossValidationSamplesH in HC. apply bind_Ok in HC as ([[n so] e'] & HC & HE). cbn [fst snd] in HE. destruct so as [s0|]; [|discriminate HE]. injection HE as -> <- <-.
    apply CVS_inv in HC as (_ & [(_ & _ & HX & _)|(_ & _ & _ & s1 & E & E1 & E2 & E3 & HG)]); [discriminate HX| |cbn [Data]; rewrite map_length; exact HV].
    injection E as <-. cbn [Data] in HG. rewrite map_length in HG. subst. cbn [sh_data sh_folds sh_nf sh_copy sh_calls]. repeat (split; [auto; fail|]). rewrite E3. reflexivity.
  - destruct IH as (HR & HL & HG & E1 & E2 & E3 & E4 & E5). unfold callSamplerH in HC. destruct (Nat.leb_spec (sh_nf s) (sh_calls s)).
    + injection HC as <- <- <-. repeat (split; [auto; fail|]). rewrite E5. lia.
    + apply bind_Ok in HC as (te & HT & HC). apply bind_Ok in HC as ([h1 test] & H1 & HC). apply bind_Ok in HC as ([h2 train] & H2 & HC). injection HC as <- <- <-.
      cbn [sh_data sh_folds sh_nf sh_copy sh_calls]. split; [|repeat (split; [auto; fail|]); lia].
      assert (HM : forall b h ix r, fillRowsH b h D ix = Ok r -> (length h <= length (fst r))%nat).
      { clear. intros b h ix. revert h. induction ix as [|v ix IH]; intros h r H; cbn [fillRowsH] in H; [injection H as <-; auto|].
        apply bind_Ok in H as (p & _ & H). apply bind_Ok in H as (row & _ & H). destruct b; cbn [bind] in H; apply bind_Ok in H as (lab & _ & H);
          apply bind_Ok in H as ([h2 [rows labs]] & H & E); injection E as <-; apply IH in H; cbn [fst] in *; try rewrite app_length in H; lia. }
      unfold fillDataBunchH in H1, H2. rewrite E1 in *. apply bind_Ok in H1 as ([h1' [r1 l1]] & H1 & X1). injection X1 as <- _. apply bind_Ok in H2 as ([h2' [r2 l2]] & H2 & X2). injection X2 as <- _.
      apply HM in H1. apply HM in H2. cbn [fst] in *. intros p Hp. specialize (HR p Hp). lia.
  - destruct IH as (HR & IH). split; [|exact IH]. intros p Hp. specialize (HR p Hp). lia.
Qed.
Lemma fold_range n te : goodFolds (length (hd_rows D)) nf folds -> nth_error folds n = Some te ->
  Permutation (othersFrom 0 n folds ++ te) (indices (length (hd_rows D))) /\ (forall i, In i (othersFrom 0 n folds) \/ In i te -> 0 <= i < Z.of_nat (length (hd_rows D))).
Proof.
  intros (G1 & G2 & _) Ht. pose proof (others_perm (valuesOf [] D) folds 0 n te Ht) as HP. simpl in HP. split; [etransitivity; eauto|].
  intros x Hx. apply In_indices. apply (Permutation_in _ G2). apply (Permutation_in _ HP). apply in_app_iff. exact Hx.
Qed.
Lemma ended_lemma n h s : reachH D docopy nf folds n h s -> (nf <= n)%nat -> callSamplerH h s = Ok (h, None, s).
Proof. intros H Hn. apply reach_inv in H as (_ & _ & _ & _ & _ & E3 & _ & E5). unfold callSamplerH. destruct (Nat.leb_spec (sh_nf s) (sh_calls s)); [reflexivity|lia]. Qed.
End Reach.

Lemma share_lemma {K} (D : hdata K) nf folds n h s : reachH D false nf folds n h s -> (n < nf)%nat ->
  exists train test s', callSamplerH h s = Ok (h, Some (train, test), s') /\
    forall h', foldPair (valuesOf h' D) folds n (valuesOf h' train, valuesOf h' test).
Proof.
  intros H Hn. apply reach_inv in H as (HR & HL & HG & E1 & E2 & E3 & E4 & E5). rewrite Nat.min_l in E5 by lia.
  destruct (nth_error folds n) as [te|] eqn:Et; [|apply nth_error_None in Et; destruct HG as [HG _]; lia].
  destruct (fold_range D nf folds n te HG Et) as [HP HI].
  unfold callSamplerH. destruct (Nat.leb_spec (sh_nf s) (sh_calls s)); [lia|]. rewrite E1, E2, E4, E5, (proj2 (idx_of_nat _ _ _) Et). cbn [bind]. unfold fillDataBunchH.
  rewrite fillH_share by (auto; intros; apply HI; auto). cbn [bind]. rewrite fillH_share by (auto; intros; apply HI; auto). cbn [bind].
  do 3 eexists. split; [reflexivity|]. intros h'. exists te, (othersFrom 0 n folds). split; [exact Et|]. cbn [valuesOf Data Labels fst snd hd_rows hd_keys hd_labels]. rewrite map_length.
  split; [exact HP|]. split; unfold valuesOf; cbn [hd_rows hd_keys hd_labels]; f_equal; apply (share_values D h'); intros; apply HI; auto.
Qed.
Lemma nth_written (h h' : rowHeap) ps p : writtenAt ps h h' -> (p < length h)%nat -> ~ In p ps -> nth p h' [] = nth p h [].
Proof. intros HW Hp HN. specialize (HW p Hp HN). rewrite (nth_error_nth' h [] Hp) in HW. symmetry in HW. apply (nth_error_nth h' p []) in HW || (symmetry in HW; apply (nth_error_nth h' p []) in HW). exact HW. Qed.
Lemma values_written {K} (A : hdata K) ps h h' : writtenAt ps h h' -> rowsIn h A -> (forall p, In p ps -> ~ In p (hd_rows A)) -> valuesOf h' A = valuesOf h A.
Proof. intros HW HR HN. unfold valuesOf. f_equal. apply map_ext_in. intros p Hp. eapply nth_written; eauto. intros HX. exact (HN p HX Hp). Qed.
Lemma copy_rows_lemma {K} (D : hdata K) nf folds n h s : reachH D true nf folds n h s -> (n < nf)%nat ->
  exists h' train test s', callSamplerH h s = Ok (h', Some (train, test), s') /\ writtenAt [] h h' /\
    foldPair (valuesOf h D) folds n (valuesOf h' train, valuesOf h' test) /\
    NoDup (pairRows (train, test)) /\ (forall p, In p (pairRows (train, test)) -> (length h <= p < length h')%nat).
Proof.
  intros H Hn. apply reach_inv in H as (HR & HL & HG & E1 & E2 & E3 & E4 & E5). rewrite Nat.min_l in E5 by lia.
  destruct (nth_error folds n) as [te|] eqn:Et; [|apply nth_error_None in Et; destruct HG as [HG _]; lia].
  destruct (fold_range D nf folds n te HG Et) as [HP HI].
  unfold callSamplerH. destruct (Nat.leb_spec (sh_nf s) (sh_calls s)); [lia|]. rewrite E1, E2, E4, E5, (proj2 (idx_of_nat _ _ _) Et). cbn [bind]. unfold fillDataBunchH.
  rewrite fillH_copy by (auto; intros; apply HI; auto). cbn [bind]. set (new1 := rowsAt (Data (valuesOf h D)) te).
  rewrite fillH_copy by (auto using rowsIn_app; intros; apply HI; auto). cbn [bind].
  assert (EV : Data (valuesOf (h ++ new1) D) = Data (valuesOf h D)).
  { cbn [valuesOf Data]. apply map_ext_in. intros q Hq. apply app_nth1. apply HR. exact Hq. }
  rewrite EV. set (tr := othersFrom 0 n folds) in *. set (new2 := rowsAt (Data (valuesOf h D)) tr).
  assert (L1 : length te = length new1) by (unfold new1, rowsAt; rewrite map_length; reflexivity). assert (L2 : length tr = length new2) by (unfold new2, rowsAt; rewrite map_length; reflexivity).
  do 4 eexists. split; [reflexivity|]. split; [|split; [|split]].
  - intros p Hp _. rewrite <- app_assoc. apply nth_error_app1. exact Hp.
  - exists te, tr. split; [exact Et|]. cbn [valuesOf Data Labels fst snd hd_rows hd_keys hd_labels]. rewrite map_length. split; [exact HP|].
    split; unfold valuesOf; cbn [hd_rows hd_keys hd_labels]; f_equal; [rewrite L2|rewrite L1].
    + rewrite <- (app_nil_r ((h ++ new1) ++ new2)). apply seq_values.
    + apply seq_values.
  - unfold pairRows. cbn [fst snd hd_rows]. rewrite app_length, L1. eapply Permutation_NoDup; [apply Permutation_app_comm|]. rewrite <- seq_app. apply seq_NoDup.
  - unfold pairRows. cbn [fst snd hd_rows]. rewrite !app_length, L1, L2. intros p Hp. apply in_app_iff in Hp as [Hp|Hp]; apply in_seq in Hp; lia.
Qed.
Lemma indep_lemma {K} (D A : hdata K) nf folds n h s h' train test s' : reachH D true nf folds n h s -> callSamplerH h s = Ok (h', Some (train, test), s') -> rowsIn h A ->
  (forall h2, writtenAt (hd_rows A) h' h2 -> valuesOf h2 train = valuesOf h' train /\ valuesOf h2 test = valuesOf h' test) /\
  (forall h2, writtenAt (pairRows (train, test)) h' h2 -> valuesOf h2 A = valuesOf h A) /\
  (forall h2, writtenAt (hd_rows test) h' h2 -> valuesOf h2 train = valuesOf h' train) /\
  (forall h2, writtenAt (hd_rows train) h' h2 -> valuesOf h2 test = valuesOf h' test).
Proof.
  intros H HC HA. destruct (Nat.lt_ge_cases n nf) as [Hn|Hn]; [|rewrite (ended_lemma D true nf folds n h s H Hn) in HC; discriminate HC].
  destruct (copy_rows_lemma D nf folds n h s H Hn) as (h1 & tr & te & s1 & E & HW & _ & HN & HR). rewrite E in HC. injection HC as -> -> -> ->.
  assert (RT : rowsIn h' train) by (intros p Hp; apply HR; unfold pairRows; apply in_app_iff; auto). assert (RS : rowsIn h' test) by (intros p Hp; apply HR; unfold pairRows; apply in_app_iff; auto).
  assert (HX : forall p, In p (hd_rows train) -> ~ In p (hd_rows test)).
  { unfold pairRows in HN. cbn [fst snd] in HN. clear - HN. induction (hd_rows train) as [|x l IH]; intros p Hp; [destruct Hp|]. cbn [app] in HN. apply NoDup_cons_iff in HN as [H1 H2].
    destruct Hp as [->|Hp]; [intros Hx; apply H1, in_app_iff; auto|auto]. }
  split; [|split; [|split]].
  - intros h2 H2. split; eapply values_written; eauto; intros p Hp Hq; specialize (HA p Hp).
    + specialize (HR p ltac:(unfold pairRows; apply in_app_iff; auto)). lia.
    + specialize (HR p ltac:(unfold pairRows; apply in_app_iff; auto)). lia.
  - intros h2 H2. assert (RA : rowsIn h' A).
    { intros p Hp. specialize (HA p Hp). specialize (HW p HA (fun x => x)). apply nth_error_Some. rewrite HW. apply nth_error_Some. exact HA. }
    rewrite (values_written A _ h' h2 H2 RA); [|intros p Hp Hq; specialize (HA p Hq); specialize (HR p Hp); lia].
    eapply values_written; eauto.
  - intros h2 H2. eapply values_written; eauto. intros p Hp Hq. exact (HX p Hq Hp).
  - intros h2 H2. eapply values_written; eauto.
Qed.
