(** Proofs of C137: what the file of a model holds. *)
From Coq Require Import Ascii String.
From Verif Require Import Base F64 Env EnvLemmas Utils Tree Options Train Spec SpecTrain Text Json SpecJson JsonProofs JsonCodec JsonMore Examples TrainEx.
From Coq Require Import List.
Open Scope Z_scope.

Section Heading.
Context (C : Codec) (HC : CodecOk C) (E : Env) (h : text) (Hnl : ~ In NL h) (Hh : containsT h (tx "ROUND") = true).
Lemma heading_round : containsT (h ++ [NL]) (tx "ROUND") = true.
Proof. apply containsT_iff in Hh as (a & b & ->). apply containsT_iff. exists a, (b ++ [NL]). rewrite <- !app_assoc. reflexivity. Qed.
Lemma unRead_heading labels b : forall rn outs trees class, map Some outs = roundItems C labels rn b ->
  unRead C (concat outs ++ h ++ [NL]) trees class = Ok (Some (trees ++ match class with Some c => [c] | None => [] end ++ map (map unsampled) b)).
Proof.
  induction b as [|ens b IH]; intros rn outs trees class HO; cbn [roundItems] in HO.
  - destruct outs; [|discriminate HO]. cbn [concat app map]. rewrite unRead_eq.
    rewrite readLine_app by exact Hnl. rewrite heading_round. rewrite unRead_eq. cbn [readLine]. destruct class; rewrite ?app_nil_r; reflexivity.
  - destruct outs as [|o1 outs]; [discriminate HO|]. cbn [map] in HO. injection HO as -> HO. cbn [concat].
    apply map_Some_app in HO as (outs1 & outs2 & -> & H1 & H2). rewrite concat_app, <- !app_assoc, unRead_round.
    rewrite (unRead_classes C HC labels ens 0) by auto. rewrite (IH (S rn)) by auto. f_equal. f_equal. cbn [map app].
    destruct class as [c|]; rewrite <- ?app_assoc; reflexivity.
Qed.
Lemma complete_lemma M name out wok : writable M -> JSONMultiClass C M name wok = Ok (out, true) ->
  exists M', UnJSONMultiClass C E (concat out ++ h ++ [NL]) true = Ok (Some M') /\
    mc_b M' = map (map unsampled) (mc_b M) /\ mc_lr M' = mc_lr M /\ mc_labels M' = mc_labels M /\ mc_base M' = mc_base M /\
    (name = tx "softmax" -> mc_pt M = softmaxOf E -> forall row bufs, PredictMC M' row bufs = PredictMC M row bufs).
Proof.
  intros HW HJ. destruct (JSONMultiClass_spec C M name wok HW) as (out' & ok & HJ' & rest & HE & H1 & _).
  assert (out' = out /\ ok = true) by (split; congruence). destruct H as [-> ->]. rewrite (H1 eq_refl), app_nil_r in HE. simpl app in HE.
  unfold modelItems in HE. destruct out as [|o outs]; [discriminate HE|]. cbn [map] in HE. injection HE as Ho HE.
  unfold marshalMeta in Ho. destruct (finiteMeta _) eqn:EF; [|discriminate Ho]. injection Ho as <-.
  destruct (ck_meta C HC _ EF) as (m' & Hm & A1 & A2 & A3 & A4). cbn [jm_lr jm_labels jm_base jm_name] in *.
  unfold UnJSONMultiClass. cbn [concat]. rewrite <- !app_assoc. simpl app at 2. rewrite readLine_app by apply (ck_meta_nl C HC). rewrite Hm.
  change (unLoop C (S (length (concat outs ++ h ++ [NL]))) (concat outs ++ h ++ [NL]) [] None) with (unRead C (concat outs ++ h ++ [NL]) [] None).
  rewrite (unRead_heading (mc_labels M) (mc_b M) 0) by auto. cbn [bind app]. eexists. split; [reflexivity|]. cbn [mc_b mc_lr mc_labels mc_base mc_xgb mc_pt].
  split; [reflexivity|]. split; [auto|]. split; [auto|]. split; [auto|]. intros Hn Hp row bufs. apply PredictMC_ext.
  - match goal with |- rawScores ?N row = _ => rewrite (rawScores_map N (mc_b M) row eq_refl) end. unfold rawScores. cbn [mc_b mc_lr mc_base]. rewrite A1, A3. reflexivity.
  - cbn [mc_pt]. unfold ProbTransformMap. rewrite (proj2 (text_eqb_iff _ _) (proj2 A4 Hn)), Hp. reflexivity.
Qed.
End Heading.

(** the same text, the same model *)
Lemma same_file_lemma C M M' name name' out out' wok wok' : CodecOk C -> writable M -> writable M' ->
  JSONMultiClass C M name wok = Ok (out, true) -> JSONMultiClass C M' name' wok' = Ok (out', true) -> concat out = concat out' ->
  map (map unsampled) (mc_b M) = map (map unsampled) (mc_b M') /\ mc_lr M = mc_lr M' /\ mc_labels M = mc_labels M' /\ mc_base M = mc_base M' /\
  (mc_pt M = mc_pt M' -> forall row bufs, PredictMC M row bufs = PredictMC M' row bufs).
Proof.
  intros HC HW HW' HJ HJ' Heq.
  assert (Hnl : ~ In NL (tx "ROUND")) by (intros H; simpl in H; repeat (destruct H as [H|H]; [discriminate H|]); destruct H).
  destruct (complete_lemma C HC env0 (tx "ROUND") Hnl eq_refl M name out wok HW HJ) as (N & HN & B1 & B2 & B3 & B4 & _).
  destruct (complete_lemma C HC env0 (tx "ROUND") Hnl eq_refl M' name' out' wok' HW' HJ') as (N' & HN' & B1' & B2' & B3' & B4' & _).
  rewrite Heq, HN' in HN. assert (N' = N) by congruence. subst N'. rewrite B1 in B1'. rewrite B2 in B2'. rewrite B3 in B3'. rewrite B4 in B4'.
  split; [exact B1'|]. split; [exact B2'|]. split; [exact B3'|]. split; [exact B4'|]. intros Hp row bufs. apply PredictMC_ext; [|exact Hp].
  set (P := MkMC (map (map unsampled) (mc_b M)) (mc_lr M) (mc_labels M) (mc_pt M) (mc_base M) (mc_xgb M)).
  pose proof (rawScores_map P (mc_b M) row eq_refl) as R1. pose proof (rawScores_map P (mc_b M') row B1') as R2. rewrite R1 in R2.
  unfold rawScores in *. cbn [P mc_b mc_lr mc_base] in R2. rewrite R2, B2', B4'. reflexivity.
Qed.

(** saving again *)
Lemma JSONTree_unsampled C t : forall cur, JSONTree C (unsampled t) cur = JSONTree C t cur.
Proof.
  induction t as [|d l IHl r IHr]; intros cur; [reflexivity|]. cbn [unsampled JSONTree].
  replace (match unsampled l with Nil => Ok (Some ([], 0), cur + 1) | Node _ _ _ => JSONTree C (unsampled l) (cur + 1) end)
    with (match l with Nil => Ok (Some ([], 0), cur + 1) | Node _ _ _ => JSONTree C l (cur + 1) end).
  2: { rewrite IHl. destruct l; reflexivity. }
  destruct (match l with Nil => _ | Node _ _ _ => _ end) as [[lres cur1]| |]; cbn [bind]; [|reflexivity|reflexivity].
  replace (match unsampled r with Nil => Ok (Some ([], 0), cur1) | Node _ _ _ => JSONTree C (unsampled r) cur1 end)
    with (match r with Nil => Ok (Some ([], 0), cur1) | Node _ _ _ => JSONTree C r cur1 end).
  2: { rewrite IHr. destruct r; reflexivity. }
  reflexivity.
Qed.
Lemma classItems_unsampled C labels ts : forall cn, classItems C labels cn (map unsampled ts) = classItems C labels cn ts.
Proof. induction ts as [|t ts IH]; intros cn; cbn [map classItems]; [reflexivity|]. unfold treeItem. rewrite JSONTree_unsampled, IH. reflexivity. Qed.
Lemma roundItems_unsampled C labels b : forall rn, roundItems C labels rn (map (map unsampled) b) = roundItems C labels rn b.
Proof. induction b as [|ens b IH]; intros rn; cbn [map roundItems]; [reflexivity|]. rewrite classItems_unsampled, IH. reflexivity. Qed.
Lemma roundItems_app C labels b b' : forall rn, roundItems C labels rn (b ++ b') = roundItems C labels rn b ++ roundItems C labels (rn + length b) b'.
Proof.
  induction b as [|ens b IH]; intros rn; cbn [app roundItems length]; [rewrite Nat.add_0_r; reflexivity|].
  rewrite IH, <- app_assoc. replace (S rn + length b)%nat with (rn + S (length b))%nat by lia. reflexivity.
Qed.

Lemma writes_all C M name l : writable M -> modelItems C M name = map Some l -> JSONMultiClass C M name (fun _ => true) = Ok (l, true).
Proof.
  intros HW HI. destruct (JSONMultiClass_spec C M name (fun _ => true) HW) as (out & ok & HJ & rest & HE & H1 & H2). rewrite HJ. simpl app in HE. rewrite HI in HE.
  destruct ok.
  - rewrite (H1 eq_refl), app_nil_r in HE. f_equal. f_equal. clear - HE. revert out HE. induction l as [|a l IH]; intros [|b out] H; try discriminate H; [reflexivity|].
    cbn [map] in H. injection H as -> H. f_equal. apply IH. exact H.
  - destruct (H2 eq_refl) as (x & r & -> & [-> | Hx]); [|discriminate Hx]. exfalso.
    assert (Hin : In None (map (@Some text) l)) by (rewrite HE; apply in_app_iff; right; left; reflexivity).
    apply in_map_iff in Hin as (y & Hy & _). discriminate Hy.
Qed.
Lemma removelast_split {A} (l : list A) : exists t, l = removelast l ++ t.
Proof. destruct l as [|a l] using rev_ind; [exists []; reflexivity|]. rewrite removelast_last. eexists. reflexivity. Qed.
Lemma map_removelast {A B} (f : A -> B) l : map f (removelast l) = removelast (map f l).
Proof. destruct l as [|a l] using rev_ind; [reflexivity|]. rewrite map_app. cbn [map]. rewrite !removelast_last. reflexivity. Qed.
Lemma resave_lemma C E M name out wok M' : CodecOk C -> writable M -> JSONMultiClass C M name wok = Ok (out, true) ->
  UnJSONMultiClass C E (concat out) true = Ok (Some M') ->
  exists out' rest, JSONMultiClass C M' name (fun _ => true) = Ok (out', true) /\ out = out' ++ rest /\ concat out = concat out' ++ concat rest.
Proof.
  intros HC HW HJ HU. destruct (reload_lemma C HC E M name out wok HW HJ) as (M1 & HU1 & B1 & B2 & B3 & B4 & _).
  assert (M1 = M') by congruence. subst M1. clear HU1.
  destruct (JSONMultiClass_spec C M name wok HW) as (out1 & ok & HJ1 & rest & HE & H1 & _).
  assert (out1 = out /\ ok = true) by (split; congruence). destruct H as [-> ->]. rewrite (H1 eq_refl), app_nil_r in HE. simpl app in HE.
  assert (HW' : writable M').
  { intros ens He. rewrite B1, <- map_removelast in He. apply in_map_iff in He as (ens0 & <- & He). apply removelast_In in He. destruct (HW ens0 He) as [A1 A2].
    rewrite B3, map_length. split; [exact A1|]. intros t Ht. apply in_map_iff in Ht as (t0 & <- & Ht). specialize (A2 t0 Ht). destruct t0; [congruence|discriminate]. }
  destruct (removelast_split (mc_b M)) as [tl Htl].
  assert (HI : exists l2, modelItems C M name = modelItems C M' name ++ l2).
  { unfold modelItems. rewrite B2, B3, B4, B1, <- map_removelast, roundItems_unsampled. exists (roundItems C (mc_labels M) (0 + length (removelast (mc_b M))) tl).
    rewrite Htl at 1. rewrite roundItems_app. reflexivity. }
  destruct HI as [l2 HI]. rewrite HE in HI. apply map_Some_app in HI as (o1 & o2 & -> & E1 & _). symmetry in E1.
  exists o1, o2. split; [apply writes_all; [exact HW'|exact E1]|]. split; [reflexivity|apply concat_app].
Qed.

(** two different models with one file *)
Definition fileModel (s : option (list Z)) : MultiClass := MkMC [[Node (MkT s finf fone 1 0 fzero false 1) Nil Nil; zeroTree]] fone [3; 4] None fzero false.
Lemma ex_same_file : exists out out', fileModel (Some [0]) <> fileModel None /\ writable (fileModel (Some [0])) /\ writable (fileModel None) /\
  JSONMultiClass codec0 (fileModel (Some [0])) (tx "softmax") (fun _ => true) = Ok (out, true) /\
  JSONMultiClass codec0 (fileModel None) (tx "softmax") (fun _ => true) = Ok (out', true) /\ concat out = concat out' /\ length out = 6%nat.
Proof.
  assert (HW : forall s, writable (fileModel s)).
  { intros s ens [<-|[]]. split; [simpl; lia|]. intros t [<-|[<-|[]]]; discriminate. }
  assert (HF : forall s, modelItems codec0 (fileModel s) (tx "softmax") = modelItems codec0 (fileModel None) (tx "softmax")) by reflexivity.
  destruct (ok_ex (JSONMultiClass codec0 (fileModel None) (tx "softmax") (fun _ => true)) (fun p => snd p && Nat.eqb (length (fst p)) 6)) as ([out ok] & Ho & Hl); [vm_compute; reflexivity|].
  cbn [fst snd] in Hl. apply andb_prop in Hl as [-> Hl]. apply Nat.eqb_eq in Hl. exists out, out. split.
  - intros H. assert (HH : (match mc_b (fileModel (Some [0])) with (Node d _ _ :: _) :: _ => t_samples d | _ => None end) = (match mc_b (fileModel None) with (Node d _ _ :: _) :: _ => t_samples d | _ => None end)) by (rewrite H; reflexivity).
    discriminate HH.
  - split; [apply HW|]. split; [apply HW|]. split; [|split; [exact Ho|split; [reflexivity|exact Hl]]].
    apply writes_all; [apply HW|]. rewrite HF. destruct (JSONMultiClass_spec codec0 (fileModel None) (tx "softmax") (fun _ => true) (HW None)) as (out1 & ok1 & HJ & rest & HE & H1 & _).
    rewrite Ho in HJ. assert (out1 = out /\ ok1 = true) by (split; congruence). destruct H as [-> ->]. rewrite (H1 eq_refl), app_nil_r in HE. exact HE.
Qed.
