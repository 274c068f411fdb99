(** Saving and loading: the statements of C41-C47 and C83, and concrete runs. *)
From Coq Require Import Ascii String.
From Verif Require Import Base F64 F64Lemmas Env EnvLemmas Utils Tree Options Train Spec SpecTrain TrainThms TrainMore Examples TrainEx
  Feats SpecFeats FeatsThms FeatsConc UtilsThms Text Json SpecJson JsonProofs JsonCodec.
From Coq Require Import List.
Open Scope Z_scope.

Definition withRounds (M : MultiClass) (b : list (list tree)) : MultiClass :=
  MkMC b (mc_lr M) (mc_labels M) (mc_pt M) (mc_base M) (mc_xgb M).
Definition softmaxOf (E : Env) : option (dense -> dense -> res dense) := Some (fun P Q => SoftMaxDense E P (Some Q)).

Lemma c41_lemma C t : CodecOk C -> t <> Nil ->
  ((exists lines, JSONTree C t 0 = Ok (Some (lines, 1), nodes t)) <-> treeFinite t) /\
  (~ treeFinite t -> JSONTree C t 0 = Ok (None, nodes t)) /\
  forall lines id cur rest, JSONTree C t 0 = Ok (Some (lines, id), cur) ->
    readTree C (unlines lines ++ rest) = Ok (Some (unsampled t, rest)) /\
    (forall row, PredictSingle (unsampled t) row = PredictSingle t row) /\ Leaf (unsampled t) = Leaf t.
Proof.
  intros HC HN. rewrite JSONTree_spec by auto. rewrite <- finTree_iff. split; [|split].
  - destruct (finTree t); split; try discriminate; eauto. intros (l & H). discriminate H.
  - destruct (finTree t); [congruence|auto].
  - intros lines id cur rest H. rewrite <- JSONTree_spec in H by auto. split; [eapply read_written; eauto|]. split; [apply unsampled_predict|].
    destruct t; [congruence|reflexivity].
Qed.

Lemma c43_lemma C E M name : CodecOk C -> writable M -> modelFinite M ->
  exists out M', JSONMultiClass C M name (fun _ => true) = Ok (out, true) /\ UnJSONMultiClass C E (concat out) true = Ok (Some M') /\
    mc_b M' = map (map unsampled) (removelast (mc_b M)) /\ mc_lr M' = mc_lr M /\ mc_labels M' = mc_labels M /\
    mc_base M' = mc_base M /\ mc_xgb M' = false /\
    (name = tx "softmax" -> mc_pt M = softmaxOf E ->
       forall row bufs, PredictMC M' row bufs = PredictMC (withRounds M (removelast (mc_b M))) row bufs) /\
    ((length (mc_b M) <= 1)%nat -> mc_b M' = [] /\ forall row bufs, PredictMC M' row bufs = Panic).
Proof.
  intros HC HW HF. destruct (c44_lemma C M name (fun _ => true) HW) as (out & ok & HJ & _ & HI).
  rewrite (proj2 (HI (fun _ => eq_refl)) HF) in HJ.
  destruct (reload_lemma C HC E M name out _ HW HJ) as (M' & HU & B1 & B2 & B3 & B4 & B5 & B6).
  assert (HB : removelast (map (map unsampled) (mc_b M)) = map (map unsampled) (removelast (mc_b M))).
  { clear. induction (mc_b M) as [|a l IH]; auto. destruct l as [|b l]; auto.
    change (map unsampled a :: removelast (map (map unsampled) (b :: l)) = map unsampled a :: map (map unsampled) (removelast (b :: l))). rewrite IH. auto. }
  rewrite HB in B1. exists out, M'. repeat (split; [auto; fail|]). split; [|].
  - intros Hn Hp row bufs. apply PredictMC_ext.
    + rewrite (rawScores_map M' (removelast (mc_b M)) row B1). unfold rawScores. cbn [mc_b mc_lr mc_base withRounds]. rewrite B2, B4. auto.
    + cbn [mc_pt withRounds]. rewrite B6, (proj2 (text_eqb_iff _ _) Hn), Hp. reflexivity.
  - intros HL. assert (HE : mc_b M' = []). { rewrite B1. destruct (mc_b M) as [|a [|b l]]; auto. simpl in HL. lia. }
    split; [auto|]. intros row bufs. unfold PredictMC, rawScores. rewrite HE. reflexivity.
Qed.

Lemma c45_lemma C E M name out p q : CodecOk C -> writable M -> JSONMultiClass C M name (fun _ => true) = Ok (out, true) -> concat out = p ++ q ->
  UnJSONMultiClass C E p true = Ok None \/
  exists M', UnJSONMultiClass C E p true = Ok (Some M') /\ isPrefix (mc_b M') (map (map unsampled) (removelast (mc_b M))) /\
    mc_lr M' = mc_lr M /\ mc_labels M' = mc_labels M /\ mc_base M' = mc_base M.
Proof.
  intros HC HW HJ HP. assert (HF : modelFinite M).
  { destruct (c44_lemma C M name (fun _ => true) HW) as (out' & ok & HJ' & _ & HI). apply (HI (fun _ => eq_refl)). congruence. }
  destruct (c43_lemma C E M name HC HW HF) as (out' & M1 & HJ' & HU & B1 & B2 & B3 & B4 & _).
  assert (out' = out) by congruence. subst out'. rewrite HP in HU. destruct (truncated_lemma C E p q M1 HU) as [HN|(M' & HM & A1 & A2 & A3 & A4 & _)]; [auto|].
  right. exists M'. rewrite B1 in A1. repeat split; congruence.
Qed.
(** any text at all *)
Lemma c45_any_lemma C E p q M : UnJSONMultiClass C E (p ++ q) true = Ok (Some M) ->
  UnJSONMultiClass C E p true = Ok None \/
  exists M', UnJSONMultiClass C E p true = Ok (Some M') /\ isPrefix (mc_b M') (mc_b M) /\ mc_lr M' = mc_lr M /\ mc_labels M' = mc_labels M /\
    mc_base M' = mc_base M /\ mc_pt M' = mc_pt M.
Proof. apply truncated_lemma. Qed.

Lemma c46_lemma C E M name out : CodecOk C -> writable M -> JSONMultiClass C M name (fun _ => true) = Ok (out, true) -> name <> tx "softmax" ->
  exists M', UnJSONMultiClass C E (concat out) true = Ok (Some M') /\ forall row bufs, PredictMC M' row bufs = Panic.
Proof.
  intros HC HW HJ HN. destruct (reload_lemma C HC E M name out _ HW HJ) as (M' & HU & _ & _ & _ & _ & _ & B6).
  exists M'. split; [auto|]. intros row bufs. apply no_transform. rewrite B6. destruct (text_eqb name (tx "softmax")) eqn:EN; auto.
  apply text_eqb_iff in EN. congruence.
Qed.

Lemma unsampled_scores t : splitScores (unsampled t) = splitScores t.
Proof. induction t as [|d l IHl r IHr]; auto. cbn [unsampled splitScores]. rewrite unsampled_leaf. cbn [t_split t_best]. rewrite IHl, IHr. auto. Qed.
Lemma unsampled_two t : twoChildren t -> twoChildren (unsampled t).
Proof. induction 1; cbn [unsampled]; [apply tc_leaf|apply tc_inner]; auto. Qed.
Lemma removelast_In {A} (l : list A) x : In x (removelast l) -> In x l.
Proof. induction l as [|a l IH]; auto. destruct l as [|b l]; [simpl; tauto|]. intros [H|H]; [left; auto|right; apply IH; auto]. Qed.

Lemma c47_lemma C E M name out : CodecOk C -> EnvOk E -> writable M -> JSONMultiClass C M name (fun _ => true) = Ok (out, true) ->
  mc_xgb M = true -> (forall t, In t (concat (mc_b M)) -> twoChildren t) ->
  exists M' f f', UnJSONMultiClass C E (concat out) true = Ok (Some M') /\ FeatureImportance E M = Ok f /\ FeatureImportance E M' = Ok f' /\
    tallies (flat_map splitScores (concat (removelast (mc_b M)))) f' /\
    ((forall g, In g (fe_gains f) -> fnanb g = false) -> bestFirst true f) /\
    ((forall g, In g (fe_gains f') -> fnanb g = false) -> bestFirst false f').
Proof.
  intros HC HE HW HJ HX HT. assert (HF : modelFinite M).
  { destruct (c44_lemma C M name (fun _ => true) HW) as (out' & ok & HJ' & _ & HI). apply (HI (fun _ => eq_refl)). congruence. }
  destruct (c43_lemma C E M name HC HW HF) as (out' & M1 & HJ' & HU & B1 & B2 & B3 & B4 & B5 & _).
  assert (out' = out) by congruence. subst out'.
  destruct (importance_lemma E HE M HT) as (f & Hf & _ & Hb). rewrite HX in Hb.
  destruct (importance_lemma E HE M1) as (f' & Hf' & Ht' & Hb').
  { rewrite B1. intros t Ht. apply in_concat in Ht as (ens & He & Ht). apply in_map_iff in He as (ens0 & <- & He). apply in_map_iff in Ht as (t0 & <- & Ht).
    apply unsampled_two. apply HT. apply in_concat. exists ens0. split; [apply removelast_In; auto|auto]. }
  rewrite B5 in Hb'. exists M1, f, f'. repeat (split; [auto; fail|]). split; [|auto].
  replace (flat_map splitScores (concat (removelast (mc_b M)))) with (flat_map splitScores (concat (mc_b M1))); auto.
  rewrite B1. rewrite <- concat_map. generalize (concat (removelast (mc_b M))). clear. induction l as [|t l IH]; auto. cbn [map flat_map]. rewrite unsampled_scores, IH. auto.
Qed.

(** trained models can be saved *)
Lemma trained_writable {K} E rnd (D : DataBunch K) O tr : NewMultiClass E rnd D O = Ok tr -> (length (Data D) <= length (Labels D))%nat ->
  writable (tr_model tr) /\ mc_pt (tr_model tr) = softmaxOf E.
Proof.
  intros H HL. split.
  - intros ens He. split; [exact (proj1 (proj2 (c30_lemma E rnd D O tr H)) ens He)|].
    intros t Ht ->. assert (HT : twoChildren Nil) by (eapply (trained_twoChildren E rnd D O tr H HL); apply in_concat; eauto). inversion HT.
  - unfold NewMultiClass in H. repeat (first [apply bind_Ok in H as (? & _ & H) | match type of H with (let '(_, _) := ?x in _) = _ => destruct x end
      | match type of H with (if ?c then _ else _) = _ => destruct c; [try discriminate H|try discriminate H] end]).
    all: try discriminate H; injection H as <-; reflexivity.
Qed.

(** *** concrete runs *)
Lemma ex_json : exists tr out, NewMultiClass env0 draws0 exD (mkO true 0 3 2 (fdec 3 10)) = Ok tr /\
  writable (tr_model tr) /\ modelFinite (tr_model tr) /\ JSONMultiClass codec0 (tr_model tr) (tx "softmax") (fun _ => true) = Ok (out, true) /\
  length (mc_b (tr_model tr)) = 3%nat /\ (forall t, In t (concat (mc_b (tr_model tr))) -> twoChildren t) /\ mc_xgb (tr_model tr) = true.
Proof.
  destruct (ok_ex runFull (fun tr => match JSONMultiClass codec0 (tr_model tr) (tx "softmax") (fun _ => true) with Ok (_, b) => b | _ => false end
     && (length (mc_b (tr_model tr)) =? 3)%nat && mc_xgb (tr_model tr)))
    as (tr & Htr & HB); [vm_compute; reflexivity|].
  apply andb_true_iff in HB as [HB H3]. apply andb_true_iff in HB as [HB H2]. exists tr.
  assert (HW := trained_writable _ _ _ _ _ Htr ltac:(simpl; lia)). destruct HW as [HW _].
  destruct (c44_lemma codec0 (tr_model tr) (tx "softmax") (fun _ => true) HW) as (out & ok & HJ & _ & HI). rewrite HJ in HB. subst ok.
  exists out. split; [exact Htr|]. split; [auto|]. split; [apply HI; auto|]. split; [auto|]. split; [apply Nat.eqb_eq; auto|]. split; [|auto].
  apply (trained_twoChildren _ _ _ _ _ Htr). simpl; lia.
Qed.

Lemma ex_json_tree : exists t lines, NewTree env0 exX exOg = Ok t /\ JSONTree codec0 t 0 = Ok (Some (lines, 1), nodes t) /\ treeFinite t /\ 3 <= nodes t.
Proof.
  destruct (ok_ex (NewTree env0 exX exOg) (fun t => finTree t && (3 <=? nodes t))) as (t & Ht & HB); [vm_compute; reflexivity|].
  apply andb_true_iff in HB as [HB H3]. exists t. assert (HN : t <> Nil) by (intros ->; discriminate H3).
  rewrite (JSONTree_spec codec0 t 0 HN), HB. eexists. split; [auto|]. split; [reflexivity|]. split; [apply finTree_iff; auto|]. apply Z.leb_le; auto.
Qed.
(** a model that cannot be saved, and what is left of it on disk *)
Definition nanTree : tree := Node (MkT None finf fnan 1 0 fzero false 1) Nil Nil.
Definition zeroTree : tree := Node (MkT None finf fzero 1 0 fzero false 1) Nil Nil.
Definition badModel : MultiClass := MkMC [[zeroTree; nanTree]] fzero [3; 4] None fzero false.
Lemma ex_json_bad : writable badModel /\ ~ modelFinite badModel /\
  exists out, JSONMultiClass codec0 badModel (tx "softmax") (fun _ => true) = Ok (out, false) /\ length out = 5%nat.
Proof.
  assert (HW : writable badModel).
  { intros ens [<-|[]]. split; [simpl; lia|]. intros t [<-|[<-|[]]]; discriminate. }
  split; [auto|]. split.
  - intros (_ & _ & H). specialize (H nanTree ltac:(simpl; auto)). apply finTree_iff in H. discriminate H.
  - destruct (ok_ex (JSONMultiClass codec0 badModel (tx "softmax") (fun _ => true)) (fun p => negb (snd p) && (length (fst p) =? 5)%nat))
      as ([out ok] & Ho & HB); [vm_compute; reflexivity|].
    apply andb_true_iff in HB as [H1 H2]. cbn [fst snd] in *. destruct ok; [discriminate H1|]. exists out. split; [auto|]. apply Nat.eqb_eq; auto.
Qed.
Lemma ex_json_sigmoid : exists out, JSONMultiClass codec0 (withRounds badModel [[zeroTree; zeroTree]]) (tx "sigmoid") (fun _ => true) = Ok (out, true).
Proof.
  destruct (ok_ex (JSONMultiClass codec0 (withRounds badModel [[zeroTree; zeroTree]]) (tx "sigmoid") (fun _ => true)) (fun p => snd p)) as ([out ok] & Ho & HB);
    [vm_compute; reflexivity|]. cbn [snd] in HB. subst ok. eauto.
Qed.
(** a reader failing with anything but io.EOF *)
Lemma read_error_lemma C E r : UnJSONMultiClass C E r false = Ok None.
Proof.
  unfold UnJSONMultiClass. destruct (readLine r) as [[s r']|]; auto. destruct (c_unmeta C s); auto.
  destruct (unLoop_total C (S (length r')) r' [] None) as (o & -> & _); [lia|]. cbn [bind]. destruct o; auto.
Qed.
