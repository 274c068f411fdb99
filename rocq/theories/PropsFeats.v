(** Property theorems about feature importance and ids: C68-C71. *)
From Verif Require Import Base F64 Env EnvLemmas Utils Tree Spec Options Train SpecTrain Examples TrainEx Feats SpecFeats FeatsThms FeatsConc.
Open Scope Z_scope.

(** C68 *)
Theorem c68_gains_accumulate xgb ops :
  (forall f2, In (OpMerge f2) ops -> length (fe_gains f2) = length (fe_feat f2)) ->
  exists f, foldM runOp (NewFeats xgb) ops = Ok f /\
    firstOccurrences (map fst (flat_map opAdds ops)) (fe_feat f) /\ length (fe_gains f) = length (fe_feat f) /\
    forall i x g, nth_error (fe_feat f) i = Some x -> nth_error (fe_gains f) i = Some g -> g = leftSum (gainsFor (flat_map opAdds ops) x).
Proof. exact (c68_lemma xgb ops). Qed.
Example c68_nonvacuous : match foldM runOp (NewFeats true) [OpAdd 4 fone; OpAdd 2 ftwo; OpMerge (MkFeats true [2; 4] [fone; fone])] with
  | Ok f => fe_feat f = [4; 2] /\ map ftoZ (fe_gains f) = [2; 3] | _ => False end.
Proof. vm_compute. auto. Qed.
(** a set without repeated features merged into itself *)
Theorem c68_merge_self : forall f, NoDup (fe_feat f) -> length (fe_gains f) = length (fe_feat f) ->
  MergeSelf f = Ok (MkFeats (fe_xgb f) (fe_feat f) (map (fun g => fadd g g) (fe_gains f))).
Proof. exact c68_self_lemma. Qed.
Example c68_nonvacuous_self : NoDup [4; 2] /\ match MergeSelf (MkFeats true [4; 2] [fone; ftwo]) with Ok f => map ftoZ (fe_gains f) = [2; 4] | _ => False end /\
  (* a set that concurrent Adds left with a feature twice (C69) *)
  match MergeSelf (MkFeats true [7; 7] [fone; ftwo]) with Ok f => map ftoZ (fe_gains f) = [4; 2] | _ => False end.
Proof. split; [repeat constructor; cbn; intuition lia|]. vm_compute. auto. Qed.
Print Assumptions c68_gains_accumulate.
Print Assumptions c68_merge_self.

(** C69. For every schedule of goroutines adding [adds] to the set [f]: when all have returned, every contribution is
    in exactly one entry of its feature; no goroutine can be stuck before that. *)
Theorem c69_no_gain_lost f adds sched s : length (fe_gains f) = length (fe_feat f) -> addRun (addInit f adds) sched = Some s ->
  ((forall t, In t (as_threads s) -> a_pc t = ADone) -> exists contrib, distributes (pairsOf f ++ adds) (as_feats s) contrib) /\
  ((exists t, In t (as_threads s) /\ a_pc t <> ADone) -> exists k s', addStep s k = Some s').
Proof. exact (c69_lemma f adds sched s). Qed.
(** no duplicates when every added feature is already there *)
Theorem c69_known_features_safe f adds sched s : (forall p, In p adds -> In (fst p) (fe_feat f)) -> addRun (addInit f adds) sched = Some s ->
  fe_feat (as_feats s) = fe_feat f.
Proof. exact (c69_known f adds sched s). Qed.
(** otherwise the documented concurrency-safety fails *)
Theorem c69_concurrent_add_refuted : exists adds sched s,
  addRun (addInit (NewFeats true) adds) sched = Some s /\ (forall t, In t (as_threads s) -> a_pc t = ADone) /\
  fe_feat (as_feats s) = [7; 7].
Proof.
  exists [(7, fzero); (7, fzero)], [0; 1; 0; 0; 0; 0; 1; 1; 1; 1]%nat. eexists. split; [vm_compute; reflexivity|].
  split; [|reflexivity]. intros t [<-|[<-|[]]]; reflexivity.
Qed.
(** two goroutines add to known features in turns *)
Example c69_nonvacuous : exists sched s, addRun (addInit (MkFeats true [3; 7] [fone; fone]) [(7, fone); (3, ftwo)]) sched = Some s /\
  (forall t, In t (as_threads s) -> a_pc t = ADone) /\ map ftoZ (fe_gains (as_feats s)) = [3; 2].
Proof.
  exists [0; 1; 0; 0; 0; 1; 1; 1]%nat.
  assert (HB : match addRun (addInit (MkFeats true [3; 7] [fone; fone]) [(7, fone); (3, ftwo)]) [0; 1; 0; 0; 0; 1; 1; 1]%nat with
    | Some s => forallb (fun t => match a_pc t with ADone => true | _ => false end) (as_threads s) && if list_eq_dec Z.eq_dec (map ftoZ (fe_gains (as_feats s))) [3; 2] then true else false
    | None => false end = true) by (vm_compute; reflexivity).
  destruct (addRun _ _) as [s|]; [|discriminate HB]. apply andb_prop in HB as [H1 H2]. exists s. split; [reflexivity|]. split.
  - intros t Ht. rewrite forallb_forall in H1. specialize (H1 t Ht). destruct (a_pc t); congruence.
  - destruct (list_eq_dec _ _ _); congruence.
Qed.
Print Assumptions c69_no_gain_lost.
Print Assumptions c69_known_features_safe.
Print Assumptions c69_concurrent_add_refuted.

(** C70 *)
Theorem c70_tree_importance E xgb t : EnvOk E -> twoChildren t ->
  (Leaf t = Ok true -> TreeImportance E xgb t = Ok None) /\
  (Leaf t = Ok false -> exists f, TreeImportance E xgb t = Ok (Some f) /\ tallies (splitScores t) f /\
     ((forall g, In g (fe_gains f) -> fnanb g = false) -> bestFirst xgb f)).
Proof. exact (fun HE => tree_importance_lemma E HE xgb t). Qed.
Theorem c70_ensemble_importance E M : EnvOk E -> (forall t, In t (concat (mc_b M)) -> twoChildren t) ->
  exists f, FeatureImportance E M = Ok f /\ tallies (flat_map splitScores (concat (mc_b M))) f /\
    ((forall g, In g (fe_gains f) -> fnanb g = false) -> bestFirst (mc_xgb M) f).
Proof. exact (fun HE => importance_lemma E HE M). Qed.
(** the hypothesis on trees holds for everything NewTree and NewMultiClass return *)
Theorem c70_new_tree_shape E X o t : NewTree E X o = Ok t -> twoChildren t.
Proof. exact (NewTree_twoChildren E X o t). Qed.
Theorem c70_trained_shape {K} E rnd (D : DataBunch K) O tr : NewMultiClass E rnd D O = Ok tr -> (length (Data D) <= length (Labels D))%nat ->
  forall t, In t (concat (mc_b (tr_model tr))) -> twoChildren t.
Proof. exact (trained_twoChildren E rnd D O tr). Qed.
Example c70_nonvacuous : exists tr f, NewMultiClass env0 draws0 exD (mkO true 0 3 2 (fdec 3 10)) = Ok tr /\
  FeatureImportance env0 (tr_model tr) = Ok f /\ fe_feat f = [0].
Proof. exact ex_c70. Qed.
Print Assumptions c70_tree_importance.
Print Assumptions c70_ensemble_importance.
Print Assumptions c70_trained_shape.
Print Assumptions c70_new_tree_shape.

(** C71. The giver starts at 0 and [n] goroutines call Next; [sched] is any interleaving of their steps. *)
Theorem c71_unique_ids n sched s : idRun (idInit n) sched = Some s ->
  NoDup (idsOf s) /\ (forall r, In r (idsOf s) -> 1 <= r <= Z.of_nat n) /\
  ((forall p, In p (is_threads s) -> idFinished p) -> Permutation (idsOf s) (map Z.of_nat (seq 1 n))) /\
  (length sched <= 4 * n)%nat /\
  ((exists p, In p (is_threads s) /\ ~ idFinished p) -> exists k s', idStep s k = Some s').
Proof. exact (c71_lemma n sched s). Qed.
Example c71_nonvacuous : exists s, idRun (idInit 2) [1; 1; 1; 1; 0; 0; 0; 0]%nat = Some s /\ idsOf s = [2; 1].
Proof. eexists. split; vm_compute; reflexivity. Qed.
Print Assumptions c71_unique_ids.
