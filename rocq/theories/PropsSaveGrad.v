(** Property theorems about gradient searches that save their best models: C116. *)
From Coq Require Import Ascii String.
From Verif Require Import Base F64 Env EnvLemmas Utils Tree Spec Options Train SpecTrain Examples TrainEx Text Json SpecJson JsonCodec JsonMore CV CVEx Grid SpecGrid GridEx Grad SpecGrad GradEx Save SpecSave SaveProofs SaveEx SaveGrad SaveGradProofs SaveGradEx.
From Coq Require Import List.
Open Scope Z_scope.

(** C116. [T k a op] is the text the save after the k-th evaluation puts in the file; [cv] are the cross-validations *)
Theorem c116_gradient_files : forall T save, savesText T save -> forall cv gstep fz, cvRaises cv -> forall fuel id o d r d',
  GradientGridSaving cv gstep fz save fuel id o d = Ok (r, d') -> GradientGridWith cv gstep fz fuel id o = Ok r /\ searchFiles T r d d'.
Proof. exact c116_grad_lemma. Qed.
Theorem c116_hybrid_files : forall T save, savesText T save -> forall cv gstep fz, cvRaises cv -> forall fuel id o d r d',
  HybridGradientGridSaving cv gstep fz save fuel id o d = Ok (r, d') -> HybridGradientGridWith cv gstep fz fuel id o = Ok r /\ searchFiles T r d d'.
Proof. exact c116_hybrid_lemma. Qed.
(** the cross-validations of the library *)
Theorem c116_library_cv : forall K E fuel q id (D : DataBunch K), cvRaises (searchCV E fuel q id D).
Proof. exact @searchCV_raises. Qed.
(** what the file of the best model loads as: a model trained with the options as they were after the best evaluation *)
Theorem c116_best_file : forall K size fok C E rnd (D : DataBunch K) cv gstep fz id fuel o d r d', CodecOk C -> (forall k n, fok k n = None) ->
  (length (Data D) <= length (Labels D))%nat -> cvRaises cv ->
  (GradientGridSaving cv gstep fz (saveOf size fok C E rnd D id) fuel id o d = Ok (r, d') \/
   HybridGradientGridSaving cv gstep fz (saveOf size fok C E rnd D id) fuel id o d = Ok (r, d')) -> gg_err r = false -> gg_accuracies r <> [] ->
  exists k o0 o' tr, nth_error (gg_evals r) k = Some (o0, o', gg_acc r) /\ NewMultiClass E (rnd k) D o' = Ok tr /\
    (modelFinite (tr_model tr) -> exists s M', d' (modelName (gg_acc r)) = Some s /\ modelText C (tr_model tr) s /\ UnJSONMultiClass C E s true = Ok (Some M') /\ mc_lr M' = o_lr o' /\
       mc_b M' = map (map unsampled) (removelast (mc_b (tr_model tr)))).
Proof. exact @c116_best_lemma. Qed.
(** the saved model need not be one of the options that are returned: its learning rate is another *)
Theorem c116_returned_options_refuted : exists r d', exGG = Ok (r, d') /\ gg_err r = false /\ gg_accuracies r <> [] /\ exists t s M', gg_opts r = Some t /\
  d' (modelName (gg_acc r)) = Some s /\ UnJSONMultiClass codec0 env0 s true = Ok (Some M') /\ feqb (mc_lr M') (o_lr t) = false.
Proof. exact ref_c116. Qed.
Theorem c116_hybrid_returned_refuted : exists r d', exHG = Ok (r, d') /\ gg_err r = false /\ gg_accuracies r <> [] /\ exists t s M', gg_opts r = Some t /\
  d' (modelName (gg_acc r)) = Some s /\ UnJSONMultiClass codec0 env0 s true = Ok (Some M') /\ feqb (mc_lr M') (o_lr t) = false.
Proof. exact ref_c116_h. Qed.
Example c116_nonvacuous : (exists T, savesText T exSave) /\ cvRaises (searchCV env0 30 gOr 0 exCV) /\
  (exists r d', exGG = Ok (r, d') /\ gg_err r = false /\ gg_accuracies r <> []) /\ exists r d', exHG = Ok (r, d') /\ gg_err r = false /\ gg_accuracies r <> [].
Proof. exact ex_c116. Qed.
Print Assumptions c116_gradient_files.
Print Assumptions c116_hybrid_files.
Print Assumptions c116_library_cv.
Print Assumptions c116_best_file.
Print Assumptions c116_returned_options_refuted.
Print Assumptions c116_hybrid_returned_refuted.
