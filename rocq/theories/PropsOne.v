(** Property C145: training with one label. *)
From Verif Require Import Base F64 F64Lemmas Env EnvLemmas Utils Tree Options Train Spec SpecTrain Examples TrainEx InvEx OneProofs OneEx.
From Coq Require Import List.
Open Scope Z_scope.

(** C145: if all labels are the same, every tree of an XGB model is a single leaf with the value 0 ... *)
Theorem c145_zero_trees : forall K E rnd (D : DataBunch K) O0 tr a id, EnvOk E ->
  NewMultiClass E rnd D O0 = Ok tr -> (length (Data D) <= length (Labels D))%nat -> (forall v, In v (Labels D) -> v = a) ->
  o_xgb O0 = true -> (o_loss O0 = SQErrLoss id \/ o_loss O0 = MSELoss id) -> fltb (o_gamma O0) fzero = false -> fltb fzero (o_lambda O0) = true ->
  ffinite (o_lr O0) = true -> ffinite (o_base O0) = true ->
  (forall x, feqb x (o_base O0) = true -> ffinite (e_exp E x) = true /\ fltb fzero (e_exp E x) = true) ->
  forall ens t, In ens (mc_b (tr_model tr)) -> In t ens -> exists d, t = Node d Nil Nil /\ t_leaf d = true /\ feqb (t_value d) fzero = true.
Proof. exact c145_zero_trees_lemma. Qed.
(** ... the prediction is 1 for every row ... *)
Theorem c145_certain : forall K E rnd (D : DataBunch K) O0 tr a id, EnvOk E ->
  NewMultiClass E rnd D O0 = Ok tr -> (length (Data D) <= length (Labels D))%nat -> (forall v, In v (Labels D) -> v = a) ->
  o_xgb O0 = true -> (o_loss O0 = SQErrLoss id \/ o_loss O0 = MSELoss id) -> fltb (o_gamma O0) fzero = false -> fltb fzero (o_lambda O0) = true ->
  ffinite (o_lr O0) = true -> ffinite (o_base O0) = true ->
  (forall x, feqb x (o_base O0) = true -> ffinite (e_exp E x) = true /\ fltb fzero (e_exp E x) = true) ->
  forall row bufs preds bufs', PredictMC (tr_model tr) row bufs = Ok (preds, bufs') -> preds = [fone].
Proof. intros K E rnd D O0 tr a id HE HN HL HA HX HLs HG HLam HLr HB HExp. exact (predict_one E HE rnd D O0 tr a id HN HL HA HX HLs HG HLam HLr HB HExp). Qed.
(** ... and whatever function is applied to the raw scores, it is applied to one number that equals BaseScore *)
Theorem c145_raw_score : forall K E rnd (D : DataBunch K) O0 tr a id, EnvOk E ->
  NewMultiClass E rnd D O0 = Ok tr -> (length (Data D) <= length (Labels D))%nat -> (forall v, In v (Labels D) -> v = a) ->
  o_xgb O0 = true -> (o_loss O0 = SQErrLoss id \/ o_loss O0 = MSELoss id) -> fltb (o_gamma O0) fzero = false -> fltb fzero (o_lambda O0) = true ->
  ffinite (o_lr O0) = true -> ffinite (o_base O0) = true ->
  (forall x, feqb x (o_base O0) = true -> ffinite (e_exp E x) = true /\ fltb fzero (e_exp E x) = true) ->
  forall f row bufs preds bufs',
  PredictMC (MkMC (mc_b (tr_model tr)) (mc_lr (tr_model tr)) (mc_labels (tr_model tr)) (Some f) (mc_base (tr_model tr)) (mc_xgb (tr_model tr))) row bufs = Ok (preds, bufs') ->
  exists s out, feqb s (o_base O0) = true /\ f (Dense 1 1 [s]) (Dense 1 1 [fzero]) = Ok out /\ preds = d_data out.
Proof. intros K E rnd D O0 tr a id HE HN HL HA HX HLs HG HLam HLr HB HExp. exact (activation E HE rnd D O0 tr a id HN HL HA HX HLs HG HLam HLr HB HExp). Qed.
(** so no activation function turns such a model into a regression: all rows get the same prediction *)
Theorem c145_same_everywhere : forall K E rnd (D : DataBunch K) O0 tr a id, EnvOk E ->
  NewMultiClass E rnd D O0 = Ok tr -> (length (Data D) <= length (Labels D))%nat -> (forall v, In v (Labels D) -> v = a) ->
  o_xgb O0 = true -> (o_loss O0 = SQErrLoss id \/ o_loss O0 = MSELoss id) -> fltb (o_gamma O0) fzero = false -> fltb fzero (o_lambda O0) = true ->
  ffinite (o_lr O0) = true -> ffinite (o_base O0) = true ->
  (forall x, feqb x (o_base O0) = true -> ffinite (e_exp E x) = true /\ fltb fzero (e_exp E x) = true) ->
  feqb (o_base O0) fzero = false ->
  forall f row1 row2 b1 b2 p1 p2 b1' b2', let M := MkMC (mc_b (tr_model tr)) (mc_lr (tr_model tr)) (mc_labels (tr_model tr)) (Some f) (mc_base (tr_model tr)) (mc_xgb (tr_model tr)) in
  PredictMC M row1 b1 = Ok (p1, b1') -> PredictMC M row2 b2 = Ok (p2, b2') -> p1 = p2.
Proof. exact c145_same_everywhere_lemma. Qed.
(** with regular gradient boosting every prediction is NaN *)
Theorem c145_boosting_nan : forall K E rnd (D : DataBunch K) O0 tr a id, EnvOk E -> NewMultiClass E rnd D O0 = Ok tr -> (length (Data D) <= length (Labels D))%nat ->
  (forall v, In v (Labels D) -> v = a) -> o_xgb O0 = false -> o_loss O0 = MSELoss id ->
  ffinite (e_exp E (o_base O0)) = true -> fltb fzero (e_exp E (o_base O0)) = true ->
  forall row bufs preds bufs', PredictMC (tr_model tr) row bufs = Ok (preds, bufs') -> forall p, In p preds -> fnanb p = true.
Proof. exact (@one_label_nan). Qed.
Example c145_nonvacuous : EnvOk env0 /\ Check oneO = true /\ (exists tr preds bufs, NewMultiClass env0 draws0 exOne oneO = Ok tr /\ PredictMC (tr_model tr) (vec [5]) [] = Ok (preds, bufs)) /\
  (forall v, In v (Labels exOne) -> v = 7) /\ o_xgb oneO = true /\ o_loss oneO = SQErrLoss 0 /\ fltb (o_gamma oneO) fzero = false /\ fltb fzero (o_lambda oneO) = true /\
  ffinite (o_lr oneO) = true /\ ffinite (o_base oneO) = true /\ (forall x, feqb x (o_base oneO) = true -> ffinite (e_exp env0 x) = true /\ fltb fzero (e_exp env0 x) = true) /\
  (exists tr preds bufs, NewMultiClass env0 draws0 exOne (DefaultGOptions 0) = Ok tr /\ PredictMC (tr_model tr) (vec [5]) [] = Ok (preds, bufs) /\ preds <> []) /\
  ffinite (e_exp env0 (o_base (DefaultGOptions 0))) = true /\ fltb fzero (e_exp env0 (o_base (DefaultGOptions 0))) = true.
Proof. exact (conj env0_ok ex_one). Qed.
Print Assumptions c145_zero_trees.
Print Assumptions c145_certain.
Print Assumptions c145_raw_score.
Print Assumptions c145_same_everywhere.
Print Assumptions c145_boosting_nan.
