(** GradStep with an output channel: C149. *)
From Verif Require Import Base F64 Env Utils Tree Options Train Spec SpecTrain TrainEx CV SpecCV CVEx Grid SpecGrid Grad GradConc SpecGrad GradEx GradOut GradOutProofs GradOutEx.
Open Scope Z_scope.

(** C149. In every execution with an output channel the caller's record (position 0) keeps its contents *)
Theorem c149_caller_unchanged fuel evc evs co step fd central Ori s :
  zsteps fuel evc evs co step fd central true (zinit true Ori) s -> nth_error (z_heap s) 0 = Some Ori.
Proof. exact (caller_lemma fuel evc evs co step fd central Ori s). Qed.
(** nothing is sent before the return; then either exactly the returned record has been sent, and it is not the caller's, or, with
    forward differences and a failing cross-validation of a copy of the options, the caller's record is returned and nothing has
    been sent *)
Theorem c149_sent fuel evc evs co step fd central Ori s : zsteps fuel evc evs co step fd central true (zinit true Ori) s ->
  match z_ret s with
  | None => z_sent s = []
  | Some p => exists c, copyOf Ori c /\
      ((p <> 0%nat /\ z_sent s = [p] /\ (central = true \/ exists r, evc c = Ok r /\ cv_err r = false)) \/
       (p = 0%nat /\ z_sent s = [] /\ central = false /\ exists r, evc c = Ok r /\ cv_err r = true))
  end.
Proof. exact (sent_copy fuel evc evs co step fd central Ori s). Qed.
(** after the return nothing more is sent, and no option record changes, whatever the goroutines still running do *)
Theorem c149_final fuel evc evs co step fd central out Ori s s' p :
  zsteps fuel evc evs co step fd central out (zinit out Ori) s -> zsteps fuel evc evs co step fd central out s s' -> z_ret s = Some p ->
  z_ret s' = Some p /\ z_sent s' = z_sent s /\ forall k, nth_error (z_heap s') k = nth_error (z_heap s) k.
Proof. exact (final_lemma fuel evc evs co step fd central out Ori s s' p). Qed.
(** the record sent is one GradStep can return for a copy of the options without a channel *)
Theorem c149_same_as_copy fuel evc evs co step fd central Ori s p R :
  zsteps fuel evc evs co step fd central true (zinit true Ori) s -> z_ret s = Some p -> p <> 0%nat -> nth_error (z_heap s) p = Some R ->
  exists c s', copyOf Ori c /\ o_earlystop c = 0 /\ zsteps fuel evc evs co step fd central false (zinit false c) s' /\ z_ret s' = Some 0%nat /\ nth_error (z_heap s') 0 = Some R.
Proof. exact (copy_runs fuel evc evs co step fd central Ori s p R). Qed.
(** without a channel nothing is sent, the caller's record is returned, and its contents are those of the executions of C61 *)
Theorem c149_nil_channel fuel evc evs co step fd central Ori s : zsteps fuel evc evs co step fd central false (zinit false Ori) s ->
  z_sent s = [] /\ (z_ret s = None \/ z_ret s = Some 0%nat).
Proof. exact (nil_lemma fuel evc evs co step fd central Ori s). Qed.
Theorem c149_nil_runs fuel evc evs co step fd central Ori R :
  (exists s, zsteps fuel evc evs co step fd central false (zinit false Ori) s /\ z_ret s = Some 0%nat /\ nth_error (z_heap s) 0 = Some R) <->
  (gradBegin evc central Ori = Ok (inr R) \/
   exists curr o1 s, gradBegin evc central Ori = Ok (inl (curr, o1)) /\ gsteps (stepActs fuel evs co step fd curr central) (ginit o1) s /\ m_main s = GDone /\ m_O s = R).
Proof. exact (nil_runs fuel evc evs co step fd central Ori R). Qed.
(** with a channel the returned record has lost EarlyStop, without one it keeps it *)
Theorem c149_early_stop {K} E fuelcv ints rndf id (D : DataBunch K) nfold fuel evs co step fd central (out : bool) Ori s p R :
  validInts (Z.of_nat (length (Data D))) ints -> length (Labels D) = length (Data D) ->
  let evc := fun o => MultiClassCrossValidation E fuelcv ints rndf id D nfold (Some o) false in
  zsteps fuel evc evs co step fd central out (zinit out Ori) s -> z_ret s = Some p -> z_sent s = (if out then [p] else []) ->
  (out = false -> central = true \/ exists r, evc Ori = Ok r /\ cv_err r = false) ->
  nth_error (z_heap s) p = Some R -> o_earlystop R = if out then 0 else o_earlystop Ori.
Proof. exact (early_stop E fuelcv ints rndf id D nfold fuel evs co step fd central out Ori s p R). Qed.
(** GradStep does not block as long as the channel has a reader *)
Theorem c149_progress fuel evc evs co step fd central out Ori s : parShape evs -> zsteps fuel evc evs co step fd central out (zinit out Ori) s -> z_ret s = None ->
  (exists s', zstep fuel evc evs co step fd central out s s') \/ (central = false /\ exists c, copyOf Ori c /\ forall r, evc c <> Ok r) \/
  exists o curr p, In p gradOrder /\ nth_error (z_heap s) (z_O s) = Some o /\ forall l, ParamaterGradStep fuel (evs p) co p step fd curr central o <> Ok l.
Proof. exact (out_progress fuel evc evs co step fd central out Ori s). Qed.
(** a reader that waits for the record can wait forever: GradStep returns, and no execution sends anything *)
Theorem c149_always_sends_refuted co : (exists s, zsteps 30 fewEval gEval co fone (fdec 1 10) false true (zinit true gE) s /\ z_ret s = Some 0%nat) /\
  forall s, zsteps 30 fewEval gEval co fone (fdec 1 10) false true (zinit true gE) s -> z_sent s = [].
Proof. exact (ex_silent co). Qed.
Example c149_nonvacuous : exists s R, zsteps 30 gCur gEval (gBox million) fone (fdec 1 10) true true (zinit true gE) s /\ z_ret s = Some 1%nat /\ z_sent s = [1%nat] /\
  z_heap s = [gE; R] /\ o_earlystop R = 0 /\ o_earlystop gE = 5.
Proof. exact ex_out_run. Qed.
Print Assumptions c149_caller_unchanged.
Print Assumptions c149_sent.
Print Assumptions c149_final.
Print Assumptions c149_same_as_copy.
Print Assumptions c149_nil_channel.
Print Assumptions c149_nil_runs.
Print Assumptions c149_early_stop.
Print Assumptions c149_progress.
Print Assumptions c149_always_sends_refuted.
