(** The default grid can be searched (C138). *)
From Coq Require Import Reals Lra.
From Verif Require Import Base F64 F64Lemmas NumErr ErrEx Env EnvLemmas Utils Tree Spec SpecTot Options Train CV SpecCV CVEx CVTotEx Grid SpecGrid GridProofs SpecGridTot GridTot.
Open Scope Z_scope.

Lemma SF_fair (lo hi st : f64) ml el mh eh ms es : B2SF st = SpecFloat.S754_finite false ms es ->
  (B2SF lo = SpecFloat.S754_zero false \/ B2SF lo = SpecFloat.S754_finite false ml el) -> B2SF hi = SpecFloat.S754_finite false mh eh ->
  el <= es + 30 -> eh <= es + 30 -> Zpos ml <= Zpos ms * 2 ^ 20 -> Zpos mh <= Zpos ms * 2 ^ 20 -> fairStep (MkRange lo hi st).
Proof.
  assert (FF : forall (x : f64) m e, B2SF x = SpecFloat.S754_finite false m e -> ffinite x = true /\ B2R x = (IZR (Zpos m) * bpow radix2 e)%R).
  { intros x m e H. rewrite B2R_SF, H. split; [destruct x; try discriminate H; reflexivity|]. reflexivity. }
  assert (HB : forall m e m' e', e <= e' + 30 -> Zpos m <= Zpos m' * 2 ^ 20 ->
    (Rabs (IZR (Zpos m) * bpow radix2 e) <= bpow radix2 51 * (IZR (Zpos m') * bpow radix2 e'))%R).
  { intros m e m' e' He Hm. rewrite Rabs_pos_eq; [|apply Rmult_le_pos; [apply IZR_le; lia|apply bpow_ge_0]].
    replace (bpow radix2 51 * (IZR (Zpos m') * bpow radix2 e'))%R with ((IZR (Zpos m') * bpow radix2 21) * bpow radix2 (30 + e'))%R.
    2: { rewrite bpow_plus. change 51 with (21 + 30). rewrite bpow_plus. ring. }
    apply Rmult_le_compat; [apply IZR_le; lia|apply bpow_ge_0| |apply bpow_le; lia].
    change (bpow radix2 21) with (IZR (2 ^ 21)). rewrite <- mult_IZR. apply IZR_le. lia. }
  intros Hs Hl Hh E1 E2 M1 M2. destruct (FF _ _ _ Hs) as [Fs Vs]. destruct (FF _ _ _ Hh) as [Fh Vh]. unfold fairStep. cbn [r_lo r_hi r_step].
  assert (HL : ffinite lo = true /\ (Rabs (B2R lo) <= bpow radix2 51 * B2R st)%R).
  { destruct Hl as [Hl|Hl].
    - rewrite (B2R_SF lo), Hl. split; [destruct lo; try discriminate Hl; reflexivity|]. cbn [SF2R]. rewrite Rabs_R0, Vs. apply Rmult_le_pos; [apply bpow_ge_0|]. apply Rmult_le_pos; [apply IZR_le; lia|apply bpow_ge_0].
    - destruct (FF _ _ _ Hl) as [Fl Vl]. split; auto. rewrite Vl, Vs. apply HB; auto. }
  destruct HL as [Fl HL]. split; auto. split; auto. split; auto. split; [rewrite Vs; apply Rmult_lt_0_compat; [apply IZR_lt; lia|apply bpow_gt_0]|]. split; auto.
  rewrite Vh, Vs. apply HB; auto.
Qed.
Definition fairb (r : range f64) : bool :=
  match B2SF (r_step r), B2SF (r_lo r), B2SF (r_hi r) with
  | SpecFloat.S754_finite false ms es, l, SpecFloat.S754_finite false mh eh =>
      (eh <=? es + 30) && (Zpos mh <=? Zpos ms * 2 ^ 20) &&
      match l with
      | SpecFloat.S754_zero false => true
      | SpecFloat.S754_finite false ml el => (el <=? es + 30) && (Zpos ml <=? Zpos ms * 2 ^ 20)
      | _ => false
      end
  | _, _, _ => false
  end.
Lemma fairb_ok r : fairb r = true -> fairStep r.
Proof.
  destruct r as [lo hi st]. unfold fairb. cbn [r_lo r_hi r_step].
  destruct (B2SF st) as [b|b| |[|] ms es] eqn:Es; try discriminate.
  destruct (B2SF hi) as [b|b| |[|] mh eh] eqn:Eh; try discriminate.
  intros H. apply andb_true_iff in H as [H HL]. apply andb_true_iff in H as [H1 H2]. apply Z.leb_le in H1, H2.
  destruct (B2SF lo) as [[|]|b| |[|] ml el] eqn:El; try discriminate.
  - apply (SF_fair lo hi st ms es mh eh ms es); auto; lia.
  - apply andb_true_iff in HL as [H3 H4]. apply Z.leb_le in H3, H4. apply (SF_fair lo hi st ml el mh eh ms es); auto.
Qed.
Definition goodb (o : GridOptions) : bool :=
  (1 <=? g_ncpus o) && (1 <=? r_step (g_rounds o)) && (1 <=? r_step (g_maxdepth o)) && fairb (g_mcw o) && fairb (g_css o) && fairb (g_lr o) &&
  fairb (g_lambda o) && fairb (g_gamma o) && fairb (g_ss o) && fleb fzero (r_lo (g_css o)) && fleb fzero (r_lo (g_ss o)).
Lemma goodb_ok o : goodb o = true -> goodGrid o.
Proof.
  unfold goodb. rewrite !andb_true_iff, !Z.leb_le. intros ((((((((((H1 & H2) & H3) & H4) & H5) & H6) & H7) & H8) & H9) & H10) & H11).
  split; auto using fairb_ok.
Qed.
Lemma defaultX_good : goodGrid DefaultXGridOptions.
Proof. apply goodb_ok. vm_compute. reflexivity. Qed.
Lemma grid_returns {K} E ints rndf id (D : DataBunch K) nfold options : EnvOk E -> goodTable (Data D) -> (2 <= length (Data D))%nat ->
  length (Labels D) = length (Data D) -> sizesOk (Data D) ->
  (forall k, validInts (Z.of_nat (length (Data D))) (ints k)) -> (forall k, fairInts (Z.of_nat (length (Data D))) (ints k)) ->
  (forall o, options = Some o -> goodGrid o) ->
  exists fuel r, Grid E fuel ints rndf id D nfold options = Ok r.
Proof.
  intros HE HG H2 HL HS HV HF HO. unfold Grid. apply search_returns; auto. destruct options as [o|]; [auto|exact defaultX_good].
Qed.
Lemma grid_noerr {K} E ints rndf id (D : DataBunch K) nfold o fuel r : length (Labels D) = length (Data D) ->
  (forall k, validInts (Z.of_nat (length (Data D))) (ints k)) -> goodGrid o -> (4 <= length (Data D))%nat -> nfold <> 1 ->
  Z.of_nat (length (Data D)) < 2 ^ 46 -> Grid E fuel ints rndf id D nfold (Some o) = Ok r -> gr_err r = false.
Proof. intros HL HV G H4 Hf Hs H. unfold Grid in H. eapply search_noerr; eauto. Qed.
Lemma grid_err {K} E ints rndf id (D : DataBunch K) nfold o fuel r : length (Labels D) = length (Data D) ->
  (forall k, validInts (Z.of_nat (length (Data D))) (ints k)) -> goodGrid o -> (length (Data D) < 4)%nat \/ nfold = 1 ->
  Grid E fuel ints rndf id D nfold (Some o) = Ok r -> g_ncpus o <= Z.of_nat (length (gr_spawned r)) ->
  gr_err r = true /\ gr_acc r = fofZ (-1) /\ gr_opts r = None.
Proof.
  intros HL HV G Hs H Hb. unfold Grid in H. eapply search_err; eauto. destruct Hs as [Hs|Hs].
  - assert (length (Data D) / 2 < 2)%nat by (apply Nat.div_lt_upper_bound; lia). lia.
  - assert (requested nfold = 1%nat) as -> by (rewrite Hs; reflexivity). lia.
Qed.
Lemma ex_c138 : goodTable (Data exCV) /\ (4 <= length (Data exCV))%nat /\ length (Labels exCV) = length (Data exCV) /\ sizesOk (Data exCV) /\
  validInts (Z.of_nat (length (Data exCV))) ints0 /\ fairInts (Z.of_nat (length (Data exCV))) ints0 /\ goodGrid DefaultXGridOptions.
Proof.
  destruct ex_c100 as (H1 & _ & H3 & H4 & _ & H6 & H7). split; [auto|]. split; [cbn; lia|]. split; [auto|]. split; [auto|]. split; [auto|]. split; [auto|exact defaultX_good].
Qed.
