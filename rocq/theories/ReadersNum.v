(** Printing and reading numbers: lemmas, and a float parser that satisfies [ParserOk]. *)
From Coq Require Import Ascii String Reals Lra Decimal DecimalString DecimalZ DecimalPos.
From Flocq Require Import Core IEEE754.BinarySingleNaN.
From Verif Require Import Base F64 Env F64Lemmas Utils Text Confu Readers SpecReaders ReadersProofs.
From Coq Require Import List.
Open Scope Z_scope.

(** ** Integers *)
Lemma digits_cons c t acc k : isDigit c = true -> 10 * acc + (byteOf c - 48) = k -> digitsVal (c :: t) acc = digitsVal t k.
Proof. intros H <-. cbn [digitsVal]. rewrite H. reflexivity. Qed.
Lemma digits_acc d : forall p, digitsVal (tx (NilEmpty.string_of_uint d)) (Zpos p) = Some (Zpos (Pos.of_uint_acc d p)).
Proof.
  induction d; intros p; [reflexivity|..]; cbn [NilEmpty.string_of_uint tx list_ascii_of_string Pos.of_uint_acc]; rewrite <- IHd;
    apply digits_cons; try reflexivity; (cbv [byteOf]; match goal with |- context [nat_of_ascii ?c] => let v := eval vm_compute in (nat_of_ascii c) in change (nat_of_ascii c) with v end; lia).
Qed.
Lemma digits_uint d : digitsVal (tx (NilEmpty.string_of_uint d)) 0 = Some (Z.of_N (Pos.of_uint d)).
Proof.
  induction d; [reflexivity|exact IHd|..]; cbn [NilEmpty.string_of_uint Pos.of_uint Z.of_N];
  match goal with |- context [Pos.of_uint_acc d ?p] => rewrite <- (digits_acc d p); reflexivity end.
Qed.
Lemma dec_nat n : 0 <= n -> digitsVal (decZ n) 0 = Some n /\ Forall (fun c => isDigit c = true) (decZ n).
Proof.
  intros Hn. assert (HD : exists d, decZ n = tx (NilEmpty.string_of_uint d) /\ Z.of_N (Pos.of_uint d) = n).
  { destruct n as [|p|p]; [|..|lia].
    - exists (D0 Nil). auto.
    - exists (Pos.to_uint p). split.
      + unfold decZ. cbn [Z.to_int NilZero.string_of_int]. pose proof (DecimalPos.Unsigned.to_uint_nonnil p) as HN.
        destruct (Pos.to_uint p); [congruence|reflexivity..].
      + rewrite DecimalPos.Unsigned.of_to. reflexivity. }
  destruct HD as (d & HE & HV). rewrite HE. split; [rewrite digits_uint, HV; auto|]. apply Forall_forall. apply string_of_uint_digits.
Qed.
Lemma dec_neg p : decZ (Z.neg p) = "-"%char :: decZ (Z.pos p).
Proof.
  unfold decZ. cbn [Z.to_int NilZero.string_of_int tx list_ascii_of_string]. f_equal.
Qed.
Lemma digit_byte c : isDigit c = true <-> 48 <= byteOf c <= 57.
Proof. unfold isDigit, byteOf. lia. Qed.
Lemma atoi_dec z : int64 z -> atoi (decZ z) = Some z.
Proof.
  unfold int64. intros H. destruct (Z_lt_le_dec z 0) as [Hz|Hz].
  - destruct z as [|p|p]; try lia. rewrite dec_neg. unfold atoi. rewrite Ascii.eqb_refl. cbn [orb].
    destruct (dec_nat (Z.pos p)) as [HD _]; [lia|]. pose proof (decZ_nonempty (Z.pos p)) as HN. destruct (decZ (Z.pos p)) as [|c t]; [congruence|].
    rewrite HD. rewrite (proj2 (Z.leb_le _ _)) by lia. rewrite (proj2 (Z.ltb_lt _ _)) by lia. reflexivity.
  - destruct (dec_nat z) as [HD HF]; [lia|]. pose proof (decZ_nonempty z) as HN. unfold atoi. destruct (decZ z) as [|c t]; [congruence|].
    inversion HF as [|? ? Hc _]; subst. apply digit_byte in Hc.
    destruct (Ascii.eqb_spec c "-") as [->|]; [exfalso; unfold byteOf in Hc; simpl in Hc; lia|].
    destruct (Ascii.eqb_spec c "+") as [->|]; [exfalso; unfold byteOf in Hc; simpl in Hc; lia|].
    cbn [orb]. rewrite HD. rewrite (proj2 (Z.leb_le _ _)) by lia. rewrite (proj2 (Z.ltb_lt _ _)) by lia. reflexivity.
Qed.

(** ** Rounding to four decimals *)
Lemma div_RNE a d : 0 < d -> ZnearestE (IZR a / IZR d) = divRNE a d.
Proof.
  intros Hd. assert (HdR : (0 < IZR d)%R) by (apply IZR_lt; lia).
  assert (HF : Zfloor (IZR a / IZR d) = a / d) by (apply Zfloor_div; lia).
  assert (HX : (IZR a / IZR d - IZR (a / d) = IZR (a mod d) / IZR d)%R).
  { pose proof (Z_div_mod_eq_full a d) as HE. apply (Rmult_eq_reg_r (IZR d)); [|lra]. unfold Rdiv.
    rewrite Rmult_minus_distr_r, !Rmult_assoc, Rinv_l, !Rmult_1_r by lra. rewrite <- mult_IZR, <- minus_IZR. f_equal. lia. }
  unfold Znearest, divRNE. rewrite HF, HX. cbv zeta.
  assert (HC : (Rcompare (IZR (a mod d) / IZR d) (/ 2) = (2 * (a mod d) ?= d))%R).
  { rewrite <- (Rcompare_mult_r (IZR d * 2)) by lra. rewrite <- Rcompare_IZR. f_equal; [|field].
    rewrite mult_IZR. field. lra. }
  rewrite HC. destruct (Z.compare_spec (2 * (a mod d)) d) as [HE|HL|HG].
  - rewrite (proj2 (Z.ltb_ge _ _)) by lia. rewrite (proj2 (Z.ltb_ge d _)) by lia.
    destruct (Z.even (a / d)); cbn [negb]; [auto|]. rewrite Zceil_floor_neq, HF; [auto|]. rewrite HF. intros HH.
    assert (IZR (a mod d) = 0)%R.
    { rewrite <- HH in HX. apply (Rmult_eq_reg_r (/ IZR d)); [|apply Rinv_neq_0_compat; lra]. unfold Rdiv in HX. rewrite <- HX. ring. }
    apply eq_IZR in H. lia.
  - rewrite (proj2 (Z.ltb_lt _ _)) by lia. auto.
  - rewrite (proj2 (Z.ltb_ge _ _)) by lia. rewrite (proj2 (Z.ltb_lt d _)) by lia. rewrite Zceil_floor_neq, HF; [auto|]. rewrite HF. intros HH.
    assert (IZR (a mod d) = 0)%R.
    { rewrite <- HH in HX. apply (Rmult_eq_reg_r (/ IZR d)); [|apply Rinv_neq_0_compat; lra]. unfold Rdiv in HX. rewrite <- HX. ring. }
    apply eq_IZR in H. lia.
Qed.
Lemma ZnearestE_opp x : ZnearestE (- x) = - ZnearestE x.
Proof.
  rewrite Znearest_opp. f_equal. unfold Znearest. destruct (Rcompare _ _); auto.
  replace (Z.even (- (Zfloor x + 1))) with (negb (Z.even (Zfloor x))); [rewrite negb_involutive; reflexivity|].
  rewrite Z.even_opp, Z.even_add. destruct (Z.even (Zfloor x)); reflexivity.
Qed.
Lemma ten_nonneg x : 0 <= tenThousands x.
Proof.
  unfold tenThousands. destruct x as [s|s| |s m e He]; try lia. destruct (Z.leb_spec 0 e) as [H|H].
  - assert (0 <= 2 ^ e) by (apply Z.pow_nonneg; lia). lia.
  - unfold divRNE. assert (0 < 2 ^ (- e)) by (apply Z.pow_pos_nonneg; lia).
    assert (0 <= Z.pos m * 10000 / 2 ^ (- e)) by (apply Z.div_pos; lia). repeat (match goal with |- context [if ?b then _ else _] => destruct b end); lia.
Qed.
Lemma ten_spec x : is_finite x = true -> ZnearestE (B2R x * 10000) = if Bsign x then - tenThousands x else tenThousands x.
Proof.
  destruct x as [s|s| |s m e He]; try discriminate; intros _; cbn [B2R Bsign tenThousands].
  - rewrite Rmult_0_l. replace (ZnearestE 0) with 0; [destruct s; reflexivity|]. symmetry. apply (Zrnd_IZR ZnearestE 0).
  - assert (HP : ZnearestE (F2R (beta:=radix2) {| Fnum := Z.pos m; Fexp := e |} * 10000) = if 0 <=? e then Z.pos m * 2 ^ e * 10000 else divRNE (Z.pos m * 10000) (2 ^ (- e))).
    { destruct (Z.leb_spec 0 e) as [H|H].
      - unfold F2R; cbn [Fnum Fexp]. rewrite <- (IZR_Zpower radix2) by lia. rewrite <- !mult_IZR. apply (Zrnd_IZR ZnearestE).
      - rewrite <- div_RNE by (apply Z.pow_pos_nonneg; lia). f_equal. unfold F2R; cbn [Fnum Fexp].
        rewrite mult_IZR. change 2 with (radix_val radix2) at 1. rewrite IZR_Zpower by lia. rewrite bpow_opp.
        unfold Rdiv. rewrite Rinv_inv. ring. }
    destruct s; cbn [SpecFloat.cond_Zopp]; [|exact HP].
    change (- Z.pos m) with (Z.opp (Z.pos m)). rewrite F2R_Zopp, Ropp_mult_distr_l_reverse, ZnearestE_opp, HP. reflexivity.
Qed.
Lemma tenth_spec x : is_finite x = true -> tenth (Bsign x) (tenThousands x) = (IZR (ZnearestE (B2R x * 10000)) / 10000)%R.
Proof. intros H. unfold tenth. rewrite (ten_spec x H). reflexivity. Qed.
Lemma rnd_mono x y : (x <= y)%R -> (rnd x <= rnd y)%R.
Proof. intros H. unfold rnd. apply round_le; [apply fexp_correct; reflexivity|apply valid_rnd_N|exact H]. Qed.
Lemma tenth_fits x : is_finite x = true -> (Rabs (rnd (tenth (Bsign x) (tenThousands x))) < bpow radix2 1024)%R.
Proof.
  intros Hf. rewrite (tenth_spec x Hf).
  assert (HV : Valid_exp (SpecFloat.fexp 53 1024)) by (apply fexp_correct; reflexivity).
  assert (HN : (Rabs (IZR (ZnearestE (B2R x * 10000)) / 10000 - B2R x) <= / 20000)%R).
  { pose proof (Znearest_half (fun t => negb (Z.even t)) (B2R x * 10000)) as H. apply Rabs_le_inv in H. apply Rabs_le. lra. }
  destruct x as [s|s| |s m e He]; try discriminate.
  - assert (HZ : ZnearestE (B2R (B754_zero s : f64) * 10000) = 0) by (cbn [B2R]; rewrite Rmult_0_l; apply (Zrnd_IZR ZnearestE 0)).
    rewrite HZ. unfold Rdiv. rewrite Rmult_0_l. unfold rnd. rewrite round_0 by apply valid_rnd_N. rewrite Rabs_R0. apply bpow_gt_0.
  - destruct (Z.leb_spec 0 e) as [H|H].
    + set (x := B754_finite s m e He : f64) in *.
      assert (HI : (IZR (ZnearestE (B2R x * 10000)) / 10000 = B2R x)%R).
      { assert (HX : exists k, (B2R x * 10000 = IZR k)%R).
        { subst x. cbn [B2R]. unfold F2R; cbn [Fnum Fexp]. rewrite <- (IZR_Zpower radix2) by lia. rewrite <- !mult_IZR. eauto. }
        destruct HX as (k & HX). rewrite HX. rewrite (Zrnd_IZR ZnearestE k), <- HX. field. }
      rewrite HI. unfold rnd. rewrite round_generic; [apply abs_B2R_lt_emax|apply valid_rnd_N|apply generic_format_B2R].
    + assert (HB : (Rabs (B2R (B754_finite s m e He : f64)) <= bpow radix2 53)%R).
      { cbn [B2R]. rewrite <- F2R_Zabs. unfold F2R; cbn [Fnum Fexp].
        assert (Hm : Z.abs (SpecFloat.cond_Zopp s (Z.pos m)) <= 2 ^ 53).
        { rewrite abs_cond_Zopp. cbn [Z.abs]. pose proof He as He2. unfold SpecFloat.bounded in He2. apply andb_prop in He2 as [He2 _].
          apply canonical_canonical_mantissa with (sx := false) in He2.
          unfold canonical, cexp in He2. cbn [Fexp SpecFloat.cond_Zopp] in He2.
          apply le_IZR. change 2 with (radix_val radix2). rewrite IZR_Zpower by lia.
          assert (HM : (mag radix2 (F2R (beta:=radix2) {| Fnum := Z.pos m; Fexp := e |}) : Z) <= 53 + e).
          { unfold SpecFloat.fexp in He2. set (M := mag radix2 _ : Z) in *. lia. }
          pose proof (bpow_mag_gt radix2 (F2R (beta:=radix2) {| Fnum := Z.pos m; Fexp := e |})) as HG.
          rewrite <- F2R_Zabs in HG. cbn [Z.abs] in HG. unfold F2R in HG; cbn [Fnum Fexp] in HG.
          assert (HLT : (IZR (Z.pos m) * bpow radix2 e < bpow radix2 53 * bpow radix2 e)%R).
          { rewrite <- bpow_plus. eapply Rlt_le_trans; [exact HG|]. apply bpow_le. exact HM. }
          apply Rmult_lt_reg_r in HLT; [lra|apply bpow_gt_0]. }
        apply IZR_le in Hm. change 2 with (radix_val radix2) in Hm. rewrite IZR_Zpower in Hm by lia.
        assert (HE : (bpow radix2 e <= 1)%R) by (change 1%R with (bpow radix2 0); apply bpow_le; lia).
        pose proof (bpow_gt_0 radix2 e). pose proof (bpow_gt_0 radix2 53).
        apply Rle_trans with (bpow radix2 53 * 1)%R; [|lra]. apply Rmult_le_compat; auto; [apply IZR_le; lia|lra]. }
      set (y := (IZR (ZnearestE (B2R (B754_finite s m e He : f64) * 10000)) / 10000)%R) in *. set (b := B2R (B754_finite s m e He : f64)) in *.
      assert (HY : (Rabs y <= bpow radix2 54)%R).
      { replace (bpow radix2 54) with (bpow radix2 53 + bpow radix2 53)%R by (change 54 with (1 + 53); rewrite bpow_plus; change (bpow radix2 1) with 2%R; ring).
        assert (H1 : (1 <= bpow radix2 53)%R) by (change 1%R with (bpow radix2 0); apply bpow_le; lia).
        replace y with ((y - b) + b)%R by ring. eapply Rle_trans; [apply Rabs_triang|]. lra. }
      assert (HG : generic_format radix2 (SpecFloat.fexp 53 1024) (bpow radix2 54)) by (apply generic_format_bpow; vm_compute; discriminate).
      assert (HR : (Rabs (rnd y) <= bpow radix2 54)%R) by (unfold rnd; apply abs_round_le_generic; auto; apply valid_rnd_N).
      eapply Rle_lt_trans; [exact HR|]. apply bpow_lt. lia.
Qed.

(** ** The text of a number *)
Definition plainChar (c : ascii) : bool := isDigit c || Ascii.eqb c "-" || Ascii.eqb c ".".
Lemma dec_plain z c : In c (decZ z) -> plainChar c = true.
Proof. unfold plainChar. intros H. apply decZ_chars in H as [->| ->]; [reflexivity|]. rewrite orb_true_r. reflexivity. Qed.
Lemma zeros_plain k c : In c (repeat "0"%char k) -> plainChar c = true.
Proof. intros H. apply repeat_spec in H as ->. reflexivity. Qed.
Lemma fixed_plain s n c : In c (fixedText s n) -> plainChar c = true.
Proof.
  unfold fixedText. rewrite !in_app_iff. intros [H|[H|[H|[H|H]]]].
  - destruct s; [destruct H as [<-|[]]; reflexivity|destruct H].
  - eapply dec_plain; eauto.
  - destruct H as [<-|[]]. reflexivity.
  - eapply zeros_plain; eauto.
  - eapply dec_plain; eauto.
Qed.
Lemma fixed_len s n : (6 <= length (fixedText s n))%nat.
Proof.
  unfold fixedText. rewrite !app_length, repeat_length. pose proof (decZ_nonempty (n / 10000)) as HN.
  assert (1 <= length (decZ (n / 10000)))%nat by (destruct (decZ (n / 10000)); [congruence|simpl; lia]).
  change (length (tx ".")) with 1%nat. lia.
Qed.
Lemma padL_long w t : (w <= length t)%nat -> padL w t = t.
Proof. intros H. unfold padL. replace (w - length t)%nat with O by lia. reflexivity. Qed.
Lemma fmt_finite x : is_finite x = true -> fmtF x = fixedText (Bsign x) (tenThousands x).
Proof.
  intros H. unfold fmtF. rewrite (padL_long 5).
  - destruct x; try discriminate; reflexivity.
  - pose proof (fixed_len (Bsign x) (tenThousands x)). destruct x; try discriminate; lia.
Qed.
(** reading back a printed float *)
Lemma read_printed pf x : ParserOk pf -> is_finite x = true -> exists x', pf (fmtF x) = Some x' /\ asPrinted x x'.
Proof.
  intros HP Hf. rewrite (fmt_finite x Hf). destruct (po_fixed pf HP (Bsign x) (tenThousands x) (ten_nonneg x) (tenth_fits x Hf)) as (x' & H1 & H2 & H3 & H4).
  exists x'. split; [exact H1|]. unfold asPrinted. rewrite Hf. split; [auto|]. split; [|auto]. rewrite H3, tenth_spec; auto.
Qed.
Lemma fmt_special x : is_finite x = false -> exists v k, fmtF x = repeat " "%char (S k) ++ v /\ In v [tx "NaN"; tx "+Inf"; tx "-Inf"].
Proof.
  destruct x as [s|s| |s m e He]; try discriminate; intros _; unfold fmtF.
  - exists (if s then tx "-Inf" else tx "+Inf"), O. destruct s; simpl; auto.
  - exists (tx "NaN"), 1%nat. simpl. auto.
Qed.

(** ** A parser of texts with a decimal point *)
Definition ratF (s : bool) (n : Z) : f64 :=
  match n with
  | Zpos p =>
      SF2B (let '(mz, ez, lz) := SpecFloat.SFdiv_core_binary 53 1024 (Zpos p) 0 10000 0 in binary_round_aux 53 1024 mode_NE (xorb s false) mz ez lz)
           (proj1 (Bdiv_correct_aux 53 1024 Hprec Hemax mode_NE s p 0 false 10000 0))
  | _ => B754_zero s
  end.
Lemma ratF_spec s n : 0 <= n -> (Rabs (rnd (tenth s n)) < bpow radix2 1024)%R -> is_finite (ratF s n) = true /\ B2R (ratF s n) = rnd (tenth s n) /\ Bsign (ratF s n) = s.
Proof.
  intros Hn Hlt. destruct n as [|p|p]; [|..|lia].
  - cbn [ratF is_finite B2R Bsign]. split; [auto|]. split; [|auto]. unfold tenth. replace (if s then (- 0)%Z else 0%Z) with 0%Z by (destruct s; auto).
    unfold Rdiv. rewrite Rmult_0_l. unfold rnd. rewrite round_0 by apply valid_rnd_N. auto.
  - cbn [ratF]. pose proof (Bdiv_correct_aux 53 1024 Hprec Hemax mode_NE s p 0 false 10000 0) as HB. cbv zeta in HB.
    generalize (proj1 (Bdiv_correct_aux 53 1024 Hprec Hemax mode_NE s p 0 false 10000 0)). cbv zeta.
    set (z := let '(mz, ez, lz) := SpecFloat.SFdiv_core_binary 53 1024 (Z.pos p) 0 10000 0 in binary_round_aux 53 1024 mode_NE (xorb s false) mz ez lz) in *.
    intros Hz. destruct HB as [_ HB].
    assert (HT : (F2R (beta:=radix2) {| Fnum := SpecFloat.cond_Zopp s (Z.pos p); Fexp := 0 |} / F2R (beta:=radix2) {| Fnum := SpecFloat.cond_Zopp false 10000; Fexp := 0 |} = tenth s (Z.pos p))%R).
    { unfold tenth, F2R; cbn [Fnum Fexp SpecFloat.cond_Zopp]. change (bpow radix2 0) with 1%R. rewrite !Rmult_1_r. destruct s; reflexivity. }
    rewrite HT in HB. change (round radix2 (SpecFloat.fexp 53 1024) (round_mode mode_NE) (tenth s (Z.pos p))) with (rnd (tenth s (Z.pos p))) in HB.
    rewrite Rlt_bool_true in HB by exact Hlt. destruct HB as (H1 & H2 & H3).
    rewrite xorb_false_r in H3. split; [|split].
    + rewrite is_finite_SF2B. exact H2.
    + rewrite B2R_SF2B. exact H1.
    + rewrite Bsign_SF2B. exact H3.
Qed.
(** a float parser for the texts that the library prints *)
Definition pf0 : parser := fun t =>
  if text_eqb t (tx "NaN") then Some fnan else if text_eqb t (tx "+Inf") then Some finf else if text_eqb t (tx "-Inf") then Some fninf
  else let neg := match t with c :: _ => Ascii.eqb c "-" | [] => false end in
       let ds := match t with c :: t' => if Ascii.eqb c "-" then t' else t | [] => [] end in
       match splitT ds (tx ".") with
       | [a; b] => if Nat.eqb (length b) 4 then match digitsVal a 0, digitsVal b 0 with Some x, Some y => Some (ratF neg (x * 10000 + y)) | _, _ => None end else None
       | _ => None
       end.
Lemma digits_no_dot t : Forall (fun c => isDigit c = true) t -> ~ In "."%char t.
Proof. intros H Hin. rewrite Forall_forall in H. apply H in Hin. discriminate Hin. Qed.
Lemma digits_zeros k t : digitsVal (repeat "0"%char k ++ t) 0 = digitsVal t 0.
Proof. induction k; simpl; auto. Qed.
Lemma digit_str t : forall n k acc, digitsVal t acc = Some k -> 0 <= n <= acc -> n * 10 ^ Z.of_nat (length t) <= k.
Proof.
  induction t as [|c t IH]; intros n k acc; [cbn; intros [= <-] H; lia|]. cbn [digitsVal length]. destruct (isDigit c) eqn:E; [|discriminate].
  intros H Hn. apply digit_byte in E. apply (IH (10 * n)) in H; [|lia]. rewrite Nat2Z.inj_succ, Z.pow_succ_r by lia. lia.
Qed.
Lemma dec_len n : 0 <= n < 10000 -> (length (decZ n) <= 4)%nat.
Proof.
  intros Hn. destruct n as [|p|p]; [simpl; lia|..|lia].
  assert (HE : decZ (Z.pos p) = tx (NilEmpty.string_of_uint (Pos.to_uint p))).
  { unfold decZ. cbn [Z.to_int NilZero.string_of_int]. pose proof (DecimalPos.Unsigned.to_uint_nonnil p). destruct (Pos.to_uint p); [congruence|reflexivity..]. }
  pose proof (DecimalPos.Unsigned.to_uint_nonnil p) as HN. pose proof (DecimalPos.Unsigned.of_to p) as HO.
  pose proof (DecimalPos.Unsigned.to_of (Pos.to_uint p)) as HU. rewrite HO in HU. cbn in HU.
  rewrite HE. destruct (dec_nat (Z.pos p)) as [HD _]; [lia|]. rewrite HE in HD.
  destruct (Pos.to_uint p) as [|d|d|d|d|d|d|d|d|d|d]; [congruence|exfalso|..].
  { (* a leading zero *) clear -HU HN HE HO. unfold unorm in HU. cbn [nzhead] in HU. destruct (nzhead d) eqn:EN; try congruence; try discriminate HU.
    - injection HU as ->. cbn in HO. discriminate HO.
    - exact (DecimalFacts.nzhead_nonzero _ _ EN). }
  all: cbn [NilEmpty.string_of_uint tx list_ascii_of_string length];
    match goal with d : uint |- _ =>
      let H := fresh in assert (H : exists a, 1 <= a /\ digitsVal (tx (NilEmpty.string_of_uint d)) a = Some (Z.pos p))
        by (rewrite <- HD; eexists; split; [|symmetry; apply digits_cons; [reflexivity|reflexivity]]; vm_compute; discriminate);
      destruct H as (a & Ha & HD2);
      apply (digit_str _ 1) in HD2; [|lia]; change (list_ascii_of_string (NilEmpty.string_of_uint d)) with (tx (NilEmpty.string_of_uint d));
      destruct (le_lt_dec (length (tx (NilEmpty.string_of_uint d))) 3) as [|HG]; [lia|exfalso];
      assert (10 ^ 4 <= 10 ^ Z.of_nat (length (tx (NilEmpty.string_of_uint d)))) by (apply Z.pow_le_mono_r; lia); lia
    end.
Qed.
Lemma pf0_fixed s n : 0 <= n -> pf0 (fixedText s n) = Some (ratF s n).
Proof.
  intros Hn. unfold pf0.
  assert (HA : forall v, existsb (fun c => negb (plainChar c)) v = true -> text_eqb (fixedText s n) v = false).
  { intros v Hv. destruct (text_eqb (fixedText s n) v) eqn:E; auto. apply text_eqb_iff in E. rewrite <- E in Hv.
    apply existsb_exists in Hv as (c & Hc & Hv). apply fixed_plain in Hc. rewrite Hc in Hv. discriminate Hv. }
  rewrite !HA by reflexivity.
  set (q := n / 10000). set (r := n mod 10000). assert (Hq : 0 <= q) by (apply Z.div_pos; lia). assert (Hr : 0 <= r < 10000) by (apply Z.mod_pos_bound; lia).
  destruct (dec_nat q Hq) as [HQ HQF]. destruct (dec_nat r (proj1 Hr)) as [HR HRF].
  set (body := decZ q ++ tx "." ++ repeat "0"%char (4 - length (decZ r)) ++ decZ r).
  assert (HT : fixedText s n = (if s then ["-"%char] else []) ++ body) by (unfold fixedText, body; destruct s; reflexivity).
  rewrite HT.
  assert (HH : match body with c :: _ => Ascii.eqb c "-" | [] => false end = false).
  { unfold body. pose proof (decZ_nonempty q). destruct (decZ q) as [|c t]; [congruence|]. cbn [app]. inversion HQF as [|? ? Hc _]; subst.
    destruct (Ascii.eqb_spec c "-") as [->|]; [discriminate Hc|auto]. }
  assert (HS : splitT body (tx ".") = [decZ q; repeat "0"%char (4 - length (decZ r)) ++ decZ r]).
  { unfold body, splitT. change (tx ".") with ["."%char]. cbn [app]. rewrite split1_more by (apply digits_no_dot; auto). rewrite split1_last; [reflexivity|].
    apply digits_no_dot. apply Forall_app. split; auto. apply Forall_forall. intros c Hc. apply repeat_spec in Hc as ->. reflexivity. }
  assert (HL : length (repeat "0"%char (4 - length (decZ r)) ++ decZ r) = 4%nat).
  { rewrite app_length, repeat_length. pose proof (dec_len r Hr). lia. }
  assert (HV : match digitsVal (decZ q) 0, digitsVal (repeat "0"%char (4 - length (decZ r)) ++ decZ r) 0 with Some x, Some y => Some (ratF s (x * 10000 + y)) | _, _ => None end = Some (ratF s n)).
  { rewrite digits_zeros, HQ, HR. do 2 f_equal. unfold q, r. pose proof (Z_div_mod_eq_full n 10000). lia. }
  destruct s.
  - cbn [app]. rewrite Ascii.eqb_refl, HS, HL. exact HV.
  - cbn [app]. destruct body as [|c t]; [discriminate HS|]. rewrite HH, HS, HL. exact HV.
Qed.
Lemma pf0_ok : ParserOk pf0.
Proof.
  constructor; try reflexivity. intros s n Hn Hlt. exists (ratF s n). split; [apply pf0_fixed; auto|]. apply ratF_spec; auto.
Qed.
