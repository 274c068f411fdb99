(** The text of a float64 in JSON (encode.go [floatEncoder], behind utils/json.go:122 and xjson.go:145): the shortest decimal
    that reads back as the same float64, in plain notation from 1e-6 up to 1e21 and with an exponent elsewhere. [goFmt] looks
    for it among the nearest decimals of 1 to 17 digits and writes the exact decimal expansion if none of them reads back.
    That no shorter text reads back is not proved; the theorems only use [FmtOk]. *)
From Coq Require Import Ascii String Reals Lra.
From Verif Require Import Base F64 Env F64Lemmas Utils Tree Options Train Text Json Readers GoJson SpecGoJson GoJsonNum.
From Coq Require Import List.
Open Scope Z_scope.

Definition signT (s : bool) : text := if s then ["-"%char] else [].
(** all the digits *)
Definition exactText (x : f64) : text :=
  match x with
  | B754_finite s m e _ =>
      signT s ++ (if 0 <=? e then decZ (Zpos m * 2 ^ e) else decZ (Zpos m * 5 ^ (- e)) ++ "e"%char :: "-"%char :: decZ (- e))
  | B754_zero s => signT s ++ tx "0"
  | _ => []
  end.
(** [n / d] rounded to the nearest integer, ties to even *)
Definition nearZ (n d : Z) : Z :=
  let q := n / d in let r := 2 * (n mod d) in
  if r <? d then q else if d <? r then q + 1 else if Z.even q then q else q + 1.
Fixpoint decExp (fuel : nat) (n d p : Z) : Z :=
  (* the p with 10^(p-1) <= n/d < 10^p *)
  match fuel with
  | O => p
  | S f => if n <? d then if d <=? n * 10 then p else decExp f (n * 10) d (p - 1) else decExp f n (d * 10) (p + 1)
  end.
Definition zerosT (n : Z) : text := repeat "0"%char (Z.to_nat n).
(** the digits [ds] with the decimal point after the first [p] *)
Definition plainText (ds : text) (p : Z) : text :=
  let n := Z.of_nat (List.length ds) in
  if p <=? 0 then tx "0." ++ zerosT (- p) ++ ds
  else if n <=? p then ds ++ zerosT (p - n)
  else firstn (Z.to_nat p) ds ++ "."%char :: skipn (Z.to_nat p) ds.
Definition sciText (ds : text) (p : Z) : text :=
  match ds with
  | [] => []
  | c :: r => c :: (match r with [] => [] | _ => "."%char :: r end) ++ "e"%char :: (if p - 1 <? 0 then "-"%char else "+"%char) :: decZ (Z.abs (p - 1))
  end.
Fixpoint trimZeros (ds : text) : text :=   (* from the end *)
  match ds with
  | [] => []
  | c :: r => match trimZeros r with [] => if Ascii.eqb c "0" then [] else [c] | r' => c :: r' end
  end.
(** the candidate with [k] digits for the positive number [n / d] *)
Definition candidate (s : bool) (n d : Z) (k : Z) : text :=
  let p := decExp 1500 n d 0 in
  let z := if k - p <? 0 then nearZ n (d * 10 ^ (p - k)) else nearZ (n * 10 ^ (k - p)) d in
  let '(z, p) := if z =? 10 ^ k then (z / 10, p + 1) else (z, p) in
  let ds := trimZeros (decZ z) in
  signT s ++ if (p <? -5) || (21 <? p) then sciText ds p else plainText ds p.
Definition sameF (x y : f64) : bool :=
  match x, y with
  | B754_zero s, B754_zero s' => Bool.eqb s s'
  | B754_finite s m e _, B754_finite s' m' e' _ => Bool.eqb s s' && Pos.eqb m m' && Z.eqb e e'
  | _, _ => false
  end.
Definition readsBack (x : f64) (t : text) : bool := match parseFloat t with Some y => sameF x y | None => false end.
Definition goFmt (x : f64) : text :=
  match x with
  | B754_finite s m e _ =>
      let '(n, d) := if 0 <=? e then (Zpos m * 2 ^ e, 1) else (Zpos m, 2 ^ (- e)) in
      match find (readsBack x) (map (fun k => candidate s n d (Z.of_nat k)) (seq 1 17)) with
      | Some t => t
      | None => exactText x
      end
  | _ => exactText x
  end.

Lemma sameF_eq x y : sameF x y = true -> x = y.
Proof.
  destruct x as [s|s| |s m e H], y as [s'|s'| |s' m' e' H']; cbn; try discriminate.
  - intros E. apply Bool.eqb_prop in E as ->. auto.
  - intros E. apply andb_true_iff in E as [E E3]. apply andb_true_iff in E as [E1 E2]. apply Bool.eqb_prop in E1 as ->. apply Pos.eqb_eq in E2 as ->. apply Z.eqb_eq in E3 as ->.
    f_equal. apply Eqdep_dec.UIP_dec. apply Bool.bool_dec.
Qed.
Lemma parse_num t x : parseFloat t = Some x -> numText t.
Proof. intros H. apply numText_read. unfold parseFloat in H. destruct (readNum t); congruence. Qed.
Lemma pow_split k : 0 <= k -> (IZR (5 ^ k) * IZR (2 ^ k) = IZR (10 ^ k))%R.
Proof. intros H. rewrite <- mult_IZR, <- Z.pow_mul_l. reflexivity. Qed.
Lemma exact_real x t neg i f e : is_finite x = true -> numIs t neg i f e -> numReal neg i f e = B2R x -> Bsign x = neg -> parseFloat t = Some x.
Proof.
  intros HX HN HV HS. pose proof (parseFloat_spec t neg i f e HN) as H. cbv zeta in H. rewrite HV in H.
  assert (HR : rnd (B2R x) = B2R x) by (unfold rnd; apply round_generic; [apply valid_rnd_N|apply generic_format_B2R]).
  rewrite HR in H. rewrite Rlt_bool_true in H by apply abs_B2R_lt_emax. destruct H as (y & H1 & H2 & H3 & H4). rewrite H1. f_equal. apply B2R_Bsign_inj; auto; congruence.
Qed.
Lemma exact_ok : FmtOk exactText.
Proof.
  intros x HX. enough (H : parseFloat (exactText x) = Some x) by (split; [eapply parse_num; eauto|auto]).
  destruct x as [s|s| |s m e HB]; try discriminate.
  - apply (exact_real _ _ s (tx "0") [] 0); auto.
    + exists [], []. split; [apply (dec_intPart 0); lia|]. split; [constructor|]. split; [constructor|]. destruct s; reflexivity.
    + unfold numReal. rewrite app_nil_r. change (valD (tx "0")) with 0. replace (if s then - 0 else 0) with 0 by (destruct s; auto). cbn [B2R]. apply Rmult_0_l.
  - cbn [exactText]. destruct (Z.leb_spec 0 e) as [HE|HE].
    + set (N := Z.pos m * 2 ^ e). assert (HN : 0 <= N) by (unfold N; pose proof (Z.pow_nonneg 2 e); lia). destruct (dec_intPart N HN) as [H1 H2].
      apply (exact_real _ _ s (decZ N) [] 0); auto.
      * exists [], []. split; auto. split; [constructor|]. split; [constructor|]. rewrite !app_nil_r. unfold signT. destruct s; reflexivity.
      * unfold numReal. rewrite app_nil_r, H2. cbn [length Z.of_nat Z.sub Z.add Z.opp]. cbn [powerRZ]. rewrite Rmult_1_r. cbn [B2R]. unfold F2R. cbn [Fnum Fexp].
        rewrite <- IZR_Zpower by auto. rewrite <- mult_IZR. f_equal. unfold N. change (Zpower radix2 e) with (2 ^ e). destruct s; cbn [SpecFloat.cond_Zopp]; lia.
    + set (k := - e). assert (Hk : 0 <= k) by lia. set (N := Z.pos m * 5 ^ k). assert (HN : 0 <= N) by (unfold N; pose proof (Z.pow_nonneg 5 k); lia).
      destruct (dec_intPart N HN) as [H1 H2]. destruct (dec_intPart k Hk) as [H3 H4].
      apply (exact_real _ _ s (decZ N) [] (- valD (decZ k))); auto.
      * exists [], ("e"%char :: "-"%char :: decZ k). split; auto. split; [constructor|]. split; [constructor; auto; apply H3|]. unfold signT. destruct s; reflexivity.
      * unfold numReal. rewrite app_nil_r, H2, H4. cbn [length Z.of_nat]. rewrite Z.sub_0_r.
        rewrite powerRZ_neg', powerRZ_pos by auto. cbn [B2R]. unfold F2R. cbn [Fnum Fexp].
        replace (bpow radix2 e) with (/ IZR (2 ^ k))%R by (replace e with (- k) by (unfold k; ring); rewrite bpow_opp, <- IZR_Zpower by auto; reflexivity).
        rewrite <- pow_split by auto.
        assert (P5 : IZR (5 ^ k) <> 0%R) by (apply IZR_neq; pose proof (Z.pow_pos_nonneg 5 k); lia). assert (P2 : IZR (2 ^ k) <> 0%R) by (apply IZR_neq; pose proof (Z.pow_pos_nonneg 2 k); lia).
        assert (HI : IZR (if s then - N else N) = (IZR (SpecFloat.cond_Zopp s (Z.pos m)) * IZR (5 ^ k))%R).
        { rewrite <- mult_IZR. f_equal. unfold N. destruct s; cbn [SpecFloat.cond_Zopp]; lia. }
        rewrite HI. field. auto.
Qed.
Lemma goFmt_ok : FmtOk goFmt.
Proof.
  intros x HX. unfold goFmt. destruct x as [s|s| |s m e HB]; try discriminate; [apply exact_ok; auto|].
  destruct (if 0 <=? e then _ else _) as [n d]. destruct (find _ _) as [t|] eqn:E; [|apply exact_ok; auto].
  apply find_some in E as [_ E]. unfold readsBack in E. destruct (parseFloat t) as [y|] eqn:EP; [|discriminate]. apply sameF_eq in E as <-. split; auto. eapply parse_num; eauto.
Qed.
Definition showF (x : f64) : string := string_of_list_ascii (goFmt x).
