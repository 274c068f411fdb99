(** Support for the theorems about JSON: strings. *)
From Coq Require Import Ascii String Reals Lra.
From Verif Require Import Base F64 Env F64Lemmas Utils Tree Options Train Text Json Readers GoJson SpecGoJson GoJsonNum.
From Coq Require Import List.
Open Scope Z_scope.

Lemma byte_range c : 0 <= byteOf c < 256.
Proof. unfold byteOf. pose proof (nat_ascii_bounded c). lia. Qed.
Lemma byte_C z : 0 <= z < 256 -> byteOf (byteC z) = z.
Proof. intros H. unfold byteOf, byteC. rewrite nat_ascii_embedding; lia. Qed.
Lemma byte_inj c d : byteOf c = byteOf d -> c = d.
Proof. unfold byteOf. intros H. rewrite <- (ascii_nat_embedding c), <- (ascii_nat_embedding d). f_equal. lia. Qed.
Lemma byteC_byte c : byteC (byteOf c) = c.
Proof. apply byte_inj. apply byte_C. apply byte_range. Qed.
Lemma betweenT a b c : between a b c = true <-> a <= byteOf c <= b.
Proof. unfold between. rewrite andb_true_iff, !Z.leb_le. lia. Qed.
Lemma betweenF a b c : between a b c = false <-> ~ a <= byteOf c <= b.
Proof. rewrite <- betweenT. destruct (between a b c); split; congruence. Qed.
Lemma neq_byte c d : byteOf c <> byteOf d -> Ascii.eqb c d = false.
Proof. intros H. apply eqbF. congruence. Qed.

(** ** The scanner *)
Lemma cutStr_complete raw r : strBody raw -> cutStr (raw ++ DQ :: r) = Some (raw, r).
Proof.
  induction 1 as [|c t Hc H1 H2 HB IH|e t He HB IH|a b c d t Ha Hb Hc Hd HB IH].
  - reflexivity.
  - cbn [app cutStr]. rewrite (eqbF _ _ H1), (eqbF _ _ H2). destruct (Z.ltb_spec (byteOf c) 32); [lia|]. rewrite IH. reflexivity.
  - cbn [app cutStr]. rewrite (eqbF BS DQ) by discriminate. rewrite Ascii.eqb_refl.
    assert (HE : existsb (Ascii.eqb e) [DQ; BS; "/"%char; "b"%char; "f"%char; "n"%char; "r"%char; "t"%char] = true).
    { apply existsb_exists. exists e. split; auto. apply Ascii.eqb_refl. }
    rewrite HE, IH. reflexivity.
  - cbn [app cutStr]. rewrite (eqbF BS DQ) by discriminate. rewrite Ascii.eqb_refl. change (existsb (Ascii.eqb "u") _) with false. cbv iota. rewrite Ascii.eqb_refl.
    unfold hexD in *. destruct (hexVal a), (hexVal b), (hexVal c), (hexVal d); try congruence. rewrite IH. reflexivity.
Qed.
Lemma cutStr_sound t : forall raw r, cutStr t = Some (raw, r) -> strBody raw /\ t = raw ++ DQ :: r.
Proof.
  assert (G : forall n t raw r, (length t <= n)%nat -> cutStr t = Some (raw, r) -> strBody raw /\ t = raw ++ DQ :: r); [|intros raw r; apply (G (length t)); auto].
  clear t. induction n as [|n IH]; intros t raw r HL; destruct t as [|c t]; try (discriminate || (cbn in HL; lia)).
  cbn [cutStr]. destruct (Ascii.eqb_spec c DQ) as [->|H1]; [intros [= <- <-]; split; [constructor|reflexivity]|].
  destruct (Ascii.eqb_spec c BS) as [->|H2].
  - destruct t as [|e t2]; [discriminate|]. destruct (existsb _ _) eqn:EX.
    + destruct (cutStr t2) as [[x y]|] eqn:EC; [|discriminate]. intros [= <- <-]. apply IH in EC as [HB ->]; [|cbn in HL; lia].
      apply existsb_exists in EX as (e' & He & HE). apply eqbT in HE as <-. split; [apply sb_esc; auto|reflexivity].
    + destruct (Ascii.eqb_spec e "u") as [->|]; [|discriminate]. destruct t2 as [|h1 [|h2 [|h3 [|h4 t3]]]]; try discriminate.
      destruct (hexVal h1) eqn:E1; [|discriminate]. destruct (hexVal h2) eqn:E2; [|discriminate]. destruct (hexVal h3) eqn:E3; [|discriminate]. destruct (hexVal h4) eqn:E4; [|discriminate].
      destruct (cutStr t3) as [[x y]|] eqn:EC; [|discriminate]. intros [= <- <-]. apply IH in EC as [HB ->]; [|cbn in HL; lia].
      split; [apply sb_u; unfold hexD; congruence|reflexivity].
  - destruct (Z.ltb_spec (byteOf c) 32); [discriminate|]. destruct (cutStr t) as [[x y]|] eqn:EC; [|discriminate]. intros [= <- <-]. apply IH in EC as [HB ->]; [|cbn in HL; lia].
    split; [apply sb_char; auto|reflexivity].
Qed.
Lemma strBody_app a b : strBody a -> strBody b -> strBody (a ++ b).
Proof. induction 1; intros Hb; cbn [app]; auto; [apply sb_char|apply sb_esc|apply sb_u]; auto. Qed.

(** ** Runes *)
Ltac bsplit := repeat match goal with
  | H : _ && _ = true |- _ => apply andb_true_iff in H; destruct H
  | H : _ || _ = true |- _ => apply orb_true_iff in H; destruct H
  | H : between _ _ _ = true |- _ => apply betweenT in H
  | H : contB _ = true |- _ => apply betweenT in H
  | H : (_ =? _) = true |- _ => apply Z.eqb_eq in H
  end.
(** the bytes of a rune of more than one byte *)
Lemma runeLen_bytes t k : runeLen t = S k -> (S k <= length t)%nat /\
  (forall c, In c (firstn (S k) t) -> between 0 127 c = true -> k = O) /\ (forall r, runeLen (firstn (S k) t ++ r) = S k).
Proof.
  unfold runeLen. destruct t as [|a t1]; [discriminate|].
  destruct (between 0 127 a) eqn:EA. { intros [= <-]. cbn. rewrite EA. split; [lia|]. auto. }
  destruct t1 as [|b t2]; [discriminate|]. destruct (between 194 223 a && contB b) eqn:E2.
  { intros [= <-]. cbn. rewrite EA, E2. split; [lia|]. split; [|auto]. bsplit. intros c [<-|[<-|[]]] Hc; bsplit; lia. }
  destruct t2 as [|c t3]; [discriminate|]. destruct (_ && contB c) eqn:E3.
  { intros [= <-]. cbn [firstn app]. rewrite EA, E2, E3. split; [cbn; lia|]. split; [|auto].
    apply betweenF in EA. bsplit; intros x [<-|[<-|[<-|[]]]] Hx; bsplit; lia. }
  destruct t3 as [|d t4]; [discriminate|]. destruct (_ && contB d) eqn:E4; [|discriminate].
  intros [= <-]. cbn [firstn app]. rewrite EA, E2, E3, E4. split; [cbn; lia|]. split; [|auto].
  apply betweenF in EA. bsplit; intros x [<-|[<-|[<-|[<-|[]]]]] Hx; bsplit; lia.
Qed.
Lemma rune_ascii c t : between 0 127 c = true -> runeLen (c :: t) = 1%nat.
Proof. intros H. cbn. rewrite H. auto. Qed.

Lemma bC_between a b z : 0 <= z < 256 -> between a b (byteC z) = ((a <=? z) && (z <=? b)).
Proof. intros H. unfold between. rewrite byte_C by auto. auto. Qed.
Ltac zb := repeat (cbn [andb orb]; match goal with
  | |- context [?a <=? ?b] => first [replace (a <=? b) with true by (symmetry; apply Z.leb_le; lia) | replace (a <=? b) with false by (symmetry; apply Z.leb_gt; lia) | destruct (Z.leb_spec a b)]
  | |- context [?a =? ?b] => first [replace (a =? b) with true by (symmetry; apply Z.eqb_eq; lia) | replace (a =? b) with false by (symmetry; apply Z.eqb_neq; lia) | destruct (Z.eqb_spec a b)]
  end).
Lemma encode_len z r : codePoint z -> exists k, length (encodeRune z) = S k /\ runeLen (encodeRune z ++ r) = S k /\ (128 <= z -> forall c, In c (encodeRune z) -> 128 <= byteOf c).
Proof.
  intros [Hz Hs]. unfold encodeRune.
  destruct (Z.ltb_spec z 0); [lia|].
  destruct (Z.ltb_spec z 128).
  { exists O. split; [auto|]. split; [|lia]. cbn. rewrite bC_between by lia. zb; try lia; auto. }
  destruct (Z.ltb_spec z 2048).
  { exists 1%nat. split; [auto|]. pose proof (Z.div_lt_upper_bound z 64 32). pose proof (Z.div_le_lower_bound z 64 2). pose proof (Z.mod_pos_bound z 64).
    split. { unfold runeLen, contB. cbn [app]. rewrite !bC_between by lia. zb; try lia; auto. }
    intros _ c [<-|[<-|[]]]; rewrite byte_C; lia. }
  destruct (Z.leb_spec 55296 z); [destruct (Z.leb_spec z 57343); [lia|]|]; cbn [andb].
  1: destruct (Z.ltb_spec z 65536).
  2: destruct (Z.leb_spec z 1114111); [|lia].
  3: destruct (Z.ltb_spec z 65536); [|lia].
  - exists 2%nat. split; [auto|]. assert (14 <= z / 4096 < 16) by (split; [apply Z.div_le_lower_bound|apply Z.div_lt_upper_bound]; lia) || assert (13 <= z / 4096 < 16) by (split; [apply Z.div_le_lower_bound|apply Z.div_lt_upper_bound]; lia).
    pose proof (Z.mod_pos_bound (z / 64) 64). pose proof (Z.mod_pos_bound z 64).
    split. { unfold runeLen, contB. cbn [app]. rewrite !byte_C, !bC_between by lia. zb; try lia; auto. }
    intros _ c [<-|[<-|[<-|[]]]]; rewrite byte_C; lia.
  - exists 3%nat. split; [auto|]. assert (0 <= z / 262144 <= 4) by (split; [apply Z.div_pos|apply Z.lt_succ_r, Z.div_lt_upper_bound]; lia).
    pose proof (Z.mod_pos_bound (z / 4096) 64). pose proof (Z.mod_pos_bound (z / 64) 64). pose proof (Z.mod_pos_bound z 64).
    assert (HD : z / 4096 = 64 * (z / 262144) + z / 4096 mod 64).
    { replace (z / 262144) with (z / 4096 / 64) by (rewrite Z.div_div by lia; auto). apply Z.div_mod. lia. }
    assert (16 <= z / 4096 < 272) by (split; [apply Z.div_le_lower_bound|apply Z.div_lt_upper_bound]; lia).
    split. { unfold runeLen, contB. cbn [app]. rewrite !byte_C, !bC_between by lia. zb; try lia; auto. }
    intros _ c [<-|[<-|[<-|[<-|[]]]]]; rewrite byte_C; lia.
  - exists 2%nat. split; [auto|]. assert (0 <= z / 4096 < 14) by (split; [apply Z.div_pos|apply Z.div_lt_upper_bound]; lia).
    pose proof (Z.mod_pos_bound (z / 64) 64). pose proof (Z.mod_pos_bound z 64).
    assert (HD : z / 64 = 64 * (z / 4096) + z / 64 mod 64).
    { replace (z / 4096) with (z / 64 / 64) by (rewrite Z.div_div by lia; auto). apply Z.div_mod. lia. }
    assert (32 <= z / 64 < 864) by (split; [apply Z.div_le_lower_bound|apply Z.div_lt_upper_bound]; lia).
    split. { unfold runeLen, contB. cbn [app]. rewrite !byte_C, !bC_between by lia. zb; try lia; auto. }
    intros _ c [<-|[<-|[<-|[]]]]; rewrite byte_C; lia.
Qed.

(** ** Unquoting does not depend on the fuel *)
Lemma skipn_len {A} (l : list A) k n : (length l <= S n)%nat -> l <> [] -> (length (skipn (S k) l) <= n)%nat.
Proof. intros H _. rewrite skipn_length. lia. Qed.
Lemma getu4_len t z : getu4 t = Some z -> (6 <= length t)%nat.
Proof. destruct t as [|a [|b [|c [|d [|e [|f t]]]]]]; try discriminate. cbn. lia. Qed.
Lemma unquoteN_fuel : forall n m t, (length t <= n)%nat -> (length t <= m)%nat -> unquoteN n t = unquoteN m t.
Proof.
  induction n as [|n IH]; intros m t Hn Hm.
  { destruct t; [|cbn in Hn; lia]. destruct m; reflexivity. }
  destruct m as [|m]. { destruct t; [|cbn in Hm; lia]. reflexivity. }
  destruct t as [|c t']; [reflexivity|].
  assert (HI : forall r, (length r < length (c :: t'))%nat -> unquoteN n r = unquoteN m r) by (intros r Hr; apply IH; lia).
  cbn [unquoteN]. destruct (Ascii.eqb c BS).
  - destruct (getu4 (c :: t')) as [z|] eqn:EG.
    + assert (HS : forall r : text, (length (skipn 6 r) <= length r)%nat) by (intros; rewrite skipn_length; lia).
      assert (H6 : (length (skipn 6 (c :: t')) < length (c :: t'))%nat) by (rewrite skipn_length; cbn; lia).
      rewrite (HI _ H6). destruct (_ && _); auto. destruct (getu4 (skipn 6 (c :: t'))) as [z2|]; auto. destruct (_ && _); auto. rewrite HI; auto.
      specialize (HS (skipn 6 (c :: t'))). lia.
    + destruct t' as [|e t2]; auto. rewrite HI by (cbn; lia). auto.
  - destruct (runeLen (c :: t')) as [|k] eqn:ER; [rewrite HI by (cbn; lia); auto|].
    rewrite (HI (skipn (S k) (c :: t'))); auto. cbn. rewrite skipn_length. lia.
Qed.
Lemma unquote_enough n t : (length t <= n)%nat -> unquoteN n t = unquote t.
Proof. intros H. apply unquoteN_fuel; auto. Qed.
Lemma unq_S n c t' : unquoteN (S n) (c :: t') =
  if Ascii.eqb c BS then
    match getu4 (c :: t') with
    | Some r =>
        if (55296 <=? r) && (r <=? 57343) then
          match getu4 (skipn 6 (c :: t')) with
          | Some r2 =>
              if (r <=? 56319) && (56320 <=? r2) && (r2 <=? 57343)
              then encodeRune ((r - 55296) * 1024 + (r2 - 56320) + 65536) ++ unquoteN n (skipn 6 (skipn 6 (c :: t')))
              else REPL ++ unquoteN n (skipn 6 (c :: t'))
          | None => REPL ++ unquoteN n (skipn 6 (c :: t'))
          end
        else encodeRune r ++ unquoteN n (skipn 6 (c :: t'))
    | None => match t' with e :: t2 => unescape e :: unquoteN n t2 | [] => [] end
    end
  else match runeLen (c :: t') with
  | O => REPL ++ unquoteN n t'
  | S k => firstn (S k) (c :: t') ++ unquoteN n (skipn (S k) (c :: t'))
  end.
Proof. reflexivity. Qed.
Lemma unquote_rune u k r : u <> [] -> length u = S k -> runeLen (u ++ r) = S k -> hd "0"%char u <> BS -> unquote (u ++ r) = u ++ unquote r.
Proof.
  intros Hu HL HR HB. destruct u as [|c u]; [congruence|]. cbn [hd] in HB. unfold unquote at 1. cbn [app length].
  rewrite unq_S, (eqbF _ _ HB). change (c :: u ++ r) with ((c :: u) ++ r). rewrite HR. rewrite <- HL, firstn_app, skipn_app, Nat.sub_diag, firstn_all, skipn_all. cbn [firstn skipn app].
  rewrite app_nil_r. cbn [app]. f_equal. rewrite unquote_enough; auto. rewrite app_length. lia.
Qed.
Lemma unquote_byte e t : e <> "u"%char -> unquote (BS :: e :: t) = unescape e :: unquote t.
Proof.
  intros H. unfold unquote at 1. cbn [length]. rewrite unq_S, Ascii.eqb_refl.
  assert (HG : getu4 (BS :: e :: t) = None). { destruct t as [|a [|b [|c [|d t]]]]; try reflexivity. cbn [getu4]. rewrite (eqbF _ _ H), andb_false_r. auto. }
  rewrite HG. f_equal. apply unquote_enough. lia.
Qed.
Definition hex4 (va vb vc vd : Z) : Z := ((va * 16 + vb) * 16 + vc) * 16 + vd.
Lemma getu4_hex a b c d va vb vc vd t : hexVal a = Some va -> hexVal b = Some vb -> hexVal c = Some vc -> hexVal d = Some vd ->
  getu4 (BS :: "u"%char :: a :: b :: c :: d :: t) = Some (hex4 va vb vc vd).
Proof. intros H1 H2 H3 H4. cbn [getu4]. rewrite !Ascii.eqb_refl, H1, H2, H3, H4. reflexivity. Qed.
Lemma unquote_u a b c d va vb vc vd t : hexVal a = Some va -> hexVal b = Some vb -> hexVal c = Some vc -> hexVal d = Some vd ->
  ~ 55296 <= hex4 va vb vc vd <= 57343 -> unquote (BS :: "u"%char :: a :: b :: c :: d :: t) = encodeRune (hex4 va vb vc vd) ++ unquote t.
Proof.
  intros H1 H2 H3 H4 HN. unfold unquote at 1. cbn [length]. rewrite unq_S, Ascii.eqb_refl. rewrite (getu4_hex _ _ _ _ va vb vc vd) by auto.
  cbn [skipn]. replace ((55296 <=? _) && _) with false by (symmetry; apply andb_false_iff; destruct (Z.leb_spec 55296 (hex4 va vb vc vd)); [right; apply Z.leb_gt|left; auto]; lia).
  f_equal. apply unquote_enough. lia.
Qed.
Lemma strMeans_spec raw s : strMeans raw s -> strBody raw /\ unquote raw = s.
Proof.
  induction 1 as [|z r s HC H1 H2 H3 _ [HB IH]|e x r s HE _ [HB IH]|a b c d va vb vc vd r s Ha Hb Hc Hd HC _ [HB IH]|a b c d va vb vc vd a' b' c' d' wa wb wc wd r s Ha Hb Hc Hd Ha' Hb' Hc' Hd' hi lo Hhi Hlo _ [HB IH]].
  - split; [constructor|reflexivity].
  - destruct (encode_len z r HC) as (k & HL & HR & HBy).
    assert (HA : forall c, In c (encodeRune z) -> 32 <= byteOf c /\ c <> DQ /\ c <> BS).
    { intros c Hc. destruct (Z_lt_le_dec z 128) as [Hz|Hz].
      - unfold encodeRune in Hc. destruct (Z.ltb_spec z 0); [lia|]. destruct (Z.ltb_spec z 128); [|lia]. destruct Hc as [<-|[]].
        rewrite byte_C by lia. repeat split; [lia|intros E|intros E]; apply (f_equal byteOf) in E; rewrite byte_C in E by lia; [change (byteOf DQ) with 34 in E|change (byteOf BS) with 92 in E]; lia.
      - specialize (HBy Hz c Hc). repeat split; [lia|intros ->; vm_compute in HBy; congruence..]. }
    split.
    + apply strBody_app; auto. clear -HA. induction (encodeRune z) as [|c t IHt]; [constructor|]. destruct (HA c (or_introl eq_refl)) as (? & ? & ?). apply sb_char; auto. apply IHt. intros; apply HA; right; auto.
    + assert (HN : encodeRune z <> []) by (destruct (encodeRune z); [discriminate HL|discriminate]).
      rewrite (unquote_rune _ k); auto; [rewrite IH; auto|]. destruct (encodeRune z) as [|c t]; [congruence|]. apply HA. left; auto.
  - split.
    + apply sb_esc; auto. apply (in_map fst) in HE. exact HE.
    + assert (He : e <> "u"%char /\ unescape e = byteC x) by (cbn in HE; repeat (destruct HE as [HE|HE]; [injection HE as <- <-; split; [discriminate|reflexivity]|]); destruct HE).
      destruct He as [He1 He2]. rewrite unquote_byte by auto. rewrite IH, He2. auto.
  - split.
    + apply sb_u; unfold hexD; congruence.
    + rewrite (unquote_u _ _ _ _ va vb vc vd); auto; [|apply HC]. rewrite IH. auto.
  - split.
    + apply sb_u; unfold hexD; try congruence. apply sb_u; unfold hexD; congruence.
    + unfold unquote at 1. cbn [length]. rewrite unq_S, Ascii.eqb_refl. rewrite (getu4_hex _ _ _ _ va vb vc vd) by auto. cbn [skipn].
      change (hex4 va vb vc vd) with hi. rewrite (getu4_hex _ _ _ _ wa wb wc wd) by auto. change (hex4 wa wb wc wd) with lo.
      destruct (Z.leb_spec 55296 hi); [|lia]. destruct (Z.leb_spec hi 57343); [|lia]. cbn [andb].
      destruct (Z.leb_spec hi 56319); [|lia]. destruct (Z.leb_spec 56320 lo); [|lia]. destruct (Z.leb_spec lo 57343); [|lia]. cbn [andb skipn].
      rewrite unquote_enough by (cbn; lia). rewrite IH. f_equal. f_equal. lia.
Qed.

(** ** Quoting *)
Fixpoint sanitizeN (fuel : nat) (t : text) : text :=
  match fuel, t with
  | S n, c :: t' =>
      match runeLen t with
      | O => REPL ++ sanitizeN n t'
      | k => firstn k t ++ sanitizeN n (skipn k t)
      end
  | _, _ => []
  end.
Definition sanitize (t : text) : text := sanitizeN (length t) t.
Lemma hexVal_digit n : 0 <= n < 16 -> hexVal (hexDigit n) = Some n.
Proof.
  intros H. assert (E : n = 0 \/ n = 1 \/ n = 2 \/ n = 3 \/ n = 4 \/ n = 5 \/ n = 6 \/ n = 7 \/ n = 8 \/ n = 9 \/ n = 10 \/ n = 11 \/ n = 12 \/ n = 13 \/ n = 14 \/ n = 15) by lia.
  repeat (destruct E as [->|E]; [reflexivity|]). subst. reflexivity.
Qed.
Ltac simpleEsc c := split; [apply sb_esc; [cbn; tauto|constructor]|split; [intros [E|[E|[]]]; discriminate E|]]; cbn [app]; rewrite unquote_byte by discriminate; f_equal.
Lemma escByte_spec c r : between 0 127 c = true -> strBody (escByte c) /\ ~ In NL (escByte c) /\ unquote (escByte c ++ r) = c :: unquote r.
Proof.
  intros HA. pose proof HA as HA'. apply betweenT in HA'. unfold escByte. destruct (htmlSafe c) eqn:EH.
  { unfold htmlSafe in EH. bsplit.
    repeat match goal with H : negb (Ascii.eqb _ _) = true |- _ => apply negb_true_iff, Ascii.eqb_neq in H end.
    split; [apply sb_char; auto; [lia|constructor]|]. split; [intros [->|[]]; vm_compute in H; destruct H; congruence|].
    apply (unquote_rune [c] 0); auto; [discriminate|apply rune_ascii, betweenT; auto]. }
  destruct (Ascii.eqb c DQ || Ascii.eqb c BS) eqn:E1.
  { apply orb_true_iff in E1 as [E1|E1]; apply eqbT in E1; subst c.
    - split; [apply sb_esc; [cbn; auto|constructor]|]. split; [intros [E|[E|[]]]; discriminate E|]. cbn [app]. rewrite unquote_byte by discriminate. reflexivity.
    - split; [apply sb_esc; [cbn; auto|constructor]|]. split; [intros [E|[E|[]]]; discriminate E|]. cbn [app]. rewrite unquote_byte by discriminate. reflexivity. }
  destruct (Z.eqb_spec (byteOf c) 8) as [E8|]. { simpleEsc c. rewrite <- (byteC_byte c), E8. reflexivity. }
  destruct (Z.eqb_spec (byteOf c) 12) as [E8|]. { simpleEsc c. rewrite <- (byteC_byte c), E8. reflexivity. }
  destruct (Z.eqb_spec (byteOf c) 10) as [E8|]. { simpleEsc c. rewrite <- (byteC_byte c), E8. reflexivity. }
  destruct (Z.eqb_spec (byteOf c) 13) as [E8|]. { simpleEsc c. rewrite <- (byteC_byte c), E8. reflexivity. }
  destruct (Z.eqb_spec (byteOf c) 9) as [E8|]. { simpleEsc c. rewrite <- (byteC_byte c), E8. reflexivity. }
  assert (Hh : 0 <= byteOf c / 16 < 16) by (split; [apply Z.div_pos|apply Z.div_lt_upper_bound]; lia).
  pose proof (Z.mod_pos_bound (byteOf c) 16) as Hl. pose proof (hexVal_digit _ Hh) as V1. pose proof (hexVal_digit (byteOf c mod 16) (Hl ltac:(lia))) as V2.
  split; [apply sb_u; unfold hexD; try congruence; try discriminate; constructor|].
  split. { intros HI. assert (HX : forall i, 0 <= i < 16 -> hexDigit i <> NL) by (intros i Hi E; pose proof (hexVal_digit i Hi) as V; rewrite E in V; discriminate V).
    destruct HI as [E|[E|[E|[E|[E|[E|[]]]]]]]; try discriminate E; apply HX in E; auto; apply Hl; lia. }
  cbn [app]. rewrite (unquote_u _ _ _ _ 0 0 (byteOf c / 16) (byteOf c mod 16)); auto.
  - assert (HV : hex4 0 0 (byteOf c / 16) (byteOf c mod 16) = byteOf c) by (unfold hex4; pose proof (Z_div_mod_eq_full (byteOf c) 16); lia).
    rewrite HV. unfold encodeRune. destruct (Z.ltb_spec (byteOf c) 0); [lia|]. destruct (Z.ltb_spec (byteOf c) 128); [|lia]. rewrite byteC_byte. reflexivity.
  - unfold hex4. pose proof (Z_div_mod_eq_full (byteOf c) 16). lia.
Qed.
Lemma high_body u : (forall c, In c u -> between 0 127 c = false) -> strBody u /\ ~ In NL u.
Proof.
  intros H. split.
  - induction u as [|c u IH]; [constructor|]. pose proof (proj1 (betweenF _ _ _) (H c (or_introl eq_refl))) as Hc. pose proof (byte_range c).
    apply sb_char; [lia|intros ->; vm_compute in Hc; intuition congruence|intros ->; vm_compute in Hc; intuition congruence|]. apply IH. intros; apply H; right; auto.
  - intros HI. apply H in HI. discriminate HI.
Qed.
Lemma quoteN_spec : forall n t, (length t <= n)%nat -> strBody (quoteN n t) /\ ~ In NL (quoteN n t) /\ unquote (quoteN n t) = sanitizeN n t.
Proof.
  induction n as [|n IH]; intros t HL; [split; [constructor|split; [intros []|reflexivity]]|].
  destruct t as [|c t']; [split; [constructor|split; [intros []|reflexivity]]|]. cbn [length] in HL.
  destruct (IH t' ltac:(lia)) as (IH1 & IH2 & IH3). cbn [quoteN sanitizeN].
  destruct (between 0 127 c) eqn:EA.
  { rewrite rune_ascii by auto. cbn [firstn skipn app]. destruct (escByte_spec c (quoteN n t') EA) as (H1 & H2 & H3).
    split; [apply strBody_app; auto|]. split; [intros HI; apply in_app_iff in HI as [HI|HI]; auto|]. rewrite H3, IH3. reflexivity. }
  destruct (runeLen (c :: t')) as [|k] eqn:ER.
  { split; [apply (strBody_app [_;_;_;_;_;_]); [apply sb_u; try discriminate; constructor|auto]|].
    split. { intros HI. apply in_app_iff in HI as [HI|HI]; auto. repeat (destruct HI as [E|HI]; [discriminate E|]). destruct HI. }
    cbn [app]. rewrite (unquote_u _ _ _ _ 15 15 15 13) by (try reflexivity; unfold hex4; lia). rewrite IH3. reflexivity. }
  destruct (runeLen_bytes _ _ ER) as (HLen & HAs & HR).
  destruct (IH (skipn (S k) (c :: t'))) as (J1 & J2 & J3); [rewrite skipn_length; cbn [length]; lia|].
  assert (HHigh : forall x, In x (firstn (S k) (c :: t')) -> between 0 127 x = false).
  { intros x Hx. destruct (between 0 127 x) eqn:EX; auto. pose proof (HAs x Hx EX) as ->. cbn in Hx. destruct Hx as [->|[]]. congruence. }
  destruct (lineSep (c :: t')) as [h|] eqn:ELS.
  - assert (HH : exists b d t3, t' = b :: d :: t3 /\ k = 2%nat /\ ((h = "8"%char /\ c :: b :: [d] = encodeRune 8232) \/ (h = "9"%char /\ c :: b :: [d] = encodeRune 8233))).
    { unfold lineSep in ELS. destruct t' as [|b [|d t3]]; try discriminate. exists b, d, t3. split; auto.
      destruct ((byteOf c =? 226) && (byteOf b =? 128)) eqn:E2; [|discriminate]. bsplit.
      assert (c = byteC 226) by (rewrite <- (byteC_byte c); congruence). assert (b = byteC 128) by (rewrite <- (byteC_byte b); congruence). subst c b.
      destruct (Z.eqb_spec (byteOf d) 168) as [Ed|].
      - assert (d = byteC 168) by (rewrite <- (byteC_byte d); congruence). subst d. injection ELS as <-. split; [|left; split; reflexivity]. vm_compute in ER. congruence.
      - destruct (Z.eqb_spec (byteOf d) 169) as [Ed|]; [|discriminate]. assert (d = byteC 169) by (rewrite <- (byteC_byte d); congruence). subst d.
        injection ELS as <-. split; [|right; split; reflexivity]. vm_compute in ER. congruence. }
    destruct HH as (b & d & t3 & -> & -> & HH). cbn [skipn firstn] in *.
    split. { apply (strBody_app [_;_;_;_;_;_]); auto. apply sb_u; try discriminate; [|constructor]. destruct HH as [[-> _]|[-> _]]; discriminate. }
    split. { intros HI. apply in_app_iff in HI as [HI|HI]; auto. destruct HH as [[-> _]|[-> _]]; repeat (destruct HI as [E|HI]; [discriminate E|]); destruct HI. }
    destruct HH as [[-> HH]|[-> HH]]; cbn [app].
    + rewrite (unquote_u _ _ _ _ 2 0 2 8) by (try reflexivity; unfold hex4; lia). rewrite J3. change (hex4 2 0 2 8) with 8232. rewrite <- HH. reflexivity.
    + rewrite (unquote_u _ _ _ _ 2 0 2 9) by (try reflexivity; unfold hex4; lia). rewrite J3. change (hex4 2 0 2 9) with 8233. rewrite <- HH. reflexivity.
  - destruct (high_body _ HHigh) as [B1 B2]. split; [apply strBody_app; auto|]. split; [intros HI; apply in_app_iff in HI as [HI|HI]; auto|].
    rewrite (unquote_rune _ k); auto; [rewrite J3; auto|discriminate|rewrite firstn_length; cbn [length] in *; lia|].
    cbn [firstn hd]. intros ->. discriminate EA.
Qed.
Lemma quote_spec t : strBody (quote t) /\ ~ In NL (quote t) /\ unquote (quote t) = sanitize t.
Proof. apply quoteN_spec. auto. Qed.
(** texts that come back unchanged *)
Lemma sanitizeN_fuel : forall n m t, (length t <= n)%nat -> (length t <= m)%nat -> sanitizeN n t = sanitizeN m t.
Proof.
  induction n as [|n IH]; intros m t Hn Hm.
  { destruct t; [|cbn in Hn; lia]. destruct m; reflexivity. }
  destruct m as [|m]. { destruct t; [|cbn in Hm; lia]. reflexivity. }
  destruct t as [|c t']; [reflexivity|]. cbn [length] in *. cbn [sanitizeN]. destruct (runeLen (c :: t')) as [|k]; f_equal; apply IH; try lia; cbn [skipn]; rewrite skipn_length; lia.
Qed.
Lemma sanitize_utf8 t : utf8T t -> sanitize t = t.
Proof.
  intros (zs & HZ & ->). induction HZ as [|z zs Hz _ IH]; [reflexivity|]. cbn [map concat].
  destruct (encode_len z (concat (map encodeRune zs)) Hz) as (k & HL & HR & _).
  destruct (encodeRune z) as [|c u] eqn:EE; [discriminate HL|]. unfold sanitize. cbn [app length sanitizeN]. change (c :: u ++ ?r) with ((c :: u) ++ r).
  rewrite HR, <- HL, firstn_app, skipn_app, Nat.sub_diag, firstn_all, skipn_all. cbn [firstn skipn app]. rewrite app_nil_r. cbn [app]. f_equal. f_equal.
  rewrite (sanitizeN_fuel _ (length (concat (map encodeRune zs)))); auto. rewrite app_length. lia.
Qed.
Lemma sanitizeN_ascii : forall n t, (length t <= n)%nat -> Forall (fun c => between 0 127 c = true) (sanitizeN n t) -> sanitizeN n t = t.
Proof.
  induction n as [|n IH]; intros t HL HF; (destruct t as [|c t']; [reflexivity|]); cbn [length] in HL; [lia|]. cbn [sanitizeN] in *.
  destruct (runeLen (c :: t')) as [|k] eqn:ER.
  - inversion HF as [|? ? H _]; discriminate H.
  - apply Forall_app in HF as [H1 H2]. rewrite (IH (skipn (S k) (c :: t'))); auto; [apply firstn_skipn|]. cbn [skipn]. rewrite skipn_length. lia.
Qed.
Lemma ascii_utf8 t : Forall (fun c => between 0 127 c = true) t -> utf8T t.
Proof.
  intros H. exists (map byteOf t). split.
  - apply Forall_map. eapply Forall_impl; [|exact H]. intros c Hc. apply betweenT in Hc. split; lia.
  - induction H as [|c t Hc _ IH]; [reflexivity|]. cbn [map concat]. apply betweenT in Hc. unfold encodeRune at 1. destruct (Z.ltb_spec (byteOf c) 0); [lia|].
    destruct (Z.ltb_spec (byteOf c) 128); [|lia]. rewrite byteC_byte. cbn [app]. f_equal. exact IH.
Qed.
Lemma sanitize_is_ascii t s : Forall (fun c => between 0 127 c = true) s -> (sanitize t = s <-> t = s).
Proof.
  intros H. split.
  - intros E. rewrite <- E in H. rewrite <- E. symmetry. apply sanitizeN_ascii; auto.
  - intros ->. apply sanitize_utf8, ascii_utf8; auto.
Qed.
