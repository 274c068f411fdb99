(** Support for the theorems about JSON: numbers. *)
From Coq Require Import Ascii String Reals Lra Decimal DecimalString DecimalZ DecimalPos DecimalFacts.
From Verif Require Import Base F64 Env F64Lemmas Utils Tree Options Train Text Json Readers GoJson SpecGoJson ReadersNum.
From Coq Require Import List.
Open Scope Z_scope.

Lemma eqbT c d : Ascii.eqb c d = true <-> c = d.
Proof. apply Ascii.eqb_eq. Qed.
Lemma eqbF c d : c <> d -> Ascii.eqb c d = false.
Proof. apply Ascii.eqb_neq. Qed.

Definition startsNot (P : ascii -> bool) (t : text) : Prop := match t with c :: _ => P c = false | [] => True end.
Lemma spanD_spec t : forall a b, spanD t = (a, b) -> t = a ++ b /\ Forall (fun c => isDigit c = true) a /\ startsNot isDigit b.
Proof.
  induction t as [|c t IH]; cbn [spanD]; intros a b; [intros [= <- <-]; cbn; auto|].
  destruct (isDigit c) eqn:E.
  - destruct (spanD t) as [x y] eqn:ES. intros [= <- <-]. destruct (IH x y eq_refl) as (-> & H1 & H2). cbn. auto.
  - intros [= <- <-]. cbn. auto.
Qed.
Lemma spanD_app a b : Forall (fun c => isDigit c = true) a -> startsNot isDigit b -> spanD (a ++ b) = (a, b).
Proof.
  induction a as [|c a IH]; intros Ha Hb.
  - destruct b as [|c b]; [reflexivity|]. cbn in *. rewrite Hb. auto.
  - inversion Ha as [|? ? Hc Ha']; subst. cbn. rewrite Hc, IH; auto.
Qed.
Lemma digitsVal_fold t : Forall (fun c => isDigit c = true) t -> forall acc, digitsVal t acc = Some (fold_left (fun a c => 10 * a + (byteOf c - 48)) t acc).
Proof. induction 1 as [|c t Hc Ht IH]; intros acc; cbn; [auto|]. rewrite Hc. apply IH. Qed.
Lemma digitsVal_valD t : Forall (fun c => isDigit c = true) t -> digitsVal t 0 = Some (valD t).
Proof. intros H. apply digitsVal_fold; auto. Qed.
Lemma valD_nonneg t : Forall (fun c => isDigit c = true) t -> 0 <= valD t.
Proof.
  intros H. unfold valD. assert (G : forall acc, 0 <= acc -> 0 <= fold_left (fun a c => 10 * a + (byteOf c - 48)) t acc); [|apply G; lia].
  induction H as [|c t Hc Ht IH]; intros acc Ha; cbn [fold_left]; [auto|]. apply IH. pose proof (proj1 (digit_byte c) Hc) as HB. clear - HB Ha. lia.
Qed.

Lemma digit_neq c d : isDigit c = true -> isDigit d = false -> c <> d.
Proof. congruence. Qed.

(** ** [readNum] reads exactly the numbers of the grammar *)
Lemma readExp_iff t o : readExp t = Some o <-> exists e, expPart e t /\
   match o with None => t = [] | Some (sg, ds) => t <> [] /\ Forall (fun c => isDigit c = true) ds /\ e = if sg then - valD ds else valD ds end /\
   (match o with None => True | Some (sg, ds) => exists c, t = c :: (if sg then "-"%char :: ds else ds) \/ (sg = false /\ t = c :: "+"%char :: ds) end).
Proof.
  split.
  - destruct t as [|c t1]; cbn [readExp].
    + intros [= <-]. exists 0. repeat split; constructor.
    + destruct (Ascii.eqb c "e" || Ascii.eqb c "E") eqn:E; [|discriminate].
      assert (Hc : c = "e"%char \/ c = "E"%char) by (apply orb_true_iff in E as [E|E]; apply eqbT in E; auto).
      destruct t1 as [|s t'].
      { cbn. discriminate. }
      destruct (Ascii.eqb_spec s "-") as [->|H1].
      { destruct (spanD t') as [[|x xs] [|y ys]] eqn:ES; try discriminate. intros [= <-]. apply spanD_spec in ES as (EQ & HD & _). rewrite app_nil_r in EQ. subst t'.
        exists (- valD (x :: xs)). refine (conj _ (conj (conj _ (conj HD eq_refl)) _)); [apply ep_minus; auto; split; [discriminate|auto]|discriminate|]. exists c. left. auto. }
      destruct (Ascii.eqb_spec s "+") as [->|H2].
      { destruct (spanD t') as [[|x xs] [|y ys]] eqn:ES; try discriminate. intros [= <-]. apply spanD_spec in ES as (EQ & HD & _). rewrite app_nil_r in EQ. subst t'.
        exists (valD (x :: xs)). refine (conj _ (conj (conj _ (conj HD eq_refl)) _)); [apply ep_plus; auto; split; [discriminate|auto]|discriminate|]. exists c. right. auto. }
      destruct (spanD (s :: t')) as [[|x xs] [|y ys]] eqn:ES; try discriminate. intros [= <-]. apply spanD_spec in ES as (EQ & HD & _). rewrite app_nil_r in EQ. rewrite EQ.
      exists (valD (x :: xs)). refine (conj _ (conj (conj _ (conj HD eq_refl)) _)); [apply ep_plain; auto; split; [discriminate|auto]|discriminate|]. exists c. left. auto.
  - intros (e & HE & Ho & Hs). inversion HE; subst.
    + destruct o as [[sg ds]|]; [destruct Ho; congruence|reflexivity].
    + destruct H0 as [HN HD]. destruct o as [[sg ds]|]; [|discriminate].
      assert (ET : spanD d = (d, [])) by (rewrite <- (app_nil_r d) at 1; apply spanD_app; cbn; auto).
      assert (HEc : Ascii.eqb c "e" || Ascii.eqb c "E" = true) by (apply orb_true_iff; destruct H; [left|right]; apply eqbT; auto).
      destruct Hs as (c' & Hs). destruct d as [|d1 d]; [congruence|].
      assert (Hd1 : isDigit d1 = true) by (inversion HD; auto).
      destruct Hs as [Hs|[-> Hs]].
      * injection Hs as <- Hs. destruct sg; [injection Hs as -> _; discriminate Hd1|]. subst ds.
        cbn [readExp]. rewrite HEc, !eqbF by (apply (digit_neq _ _ Hd1); reflexivity). rewrite ET. reflexivity.
      * injection Hs as <- -> _. discriminate Hd1.
    + destruct H0 as [HN HD]. destruct o as [[sg ds]|]; [|discriminate].
      assert (ET : spanD d = (d, [])) by (rewrite <- (app_nil_r d) at 1; apply spanD_app; cbn; auto).
      assert (HEc : Ascii.eqb c "e" || Ascii.eqb c "E" = true) by (apply orb_true_iff; destruct H; [left|right]; apply eqbT; auto).
      destruct Hs as (c' & Hs). destruct Ho as (_ & Hds & _).
      destruct Hs as [Hs|[-> Hs]].
      * injection Hs as <- Hs. destruct sg; [discriminate Hs|]. subst ds. inversion Hds as [|? ? Hp]; discriminate Hp.
      * injection Hs as <- <-. cbn [readExp]. rewrite HEc. cbn. rewrite ET. destruct d; [congruence|reflexivity].
    + destruct H0 as [HN HD]. destruct o as [[sg ds]|]; [|discriminate].
      assert (ET : spanD d = (d, [])) by (rewrite <- (app_nil_r d) at 1; apply spanD_app; cbn; auto).
      assert (HEc : Ascii.eqb c "e" || Ascii.eqb c "E" = true) by (apply orb_true_iff; destruct H; [left|right]; apply eqbT; auto).
      destruct Hs as (c' & Hs). destruct Ho as (_ & Hds & _).
      destruct Hs as [Hs|[-> Hs]].
      * injection Hs as <- Hs. destruct sg; [|subst ds; inversion Hds as [|? ? Hp]; discriminate Hp]. injection Hs as <-.
        cbn [readExp]. rewrite HEc. cbn. rewrite ET. destruct d; [congruence|reflexivity].
      * discriminate Hs.
Qed.
Lemma readExp_sound t o : readExp t = Some o -> exists e, expPart e t /\
  match o with None => e = 0 /\ t = [] | Some (sg, ds) => Forall (fun c => isDigit c = true) ds /\ e = (if sg then - valD ds else valD ds) /\ t <> [] end.
Proof.
  intros H. pose proof H as H'. apply readExp_iff in H' as (e & HE & Ho & _). exists e. split; auto. destruct o as [[sg ds]|]; [tauto|].
  subst t. inversion HE. auto.
Qed.
Lemma readExp_complete e t : expPart e t -> exists o, readExp t = Some o /\
  match o with None => e = 0 /\ t = [] | Some (sg, ds) => Forall (fun c => isDigit c = true) ds /\ e = (if sg then - valD ds else valD ds) /\ t <> [] end.
Proof.
  intros HE. inversion HE; subst.
  - exists None. auto.
  - destruct H0 as [HN HD]. exists (Some (false, d)). split; [|split; [auto|split; [auto|discriminate]]]. apply readExp_iff. exists (valD d). refine (conj HE (conj (conj _ (conj HD eq_refl)) _)); [discriminate|]. exists c. auto.
  - destruct H0 as [HN HD]. exists (Some (false, d)). split; [|split; [auto|split; [auto|discriminate]]]. apply readExp_iff. exists (valD d). refine (conj HE (conj (conj _ (conj HD eq_refl)) _)); [discriminate|]. exists c. auto.
  - destruct H0 as [HN HD]. exists (Some (true, d)). split; [|split; [auto|split; [auto|discriminate]]]. apply readExp_iff. exists (- valD d). refine (conj HE (conj (conj _ (conj HD eq_refl)) _)); [discriminate|]. exists c. auto.
Qed.
Definition expZ (o : option (bool * text)) : Z := match o with None => 0 | Some (sg, ds) => if sg then - valD ds else valD ds end.
Definition fracT (o : option text) : text := match o with None => [] | Some f => "."%char :: f end.

(** the whole shape *)
Definition shape (t : text) (p : numParts) : Prop :=
  exists et, intPart (np_int p) /\ match np_frac p with None => True | Some f => digitsT f end /\ expPart (expZ (np_exp p)) et /\
    match np_exp p with None => et = [] | Some (_, ds) => Forall (fun c => isDigit c = true) ds /\ et <> [] end /\
    readExp et = Some (np_exp p) /\
    t = (if np_neg p then ["-"%char] else []) ++ np_int p ++ fracT (np_frac p) ++ et.
Lemma intPart_ok i : intPart i <-> Forall (fun c => isDigit c = true) i /\ match i with [] => false | c :: r => negb (Ascii.eqb c "0") || match r with [] => true | _ => false end end = true.
Proof.
  unfold intPart, digitsT. destruct i as [|c r]; [split; [intros [[H _] _]; congruence|intros [_ H]; discriminate H]|]. split.
  - intros [[_ HF] H]. split; auto. destruct (Ascii.eqb_spec c "0") as [->|]; [|auto]. rewrite (H r eq_refl). auto.
  - intros [HF H]. repeat split; auto; [discriminate|]. intros r' [= -> <-]. cbn in H. destruct r; [auto|discriminate].
Qed.
Lemma readNum_sound t p : readNum t = Some p -> shape t p.
Proof.
  unfold readNum. set (st := match t with c :: t' => if Ascii.eqb c "-" then (true, t') else (false, t) | [] => (false, t) end).
  assert (HS : t = (if fst st then ["-"%char] else []) ++ snd st).
  { unfold st. destruct t as [|c t']; [reflexivity|]. destruct (Ascii.eqb_spec c "-") as [->|]; reflexivity. }
  destruct st as [neg t1]. cbn in HS. destruct (spanD t1) as [i t2] eqn:EI. apply spanD_spec in EI as (-> & HI & HN).
  destruct (negb _) eqn:EO; [discriminate|]. apply negb_false_iff in EO.
  assert (HP : intPart i) by (apply intPart_ok; auto). clear EO.
  destruct t2 as [|c t3].
  - intros [= <-]. exists []. cbn. split; [exact HP|]. split; [exact I|]. split; [constructor|]. auto.
  - destruct (Ascii.eqb_spec c ".") as [->|Hc].
    + destruct (spanD t3) as [[|f1 fs] t4] eqn:EF; [discriminate|]. apply spanD_spec in EF as (-> & HF & _).
      destruct (readExp t4) as [e|] eqn:EE; [|discriminate]. intros [= <-]. exists t4. cbn [np_neg np_int np_frac np_exp fracT].
      pose proof (readExp_sound _ _ EE) as (z & Hz & He).
      split; [exact HP|]. split; [split; [discriminate|exact HF]|]. repeat split; auto.
      * destruct e as [[sg ds]|]; cbn [expZ]; [|destruct He as [-> ->]; constructor]. destruct He as (_ & <- & _). auto.
      * destruct e as [[sg ds]|]; tauto.
    + destruct (readExp (c :: t3)) as [e|] eqn:EE; [|discriminate]. intros [= <-]. exists (c :: t3). cbn [np_neg np_int np_frac np_exp fracT].
      pose proof (readExp_sound _ _ EE) as (z & Hz & He).
      split; [exact HP|]. split; [exact I|]. repeat split; auto.
      * destruct e as [[sg ds]|]; cbn [expZ]; [|destruct He as [_ He]; discriminate He]. destruct He as (_ & <- & _). auto.
      * destruct e as [[sg ds]|]; tauto.
Qed.
Lemma readNum_complete t p : shape t p -> readNum t = Some p.
Proof.
  destruct p as [neg i fo eo]. intros (et & HI & HF & HE & HO & HR & HT). cbn [np_neg np_int np_frac np_exp] in *.
  pose proof (proj1 (intPart_ok i) HI) as [HD HIO].
  assert (Hi0 : exists c r, i = c :: r /\ isDigit c = true) by (destruct i as [|c r]; [discriminate HIO|]; exists c, r; inversion HD; auto).
  assert (HS : match t with c :: t' => if Ascii.eqb c "-" then (true, t') else (false, t) | [] => (false, t) end = (neg, i ++ fracT fo ++ et)).
  { rewrite HT. destruct neg; cbn [app]; [rewrite Ascii.eqb_refl; auto|]. destruct Hi0 as (c & r & -> & Hc). cbn [app].
    rewrite eqbF by (apply (digit_neq _ _ Hc); reflexivity). auto. }
  assert (Het : startsNot isDigit et).
  { inversion HE; subst; cbn; auto; match goal with H : _ \/ _ |- _ => destruct H; subst; reflexivity end. }
  assert (HSP : spanD (i ++ fracT fo ++ et) = (i, fracT fo ++ et)).
  { apply spanD_app; auto. destruct fo; cbn; auto. }
  unfold readNum. rewrite HS, HSP. rewrite HIO. cbn [negb].
  destruct fo as [f|]; cbn [fracT app].
  - rewrite Ascii.eqb_refl. destruct HF as [HN HFD]. rewrite (spanD_app f et HFD Het). destruct f as [|f1 fs]; [congruence|]. rewrite HR. auto.
  - destruct et as [|c et'].
    + cbn in HR. injection HR as <-. auto.
    + assert (Hc : c <> "."%char). { inversion HE; subst; match goal with H : _ \/ _ |- _ => destruct H; subst end; discriminate. }
      rewrite (eqbF _ _ Hc), HR. auto.
Qed.
Lemma shape_numIs t p : shape t p -> numIs t (np_neg p) (np_int p) (fracOf p) (expZ (np_exp p)).
Proof.
  intros (et & HI & HF & HE & _ & _ & HT). exists (fracT (np_frac p)), et. split; auto. split; [|split; auto].
  unfold fracOf. destruct (np_frac p); cbn; constructor; auto.
Qed.
Lemma numIs_shape t neg i f e : numIs t neg i f e -> exists p, shape t p /\ np_neg p = neg /\ np_int p = i /\ fracOf p = f /\ expZ (np_exp p) = e.
Proof.
  intros (ft & et & HI & HF & HE & HT). destruct (readExp_complete _ _ HE) as (o & HR & Ho).
  assert (HZ : expZ o = e) by (destruct o as [[sg ds]|]; cbn; [destruct Ho as (_ & -> & _)|destruct Ho as (-> & _)]; auto).
  inversion HF; subst ft.
  - subst f. exists (MkNum neg i None o). cbn. split; [|auto]. exists et. cbn. rewrite HZ. refine (conj HI (conj I (conj HE (conj _ (conj HR HT))))). destruct o as [[sg ds]|]; tauto.
  - subst f0. exists (MkNum neg i (Some f) o). cbn. split; [|auto]. exists et. cbn. rewrite HZ. refine (conj HI (conj H (conj HE (conj _ (conj HR HT))))). destruct o as [[sg ds]|]; tauto.
Qed.
Lemma numText_read t : numText t <-> readNum t <> None.
Proof.
  split.
  - intros (neg & i & f & e & H). apply numIs_shape in H as (p & H & _). rewrite (readNum_complete _ _ H). discriminate.
  - destruct (readNum t) as [p|] eqn:E; [|congruence]. intros _. apply readNum_sound, shape_numIs in E. eexists _, _, _, _. exact E.
Qed.
Lemma digit_num c : isDigit c = true -> numChar c = true.
Proof. unfold numChar. intros ->. auto. Qed.
Lemma numText_chars t c : numText t -> In c t -> numChar c = true.
Proof.
  intros (neg & i & f & e & ft & et & [[_ HI] _] & HF & HE & ->) H. rewrite Forall_forall in HI.
  apply in_app_iff in H as [H|H]. { destruct neg; cbn in H; [destruct H as [<-|[]]; reflexivity|contradiction]. }
  apply in_app_iff in H as [H|H]. { apply digit_num; auto. }
  apply in_app_iff in H as [H|H].
  - inversion HF; subst; [contradiction|]. destruct H0 as [_ H0]. rewrite Forall_forall in H0. destruct H as [<-|H]; [reflexivity|apply digit_num; auto].
  - inversion HE; subst; [contradiction|..]; destruct H1 as [_ H1]; rewrite Forall_forall in H1;
      repeat (destruct H as [H|H]; [subst; solve [reflexivity|destruct H0; subst; reflexivity]|]); apply digit_num; auto.
Qed.
Lemma numText_start t : numText t -> exists c r, t = c :: r /\ (isDigit c = true \/ c = "-"%char).
Proof.
  intros (neg & i & f & e & ft & et & [[HN HI] _] & _ & _ & ->). destruct neg; [eexists _, _; split; [reflexivity|auto]|].
  destruct i as [|c r]; [congruence|]. eexists _, _. split; [reflexivity|]. left. inversion HI; auto.
Qed.

(** ** Integers *)
Lemma intPart_digits i : intPart i -> Forall (fun c => isDigit c = true) i.
Proof. intros [[_ H] _]; auto. Qed.
Lemma int_shape (neg : bool) i : intPart i -> readNum ((if neg then ["-"%char] else []) ++ i) = Some (MkNum neg i None None).
Proof.
  intros H. apply readNum_complete. exists []. cbn. split; [exact H|]. split; [exact I|]. split; [constructor|]. rewrite app_nil_r. auto.
Qed.
Lemma int_parts t (neg : bool) i : readNum t = Some (MkNum neg i None None) -> intPart i /\ t = (if neg then ["-"%char] else []) ++ i.
Proof. intros E. apply readNum_sound in E as (et & HI & _ & _ & HO & _ & HT). cbn in *. subst et. rewrite app_nil_r in HT. auto. Qed.
Lemma parseInt_iff t z : parseInt t = Some z <-> intIs t z.
Proof.
  unfold parseInt. split.
  - destruct (readNum t) as [[neg i [f|] [e|]]|] eqn:E; try discriminate. apply int_parts in E as [HI HT].
    rewrite digitsVal_valD by (apply intPart_digits; auto). intros [= <-]. exists neg, i. auto.
  - intros (neg & i & HI & -> & ->). rewrite int_shape by auto. rewrite digitsVal_valD by (apply intPart_digits; auto). auto.
Qed.
Lemma parseUint_iff t z : parseUint t = Some z <-> uintIs t z.
Proof.
  unfold parseUint. split.
  - destruct (readNum t) as [[[|] i [f|] [e|]]|] eqn:E; try discriminate. apply int_parts in E as [HI HT]. cbn in HT. subst i.
    rewrite digitsVal_valD by (apply intPart_digits; auto). intros [= <-]. split; auto.
  - intros (HI & ->). pose proof (int_shape false t HI) as H. cbn in H. rewrite H. apply digitsVal_valD. apply intPart_digits; auto.
Qed.
(** the decimal text of an integer *)
Lemma dec_intPart n : 0 <= n -> intPart (decZ n) /\ valD (decZ n) = n.
Proof.
  intros Hn. destruct (dec_nat n Hn) as [HV HD]. split; [|rewrite (digitsVal_valD _ HD) in HV; congruence].
  split; [split; [apply decZ_nonempty|auto]|]. intros r Hr. destruct n as [|p|p]; [cbn in Hr; congruence| |lia].
  pose proof (DecimalPos.Unsigned.to_uint_nonnil p) as HN. pose proof (DecimalPos.Unsigned.to_of (Pos.to_uint p)) as HU.
  pose proof (DecimalPos.Unsigned.of_to p) as HO. rewrite HO in HU. cbn in HU.
  assert (HE : decZ (Z.pos p) = tx (NilEmpty.string_of_uint (Pos.to_uint p))).
  { unfold decZ. cbn [Z.to_int NilZero.string_of_int]. destruct (Pos.to_uint p); [congruence|reflexivity..]. }
  rewrite HE in Hr. destruct (Pos.to_uint p) as [|d|d|d|d|d|d|d|d|d|d]; try discriminate Hr; [].
  exfalso. clear -HU HN HO. unfold unorm in HU. cbn [nzhead] in HU. destruct (nzhead d) eqn:EN; try congruence; try discriminate HU.
  - injection HU as ->. cbn in HO. discriminate HO.
  - exact (DecimalFacts.nzhead_nonzero _ _ EN).
Qed.
Lemma dec_intIs z : intIs (decZ z) z.
Proof.
  destruct (Z_lt_le_dec z 0) as [H|H].
  - destruct z as [|p|p]; try lia. rewrite dec_neg. destruct (dec_intPart (Z.pos p)) as [H1 H2]; [lia|]. exists true, (decZ (Z.pos p)). repeat split; try apply H1. cbn [app]. lia.
  - destruct (dec_intPart z H) as [H1 H2]. exists false, (decZ z). repeat split; try apply H1. auto.
Qed.
Lemma intIs_num t z : intIs t z -> numText t.
Proof. intros H. apply parseInt_iff in H. apply numText_read. unfold parseInt in H. intros E. rewrite E in H. discriminate H. Qed.

(** ** Floats *)
Lemma quotF_spec (s : bool) n d : 0 <= n -> let v := (IZR (if s then - n else n) / IZR (Zpos d))%R in
  if Rlt_bool (Rabs (rnd v)) (bpow radix2 1024) then is_finite (quotF s n d) = true /\ B2R (quotF s n d) = rnd v /\ Bsign (quotF s n d) = s
  else is_finite (quotF s n d) = false.
Proof.
  intros Hn v. destruct n as [|p|p]; [|..|lia].
  - assert (HV : v = 0%R) by (unfold v, Rdiv; destruct s; cbn; apply Rmult_0_l). rewrite HV.
    assert (HR : rnd 0 = 0%R) by (unfold rnd; apply round_0; apply valid_rnd_N). rewrite HR, Rabs_R0.
    rewrite Rlt_bool_true by apply bpow_gt_0. cbn. auto.
  - cbn [quotF]. pose proof (Bdiv_correct_aux 53 1024 Hprec Hemax mode_NE s p 0 false d 0) as HB. cbv zeta in HB.
    generalize (proj1 (Bdiv_correct_aux 53 1024 Hprec Hemax mode_NE s p 0 false d 0)). cbv zeta.
    set (z := let '(mz, ez, lz) := SpecFloat.SFdiv_core_binary 53 1024 (Z.pos p) 0 (Z.pos d) 0 in binary_round_aux 53 1024 mode_NE (xorb s false) mz ez lz) in *.
    intros Hz. destruct HB as [_ HB].
    assert (HT : (F2R (beta:=radix2) {| Fnum := SpecFloat.cond_Zopp s (Z.pos p); Fexp := 0 |} / F2R (beta:=radix2) {| Fnum := SpecFloat.cond_Zopp false (Z.pos d); Fexp := 0 |} = v)%R).
    { unfold v, F2R; cbn [Fnum Fexp SpecFloat.cond_Zopp]. change (bpow radix2 0) with 1%R. rewrite !Rmult_1_r. destruct s; reflexivity. }
    rewrite HT in HB. change (round radix2 (SpecFloat.fexp 53 1024) (round_mode mode_NE) v) with (rnd v) in HB.
    destruct (Rlt_bool (Rabs (rnd v)) (bpow radix2 1024)).
    + destruct HB as (H1 & H2 & H3). rewrite xorb_false_r in H3. split; [|split].
      * rewrite is_finite_SF2B. exact H2.
      * rewrite B2R_SF2B. exact H1.
      * rewrite Bsign_SF2B. exact H3.
    + rewrite is_finite_SF2B. rewrite HB. reflexivity.
Qed.
Lemma powerRZ_pos k : 0 <= k -> powerRZ 10 k = IZR (10 ^ k).
Proof.
  intros H. rewrite <- (Z2Nat.id k H). rewrite <- pow_powerRZ, pow_IZR. auto.
Qed.
Lemma numExp_shape t p : shape t p -> numExp p = Some (expZ (np_exp p)).
Proof.
  intros (et & _ & _ & _ & HO & _). unfold numExp, expZ. destruct (np_exp p) as [[sg ds]|]; auto. destruct HO as [HD _]. rewrite digitsVal_valD by auto. auto.
Qed.
Lemma shape_digits t p : shape t p -> Forall (fun c => isDigit c = true) (np_int p ++ fracOf p).
Proof.
  intros (et & HI & HF & _). apply Forall_app. split; [apply intPart_digits; auto|]. unfold fracOf. destruct (np_frac p); [apply HF|constructor].
Qed.
Lemma parseFloat_spec t neg i f e : numIs t neg i f e -> let v := numReal neg i f e in
  if Rlt_bool (Rabs (rnd v)) (bpow radix2 1024)
  then exists x, parseFloat t = Some x /\ is_finite x = true /\ B2R x = rnd v /\ Bsign x = neg
  else parseFloat t = None.
Proof.
  intros H v. apply numIs_shape in H as (p & HS & <- & <- & <- & <-). unfold parseFloat. rewrite (readNum_complete _ _ HS).
  pose proof (shape_digits _ _ HS) as HD. rewrite (digitsVal_valD _ HD), (numExp_shape _ _ HS).
  pose proof (valD_nonneg _ HD) as HP. unfold numReal in v. set (n := valD (np_int p ++ fracOf p)) in *. set (k := expZ (np_exp p) - Z.of_nat (length (fracOf p))) in *.
  cbv zeta. destruct (0 <=? k) eqn:EK.
  - apply Z.leb_le in EK. pose proof (quotF_spec (np_neg p) (n * 10 ^ k) 1) as HQ. cbv zeta in HQ.
    assert (HV : (IZR (if np_neg p then - (n * 10 ^ k) else n * 10 ^ k) / IZR 1 = v)%R).
    { unfold v. rewrite powerRZ_pos by auto. unfold Rdiv. rewrite Rinv_1, Rmult_1_r. rewrite <- mult_IZR. f_equal. destruct (np_neg p); ring. }
    rewrite HV in HQ. assert (H0 : 0 <= n * 10 ^ k) by (apply Z.mul_nonneg_nonneg; [auto|apply Z.pow_nonneg; lia]). specialize (HQ H0).
    destruct (Rlt_bool _ _); [|rewrite HQ; auto]. destruct HQ as (H1 & H2 & H3). rewrite H1. eauto.
  - apply Z.leb_gt in EK. pose proof (quotF_spec (np_neg p) n (Z.to_pos (10 ^ (- k)))) as HQ. cbv zeta in HQ.
    assert (HK : 0 < 10 ^ (- k)) by (apply Z.pow_pos_nonneg; lia). rewrite Z2Pos.id in HQ by auto.
    assert (HV : (IZR (if np_neg p then - n else n) / IZR (10 ^ (- k)) = v)%R).
    { unfold v. assert (HKK : powerRZ 10 k = (/ powerRZ 10 (- k))%R) by (rewrite <- powerRZ_neg', Z.opp_involutive; auto). rewrite HKK, powerRZ_pos by lia. reflexivity. }
    rewrite HV in HQ. specialize (HQ HP). destruct (Rlt_bool _ _); [|rewrite HQ; auto]. destruct HQ as (H1 & H2 & H3). rewrite H1. eauto.
Qed.
