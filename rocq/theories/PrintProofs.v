(** Proofs about the printed descriptions (proof support for C107-C110). *)
From Coq Require Import Reals Lra Ascii String.
From Flocq Require Import Core IEEE754.BinarySingleNaN.
From Verif Require Import Base F64 F64Lemmas Env Utils Tree Options Train Spec UtilsProofs TreeProofs Text Confu Readers SpecReaders ReadersNum Feats Print SpecPrint.
From Coq Require Import List.
Open Scope Z_scope.

(** ** cutting texts *)
Lemma cut_first (c : ascii) a b a' b' : ~ In c a -> ~ In c a' -> a ++ c :: b = a' ++ c :: b' -> a = a' /\ b = b'.
Proof.
  revert a'. induction a as [|x a IH]; intros [|y a'] H1 H2 H; cbn [app] in H.
  - injection H as ->. auto.
  - injection H as -> _. exfalso. apply H2. left; auto.
  - injection H as -> _. exfalso. apply H1. left; auto.
  - injection H as -> H. apply IH in H as [-> ->]; auto; intros HH; [apply H1|apply H2]; right; auto.
Qed.
Lemma cut_last (c : ascii) a b a' b' : ~ In c b -> ~ In c b' -> a ++ c :: b = a' ++ c :: b' -> a = a' /\ b = b'.
Proof.
  intros H1 H2 H. assert (HR : rev b ++ c :: rev a = rev b' ++ c :: rev a').
  { apply (f_equal (@rev ascii)) in H. rewrite !rev_app_distr in H. cbn [rev] in H. rewrite <- !app_assoc in H. exact H. }
  apply cut_first in HR as [HA HB]; [|rewrite <- in_rev; auto|rewrite <- in_rev; auto].
  split; [rewrite <- (rev_involutive a), HB, rev_involutive|rewrite <- (rev_involutive b), HA, rev_involutive]; reflexivity.
Qed.
Lemma join_inj (c : ascii) l : (forall w, In w l -> w <> [] /\ ~ In c w) -> forall l', (forall w, In w l' -> w <> [] /\ ~ In c w) ->
  joinT l [c] = joinT l' [c] -> l = l'.
Proof.
  induction l as [|a l IH]; intros HL [|a' l'] HL' H; auto.
  - exfalso. destruct (HL' a') as [HA _]; [left; auto|]. destruct l'; cbn [joinT] in H; destruct a'; try congruence; discriminate H.
  - exfalso. destruct (HL a) as [HA _]; [left; auto|]. destruct l; cbn [joinT] in H; destruct a; try congruence; discriminate H.
  - destruct (HL a) as [_ HA]; [left; auto|]. destruct (HL' a') as [_ HA']; [left; auto|].
    destruct l as [|b l], l' as [|b' l'].
    + cbn [joinT] in H. congruence.
    + exfalso. cbn [joinT] in H. apply HA. rewrite H. apply in_or_app. right. left; auto.
    + exfalso. cbn [joinT] in H. apply HA'. rewrite <- H. apply in_or_app. right. left; auto.
    + change (joinT (a :: b :: l) [c]) with (a ++ c :: joinT (b :: l) [c]) in H. change (joinT (a' :: b' :: l') [c]) with (a' ++ c :: joinT (b' :: l') [c]) in H.
      apply cut_first in H as [-> H]; auto. f_equal. apply IH; auto; intros w Hw; [apply HL|apply HL']; right; auto.
Qed.

(** ** numbers *)
Lemma dec_inj a b : decZ a = decZ b -> a = b.
Proof. intros H. pose proof (parse_dec a) as HA. rewrite H, parse_dec in HA. congruence. Qed.
Lemma dec_no c z : isDigit c = false -> c <> "-"%char -> ~ In c (decZ z).
Proof. intros H1 H2 H. apply decZ_chars in H as [H|H]; congruence. Qed.
Lemma list_inj l l' : listText (map decZ l) = listText (map decZ l') -> l = l'.
Proof.
  unfold listText. intros H. apply app_inv_head, app_inv_tail in H. change (tx " ") with [" "%char] in H. apply join_inj in H.
  - revert l' H. induction l as [|a l IH]; intros [|b l'] H; try discriminate; auto. cbn [map] in H. injection H as H1 H2. apply dec_inj in H1. f_equal; auto.
  - intros w Hw. apply in_map_iff in Hw as (z & <- & _). split; [apply decZ_nonempty|apply dec_no; [reflexivity|discriminate]].
  - intros w Hw. apply in_map_iff in Hw as (z & <- & _). split; [apply decZ_nonempty|apply dec_no; [reflexivity|discriminate]].
Qed.
Lemma thousands_nonneg x : 0 <= thousands x.
Proof.
  unfold thousands. destruct x as [s|s| |s m e He]; try lia. destruct (Z.leb_spec 0 e) as [H|H].
  - assert (0 <= 2 ^ e) by (apply Z.pow_nonneg; lia). lia.
  - unfold divRNE. assert (0 < 2 ^ (- e)) by (apply Z.pow_pos_nonneg; lia).
    assert (0 <= Z.pos m * 1000 / 2 ^ (- e)) by (apply Z.div_pos; lia). repeat (match goal with |- context [if ?b then _ else _] => destruct b end); lia.
Qed.
Lemma thousands_spec x : is_finite x = true -> ZnearestE (Rabs (B2R x) * 1000) = thousands x.
Proof.
  destruct x as [s|s| |s m e He]; try discriminate; intros _; cbn [B2R thousands].
  - rewrite Rabs_R0, Rmult_0_l. apply (Zrnd_IZR ZnearestE 0).
  - rewrite <- F2R_Zabs.
    assert (HA : Z.abs (SpecFloat.cond_Zopp s (Z.pos m)) = Z.pos m) by (destruct s; reflexivity). rewrite HA.
    destruct (Z.leb_spec 0 e) as [H|H].
    + unfold F2R; cbn [Fnum Fexp]. rewrite <- (IZR_Zpower radix2) by lia. rewrite <- !mult_IZR. apply (Zrnd_IZR ZnearestE).
    + rewrite <- div_RNE by (apply Z.pow_pos_nonneg; lia). f_equal. unfold F2R; cbn [Fnum Fexp].
      rewrite mult_IZR. change 2 with (radix_val radix2) at 1. rewrite IZR_Zpower by lia. rewrite bpow_opp.
      unfold Rdiv. rewrite Rinv_inv. ring.
Qed.
Lemma zeros_val k t : digitsVal (repeat "0"%char k ++ t) 0 = digitsVal t 0.
Proof. induction k as [|k IH]; [reflexivity|]. exact IH. Qed.
Lemma pad3_inj a b : 0 <= a -> 0 <= b ->
  (let s := decZ a in repeat "0"%char (3 - length s) ++ s) = (let s := decZ b in repeat "0"%char (3 - length s) ++ s) -> a = b.
Proof.
  intros Ha Hb H. cbv zeta in H. apply (f_equal (fun t => digitsVal t 0)) in H. rewrite !zeros_val in H.
  rewrite (proj1 (dec_nat a Ha)), (proj1 (dec_nat b Hb)) in H. congruence.
Qed.
Lemma fixed3_dot s n : 0 <= n -> exists a b, fixed3 s n = a ++ "."%char :: b.
Proof. intros _. unfold fixed3. exists ((if s then tx "-" else []) ++ decZ (n / 1000)). eexists. rewrite <- app_assoc. reflexivity. Qed.
Lemma fixed3_inj s n s' n' : 0 <= n -> 0 <= n' -> fixed3 s n = fixed3 s' n' -> s = s' /\ n = n'.
Proof.
  intros Hn Hn' H. unfold fixed3 in H.
  assert (HD : 0 <= n / 1000) by (apply Z.div_pos; lia). assert (HD' : 0 <= n' / 1000) by (apply Z.div_pos; lia).
  assert (HS : forall m t, 0 <= m -> decZ m ++ t <> [] /\ forall c u, decZ m ++ t = c :: u -> c <> "-"%char).
  { intros m t Hm. destruct (dec_nat m Hm) as [_ HF]. pose proof (decZ_nonempty m) as HN. destruct (decZ m) as [|c0 u0]; [congruence|]. split; [discriminate|].
    intros c u E. injection E as <- _. inversion HF as [|? ? Hc _]; subst. intros ->. discriminate Hc. }
  assert (Hs : s = s').
  { destruct s, s'; auto; exfalso; cbn [app] in H.
    - symmetry in H. eapply (proj2 (HS _ _ HD')); [exact H|reflexivity].
    - eapply (proj2 (HS _ _ HD)); [exact H|reflexivity]. }
  subst s'. split; auto. apply app_inv_head in H. change (tx ".") with ["."%char] in H. cbn [app] in H.
  apply cut_first in H as [H1 H2]; [|apply dec_no; [reflexivity|discriminate]|apply dec_no; [reflexivity|discriminate]].
  apply dec_inj in H1. apply pad3_inj in H2; [|apply Z.mod_pos_bound; lia|apply Z.mod_pos_bound; lia].
  rewrite (Z.div_mod n 1000), (Z.div_mod n' 1000) by lia. congruence.
Qed.
Lemma fmt3_finite x : is_finite x = true -> fmt3 x = fixed3 (Bsign x) (thousands x).
Proof. destruct x; try discriminate; reflexivity. Qed.
Lemma fmt3_special x : is_finite x = false -> In (fmt3 x) [tx "NaN"; tx "+Inf"; tx "-Inf"].
Proof. destruct x as [s|s| |s m e He]; try discriminate; cbn [fmt3]; [destruct s|]; simpl; auto. Qed.
Lemma fmt3_inj x y : fmt3 x = fmt3 y -> same3 x y.
Proof.
  intros H. unfold same3. assert (HX : forall x y, is_finite x = true -> is_finite y = false -> fmt3 x <> fmt3 y).
  { intros u v Hu Hv E. rewrite (fmt3_finite u Hu) in E. destruct (fixed3_dot (Bsign u) (thousands u) (thousands_nonneg u)) as (a & b & EA). rewrite EA in E.
    assert (HI : In "."%char (fmt3 v)) by (rewrite <- E; apply in_or_app; right; left; auto).
    apply fmt3_special in Hv as [Hv|[Hv|[Hv|[]]]]; rewrite <- Hv in HI; simpl in HI; intuition discriminate. }
  destruct (is_finite x) eqn:Fx, (is_finite y) eqn:Fy.
  - split; auto. rewrite !fmt3_finite in H by auto. apply fixed3_inj in H as [HS HT]; auto using thousands_nonneg. split; auto.
    rewrite !thousands_spec by auto. exact HT.
  - exfalso. eapply HX; eauto.
  - exfalso. eapply (HX y x); eauto.
  - destruct x as [s|s| |s m e He]; try discriminate; destruct y as [s'|s'| |s' m' e' He']; try discriminate; cbn [fmt3] in H; auto;
      try (destruct s, s'; auto; discriminate H); try (destruct s; discriminate H); destruct s'; discriminate H.
Qed.
Lemma same3_fmt x y : same3 x y -> fmt3 x = fmt3 y.
Proof.
  unfold same3. destruct (is_finite x) eqn:Fx; [|congruence]. intros (Fy & HS & HT). rewrite !fmt3_finite by auto. rewrite !thousands_spec in HT by auto. congruence.
Qed.
Lemma same3_close x y : same3 x y -> is_finite x = true -> (Rabs (B2R x - B2R y) <= / 1000)%R.
Proof.
  unfold same3. intros H Fx. rewrite Fx in H. destruct H as (Fy & HS & HT).
  pose proof (Znearest_half (fun t => negb (Z.even t)) (Rabs (B2R x) * 1000)) as H1. pose proof (Znearest_half (fun t => negb (Z.even t)) (Rabs (B2R y) * 1000)) as H2.
  rewrite HT in H1. apply Rabs_le_inv in H1. apply Rabs_le_inv in H2.
  assert (HD : (Rabs (Rabs (B2R x) - Rabs (B2R y)) <= / 1000)%R) by (apply Rabs_le; lra).
  assert (HG : forall z : f64, is_finite z = true -> (Rabs (B2R z) = if Bsign z then - B2R z else B2R z)%R).
  { intros z Fz. destruct z as [s|s| |s m e He]; try discriminate Fz; cbn [B2R Bsign].
    - rewrite Rabs_R0. destruct s; lra.
    - rewrite <- F2R_Zabs. destruct s; cbn [SpecFloat.cond_Zopp]; [change (Z.abs (- Z.pos m)) with (Z.pos m); change (- Z.pos m) with (Z.opp (Z.pos m)); rewrite F2R_Zopp; lra|reflexivity]. }
  rewrite (HG x Fx), (HG y Fy), HS in HD. destruct (Bsign y); [|exact HD].
  replace (- B2R x - - B2R y)%R with (- (B2R x - B2R y))%R in HD by lra. rewrite Rabs_Ropp in HD. exact HD.
Qed.
Definition numChar (c : ascii) : bool := isDigit c || Ascii.eqb c "-" || Ascii.eqb c "." || Ascii.eqb c "N" || Ascii.eqb c "a" || Ascii.eqb c "I" || Ascii.eqb c "n" || Ascii.eqb c "f" || Ascii.eqb c "+".
Lemma dec_num z c : In c (decZ z) -> numChar c = true.
Proof. intros H. apply decZ_chars in H as [H|H]; unfold numChar; [rewrite H; reflexivity|subst; reflexivity]. Qed.
Lemma fmt3_chars x c : In c (fmt3 x) -> numChar c = true.
Proof.
  destruct (is_finite x) eqn:Fx.
  - rewrite fmt3_finite by auto. unfold fixed3. intros H. apply in_app_or in H as [H|H].
    + destruct (Bsign x); [|destruct H]. destruct H as [<-|[]]. reflexivity.
    + apply in_app_or in H as [H|H]; [eapply dec_num; eauto|]. apply in_app_or in H as [H|H]; [destruct H as [<-|[]]; reflexivity|].
      cbv zeta in H. apply in_app_or in H as [H|H]; [apply repeat_spec in H; subst; reflexivity|eapply dec_num; eauto].
  - intros H. apply fmt3_special in Fx as [Fx|[Fx|[Fx|[]]]]; rewrite <- Fx in H; simpl in H; repeat (destruct H as [<-|H]; [reflexivity|]); destruct H.
Qed.
Lemma fmt3_no c x : numChar c = false -> ~ In c (fmt3 x).
Proof. intros H HI. apply fmt3_chars in HI. congruence. Qed.

(** ** trees *)
Lemma feature_shown names f n : feature names f = Ok n <-> shownName names f n.
Proof.
  destruct names as [ns|]; cbn [feature shownName]; [apply look_idx|]. destruct (Z.leb_spec 0 f) as [H|H].
  - split; [intros E; injection E as <-; auto|intros [_ ->]; reflexivity].
  - split; [discriminate|intros [? _]; lia].
Qed.
Lemma print_shows names t : forall sp, (exists s, PrintTree names sp t = Ok s) <-> exists p, shows names t p.
Proof.
  induction t as [|d l IHl r IHr]; intros sp.
  - split; [intros [s H]; discriminate H|intros [p H]; inversion H].
  - cbn [PrintTree]. destruct (t_leaf d) eqn:EL.
    + split; [intros _; eexists; apply shows_leaf; auto|intros _; eauto].
    + split.
      * intros [s H]. binv H. binv H. binv H. apply feature_shown in Hb.
        destruct (proj1 (IHl _) (ex_intro _ _ Hb0)) as [pl Hl]. destruct (proj1 (IHr _) (ex_intro _ _ Hb1)) as [pr Hr]. eexists. eapply shows_node; eauto.
      * intros [p H]. inversion H as [|? ? ? n pl pr ? HN Hl Hr]; subst; [congruence|]. apply feature_shown in HN. rewrite HN. cbn [bind].
        destruct (proj2 (IHl (sp ++ tx "  ")) (ex_intro _ _ Hl)) as [sl ->]. destruct (proj2 (IHr (sp ++ tx "  ")) (ex_intro _ _ Hr)) as [sr ->]. cbn [bind]. eauto.
Qed.

Lemma two_spaces sp : forall x y, tx "  " ++ sp ++ x <> sp ++ "F"%char :: y.
Proof.
  assert (HG : forall n sp, (length sp <= n)%nat -> forall x y, tx "  " ++ sp ++ x <> sp ++ "F"%char :: y).
  { induction n as [|n IH]; intros [|c [|d sp']] HL x y H; cbn [length] in HL; try lia; change (tx "  ") with [" "%char; " "%char] in H; cbn [app] in H; try discriminate H.
    injection H as <- <- H. eapply (IH sp'); [lia|]. exact H. }
  intros x y. apply (HG (length sp)); lia.
Qed.
Lemma noNL_app a b : oneLineT a -> oneLineT b -> oneLineT (a ++ b).
Proof. intros H1 H2 H. apply in_app_or in H as [H|H]; auto. Qed.
Lemma noNL_tx (s : string) : existsb (Ascii.eqb NL) (tx s) = false -> oneLineT (tx s).
Proof. intros H HI. assert (existsb (Ascii.eqb NL) (tx s) = true); [|congruence]. apply existsb_exists. exists NL. split; auto. Qed.
Lemma noNL_fmt3 x : oneLineT (fmt3 x).
Proof. apply fmt3_no. reflexivity. Qed.
Lemma noNL_join l : (forall w, In w l -> oneLineT w) -> oneLineT (joinT l (tx " ")).
Proof.
  induction l as [|a l IH]; intros HL; [intros []|]. destruct l as [|b l].
  - apply HL. left; auto.
  - change (joinT (a :: b :: l) (tx " ")) with (a ++ tx " " ++ joinT (b :: l) (tx " ")). apply noNL_app; [apply HL; left; auto|].
    apply noNL_app; [apply noNL_tx; reflexivity|]. apply IH. intros; apply HL; right; auto.
Qed.
Lemma noNL_ints l : oneLineT (listText (map decZ l)).
Proof.
  unfold listText. apply noNL_app; [apply noNL_tx; reflexivity|]. apply noNL_app; [|apply noNL_tx; reflexivity]. apply noNL_join.
  intros w Hw. apply in_map_iff in Hw as (z & <- & _). apply dec_no; [reflexivity|discriminate].
Qed.
Lemma noNL_name names f n : namesOneLine names -> shownName names f n -> oneLineT n.
Proof.
  intros HN HS. destruct names as [ns|]; cbn [shownName] in HS.
  - destruct HS as [_ HS]. eapply HN; [reflexivity|]. eapply nth_error_In; eauto.
  - destruct HS as [_ ->]. unfold padL. apply noNL_app; [|apply dec_no; [reflexivity|discriminate]]. intros H. apply repeat_spec in H. discriminate H.
Qed.

Ltac nl := repeat first [apply noNL_fmt3 | apply noNL_ints | assumption | apply noNL_tx; reflexivity | apply noNL_app].
Definition leafLine sp d := tx "  " ++ sp ++ tx "PREDICT    " ++ fmt3 (t_value d) ++ tx " with " ++ listText (map decZ (samplesOf d)) ++ tx " Samples".
Definition ruleLine sp n d := sp ++ tx "Feature " ++ n ++ tx " < " ++ fmt3 (t_thr d).
Lemma leaf_oneLine sp d : oneLineT sp -> oneLineT (leafLine sp d).
Proof.
  intros H. unfold leafLine. nl.
Qed.
Lemma rule_oneLine sp n d : oneLineT sp -> oneLineT n -> oneLineT (ruleLine sp n d).
Proof. intros H Hn. unfold ruleLine. nl. Qed.
Lemma print_leaf names sp d l r : t_leaf d = true -> PrintTree names sp (Node d l r) = Ok (leafLine sp d ++ [NL]).
Proof. intros H. cbn [PrintTree]. rewrite H. unfold leafLine. rewrite <- !app_assoc. reflexivity. Qed.
Lemma print_node names sp d l r s : t_leaf d = false -> PrintTree names sp (Node d l r) = Ok s -> exists n sl sr, shownName names (t_split d) n /\
  PrintTree names (sp ++ tx "  ") l = Ok sl /\ PrintTree names (sp ++ tx "  ") r = Ok sr /\
  s = ruleLine sp n d ++ NL :: (sp ++ tx "---> True") ++ NL :: sl ++ (sp ++ tx "---> False") ++ NL :: sr.
Proof.
  intros EL H. cbn [PrintTree] in H. rewrite EL in H. binv H. binv H. binv H. apply feature_shown in Hb. exists v, v0, v1.
  split; [auto|]. split; [auto|]. split; [auto|]. injection H as <-. unfold ruleLine. rewrite <- !app_assoc. reflexivity.
Qed.

Lemma Ok_inj {A} (a b : A) : Ok a = Ok b -> a = b.
Proof. congruence. Qed.
Lemma cutA a a' r r' : oneLineT a -> oneLineT a' -> (a ++ [NL]) ++ r = (a' ++ [NL]) ++ r' -> a = a' /\ r = r'.
Proof. intros H H' E. rewrite <- !app_assoc in E. apply cut_first in E; auto. Qed.
Lemma cutB a a' b b' r r' : oneLineT a -> oneLineT a' -> (a ++ NL :: b) ++ r = (a' ++ NL :: b') ++ r' -> a = a' /\ b ++ r = b' ++ r'.
Proof. intros H H' E. rewrite <- !app_assoc in E. apply cut_first in E; auto. Qed.
Lemma leaf_rule sp d x n d' y : leafLine sp d ++ x <> ruleLine sp n d' ++ y.
Proof.
  intros HE. unfold leafLine, ruleLine in HE.
  assert (H2 : tx "  " ++ sp ++ (tx "PREDICT    " ++ fmt3 (t_value d) ++ tx " with " ++ listText (map decZ (samplesOf d)) ++ tx " Samples") ++ x =
    sp ++ "F"%char :: (tx "eature " ++ n ++ tx " < " ++ fmt3 (t_thr d')) ++ y).
  { rewrite <- app_assoc in HE. rewrite <- (app_assoc sp) in HE. rewrite HE. rewrite <- app_assoc. reflexivity. }
  eapply two_spaces; exact H2.
Qed.
Lemma leaf_inj sp d d' : leafLine sp d = leafLine sp d' -> same3 (t_value d) (t_value d') /\ samplesOf d = samplesOf d'.
Proof.
  intros HE. unfold leafLine in HE. do 3 apply app_inv_head in HE.
  change (fmt3 (t_value d) ++ " "%char :: (tx "with " ++ listText (map decZ (samplesOf d)) ++ tx " Samples") =
    fmt3 (t_value d') ++ " "%char :: (tx "with " ++ listText (map decZ (samplesOf d')) ++ tx " Samples")) in HE.
  apply cut_first in HE as [HV HE]; [|apply fmt3_no; reflexivity|apply fmt3_no; reflexivity].
  split; [apply fmt3_inj; auto|]. apply app_inv_head, app_inv_tail in HE. apply list_inj; auto.
Qed.
Lemma rule_inj sp n n' d d' : ruleLine sp n d = ruleLine sp n' d' -> n = n' /\ same3 (t_thr d) (t_thr d').
Proof.
  intros HE. unfold ruleLine in HE. do 2 apply app_inv_head in HE.
  change (n ++ tx " <" ++ " "%char :: fmt3 (t_thr d) = n' ++ tx " <" ++ " "%char :: fmt3 (t_thr d')) in HE.
  rewrite (app_assoc n), (app_assoc n') in HE. apply cut_last in HE as [H1 H2]; [|apply fmt3_no; reflexivity|apply fmt3_no; reflexivity].
  apply app_inv_tail in H1. split; [auto|apply fmt3_inj; auto].
Qed.

Lemma print_inj names names' : namesOneLine names -> namesOneLine names' -> forall t t' sp s s' r r' p p', oneLineT sp ->
  PrintTree names sp t = Ok s -> PrintTree names' sp t' = Ok s' -> s ++ r = s' ++ r' -> shows names t p -> shows names' t' p' -> samePrinted p p' /\ r = r'.
Proof.
  intros HN HN'. induction t as [|d l IHl r0 IHr]; intros t' sp s s' r r' p p' Hsp HP HP' HE HS HS'; [discriminate HP|].
  destruct t' as [|d' l' r0']; [discriminate HP'|].
  destruct (t_leaf d) eqn:EL, (t_leaf d') eqn:EL'.
  - rewrite (print_leaf names sp d l r0 EL) in HP. rewrite (print_leaf names' sp d' l' r0' EL') in HP'. apply Ok_inj in HP, HP'. subst s s'.
    apply cutA in HE as [HE ->]; [|apply leaf_oneLine; auto|apply leaf_oneLine; auto].
    inversion HS; subst; [|congruence]. inversion HS'; subst; [|congruence]. cbn [samePrinted]. split; [|reflexivity]. apply leaf_inj in HE. exact HE.
  - exfalso. rewrite (print_leaf names sp d l r0 EL) in HP. apply Ok_inj in HP. subst s. apply print_node in HP' as (n & sl & sr & _ & _ & _ & ->); auto.
    rewrite <- (app_assoc (leafLine sp d)), <- (app_assoc (ruleLine sp n d')) in HE. eapply leaf_rule; exact HE.
  - exfalso. rewrite (print_leaf names' sp d' l' r0' EL') in HP'. apply Ok_inj in HP'. subst s'. apply print_node in HP as (n & sl & sr & _ & _ & _ & ->); auto.
    rewrite <- (app_assoc (leafLine sp d')), <- (app_assoc (ruleLine sp n d)) in HE. symmetry in HE. eapply leaf_rule; exact HE.
  - apply print_node in HP as (n & sl & sr & Hn & Hl & Hr & ->); auto. apply print_node in HP' as (n' & sl' & sr' & Hn' & Hl' & Hr' & ->); auto.
    pose proof (noNL_name _ _ _ HN Hn) as On. pose proof (noNL_name _ _ _ HN' Hn') as On'.
    inversion HS as [|? ? ? m pl pr ? Hm Spl Spr]; subst; [congruence|]. inversion HS' as [|? ? ? m' pl' pr' ? Hm' Spl' Spr']; subst; [congruence|].
    apply feature_shown in Hn, Hm, Hn', Hm'. assert (m = n) by congruence. assert (m' = n') by congruence. subst m m'.
    assert (Hsp2 : oneLineT (sp ++ tx "  ")) by (apply noNL_app; [auto|apply noNL_tx; reflexivity]).
    assert (HspT : oneLineT (sp ++ tx "---> True")) by (apply noNL_app; [auto|apply noNL_tx; reflexivity]).
    assert (HspF : oneLineT (sp ++ tx "---> False")) by (apply noNL_app; [auto|apply noNL_tx; reflexivity]).
    apply cutB in HE as [HR HE]; [|apply rule_oneLine; auto|apply rule_oneLine; auto].
    apply cutB in HE as [_ HE]; [|auto|auto]. rewrite <- (app_assoc sl), <- (app_assoc sl') in HE.
    destruct (IHl _ _ _ _ _ _ _ _ Hsp2 Hl Hl' HE Spl Spl') as [Sl HE2].
    apply cutB in HE2 as [_ HE2]; [|auto|auto].
    destruct (IHr _ _ _ _ _ _ _ _ Hsp2 Hr Hr' HE2 Spr Spr') as [Sr HE3]. apply rule_inj in HR as [-> HR]. cbn [samePrinted]. auto.
Qed.

Lemma c107_faithful_lemma names names' sp t t' s p p' : namesOneLine names -> namesOneLine names' -> oneLineT sp ->
  PrintTree names sp t = Ok s -> PrintTree names' sp t' = Ok s -> shows names t p -> shows names' t' p' -> samePrinted p p'.
Proof. intros HN HN' Hsp HP HP' HS HS'. eapply (print_inj names names' HN HN' t t' sp s s [] [] p p'); eauto. Qed.

Lemma c107_lines_lemma names : namesOneLine names -> forall t sp s p, oneLineT sp -> PrintTree names sp t = Ok s -> shows names t p ->
  count_occ ascii_dec s NL = printedLines p.
Proof.
  intros HN. assert (HC : forall a, oneLineT a -> count_occ ascii_dec a NL = 0%nat) by (intros a Ha; apply count_occ_not_In; exact Ha).
  assert (HC1 : forall a b, oneLineT a -> count_occ ascii_dec (a ++ NL :: b) NL = S (count_occ ascii_dec b NL)).
  { intros a b Ha. rewrite count_occ_app, (HC a Ha), count_occ_cons_eq by reflexivity. reflexivity. }
  induction t as [|d l IHl r IHr]; intros sp s p Hsp HP HS; [discriminate HP|]. destruct (t_leaf d) eqn:EL.
  - rewrite (print_leaf names sp d l r EL) in HP. apply Ok_inj in HP. subst s. inversion HS; subst; [|congruence]. rewrite HC1 by (apply leaf_oneLine; auto). reflexivity.
  - apply print_node in HP as (n & sl & sr & Hn & Hl & Hr & ->); auto. inversion HS as [|? ? ? m pl pr ? Hm Spl Spr]; subst; [congruence|].
    assert (Hsp2 : oneLineT (sp ++ tx "  ")) by (apply noNL_app; [auto|apply noNL_tx; reflexivity]).
    assert (HspT : oneLineT (sp ++ tx "---> True")) by (apply noNL_app; [auto|apply noNL_tx; reflexivity]).
    assert (HspF : oneLineT (sp ++ tx "---> False")) by (apply noNL_app; [auto|apply noNL_tx; reflexivity]).
    rewrite HC1 by (apply rule_oneLine; auto; eapply noNL_name; eauto). rewrite HC1 by auto. rewrite count_occ_app, HC1 by auto.
    rewrite (IHl _ _ _ Hsp2 Hl Spl), (IHr _ _ _ Hsp2 Hr Spr). cbn [printedLines]. lia.
Qed.

Lemma c107_name_lemma f g n : shownName None f n -> shownName None g n -> f = g.
Proof.
  intros [_ ->] [_ H]. unfold padL in H.
  assert (HP : forall k t, ~ In " "%char t -> forall k' t', ~ In " "%char t' -> repeat " "%char k ++ t = repeat " "%char k' ++ t' -> t = t').
  { induction k as [|k IH]; intros t Ht [|k'] t' Ht' E; cbn [repeat app] in E; auto.
    - exfalso. apply Ht. rewrite E. left; auto.
    - exfalso. apply Ht'. rewrite <- E. left; auto.
    - injection E as E. eauto. }
  apply HP in H; [apply dec_inj; auto|apply dec_no; [reflexivity|discriminate]|apply dec_no; [reflexivity|discriminate]].
Qed.

(** reading the rule *)
Lemma c107_reading_lemma row t v : (forall d l r x, sub (Node d l r) t -> t_leaf d = false -> look row (t_split d) x -> fltb x (t_thr d) = fleb x (t_thr d)) ->
  readsRule row t v <-> (PredictSingle t row = Ok v).
Proof.
  induction t as [|d l IHl r IHr]; intros HT.
  - split; [intros H; inversion H|intros H; discriminate H].
  - cbn [PredictSingle]. destruct (t_leaf d) eqn:EL.
    + split; [intros H; inversion H; subst; congruence|intros H; injection H as <-; apply rr_leaf; auto].
    + assert (HL : forall d0 l0 r0 x, sub (Node d0 l0 r0) l -> t_leaf d0 = false -> look row (t_split d0) x -> fltb x (t_thr d0) = fleb x (t_thr d0)).
      { intros d0 l0 r0 x HS. apply (HT d0 l0 r0 x). apply sub_l; auto. }
      assert (HR : forall d0 l0 r0 x, sub (Node d0 l0 r0) r -> t_leaf d0 = false -> look row (t_split d0) x -> fltb x (t_thr d0) = fleb x (t_thr d0)).
      { intros d0 l0 r0 x HS. apply (HT d0 l0 r0 x). apply sub_r; auto. }
      split.
      * intros H. inversion H as [|? ? ? x ? ? Hx Hc Hl|? ? ? x ? ? Hx Hc Hr]; subst; [congruence| |];
          rewrite (HT d l r x (sub_refl _) EL Hx) in Hc; apply look_idx in Hx; rewrite Hx; cbn [bind]; rewrite Hc; [apply IHl|apply IHr]; auto.
      * intros H. binv H. rename v0 into x. apply look_idx in Hb. pose proof (HT d l r x (sub_refl _) EL Hb) as Hc.
        destruct (fleb x (t_thr d)) eqn:Ex; [eapply rr_true|eapply rr_false]; eauto; [apply IHl|apply IHr]; auto.
Qed.

(** trees from NewTree *)
Definition enoughNames (names : option (list text)) (n : nat) : Prop := match names with None => True | Some ns => (n <= length ns)%nat end.
Lemma shown_ex names f n : 0 <= f < Z.of_nat n -> enoughNames names n -> exists m, shownName names f m.
Proof.
  intros Hf He. destruct names as [ns|]; cbn [shownName enoughNames] in *; [apply look_ex; lia|]. eexists. split; [lia|reflexivity].
Qed.
Lemma grown_shows E X names n o t : grown E X n o t -> (forall row0, look X 0 row0 -> enoughNames names (length row0)) -> exists p, shows names t p.
Proof.
  intros H HN. induction H as [n o value row0 b HV HX HB HL|n o value row0 b col l r HV HX HF HL HC Hl IHl Hr IHr].
  - eexists. apply shows_leaf. unfold t_leaf. cbn [t_xgb t_best]. exact HL.
  - destruct IHl as [pl Hpl]. destruct IHr as [pr Hpr].
    apply look_idx in HX. apply foldM_split in HF as [->|HF]; [rewrite leafScore_b0 in HL; discriminate|]. apply scannedColumns_In in HF as [HF _].
    destruct (shown_ex names _ _ HF (HN _ HX)) as [m Hm]. exists (PNode m (b_thr b) pl pr). apply (shows_node names (MkT _ _ _ _ _ _ _ _)); auto.
Qed.
Lemma c107_trained_lemma E X o t names sp : NewTree E X o = Ok t -> (forall row0, look X 0 row0 -> enoughNames names (length row0)) ->
  exists s, PrintTree names sp t = Ok s.
Proof. intros H HN. apply print_shows. apply NewTree_grown in H. eapply grown_shows; eauto. Qed.

(** ** feature sets *)
Lemma featLines_ok gains : forall feat i, (exists ls, featLines (Z.of_nat i) feat gains = Ok ls) <-> (i + length feat <= length gains \/ feat = [])%nat.
Proof.
  induction feat as [|v feat IH]; intros i; cbn [featLines]; [split; [auto|intros _; eauto]|]. split.
  - intros [ls H]. binv H. binv H. left. destruct feat as [|w feat].
    + apply look_idx in Hb. destruct Hb as [_ Hb]. rewrite Nat2Z.id in Hb. assert (nth_error gains i <> None) as HH by congruence. apply nth_error_Some in HH. cbn [length]. lia.
    + replace (Z.of_nat i + 1) with (Z.of_nat (S i)) in Hb0 by lia. destruct (proj1 (IH (S i)) (ex_intro _ _ Hb0)) as [HH|HH]; [cbn [length] in *; lia|discriminate HH].
  - intros [H|H]; [|discriminate H]. cbn [length] in H. destruct (look_ex gains (Z.of_nat i)) as [g Hg]; [lia|]. apply look_idx in Hg. rewrite Hg. cbn [bind].
    replace (Z.of_nat i + 1) with (Z.of_nat (S i)) by lia. destruct (proj2 (IH (S i))) as [ls ->]; [left; lia|]. cbn [bind]. eauto.
Qed.
Lemma featLines_spec gains : forall feat i ls, featLines (Z.of_nat i) feat gains = Ok ls -> length ls = length feat /\
  forall k f, nth_error feat k = Some f -> exists g, nth_error gains (i + k) = Some g /\ nth_error ls k = Some (featLine (i + k) f g).
Proof.
  induction feat as [|v feat IH]; intros i ls H; cbn [featLines] in H.
  - injection H as <-. split; [reflexivity|]. intros [|k] f Hf; discriminate Hf.
  - binv H. binv H. apply Ok_inj in H. subst ls. replace (Z.of_nat i + 1) with (Z.of_nat (S i)) in Hb0 by lia. apply IH in Hb0 as [HL HK].
    split; [cbn [length]; congruence|]. intros [|k] f Hf.
    + injection Hf as <-. apply look_idx in Hb as [_ Hb]. rewrite Nat2Z.id in Hb. rewrite Nat.add_0_r. eexists. split; [exact Hb|]. reflexivity.
    + destruct (HK k f Hf) as (g & H1 & H2). exists g. rewrite <- Nat.add_succ_comm. auto.
Qed.
Lemma nth_error_ext_len {A} (l : list A) : forall l', length l = length l' -> (forall k v v', nth_error l k = Some v -> nth_error l' k = Some v' -> v = v') -> l = l'.
Proof.
  induction l as [|a l IH]; intros [|b l'] HL H; try discriminate; auto. f_equal; [apply (H 0%nat); reflexivity|].
  apply IH; [cbn [length] in HL; lia|]. intros k v v' H1 H2. apply (H (S k)); auto.
Qed.
Definition featHeader (xgb : bool) : text := tx "Feature Importance in descending order, for " ++ (if xgb then tx "xgboost" else tx "gradient boosting") ++ tx ":".
Lemma c108_lemma f : ((exists s, StringFeats f = Ok s) <-> (length (fe_feat f) <= length (fe_gains f))%nat) /\
  forall s, StringFeats f = Ok s -> exists ls, s = joinT (featHeader (fe_xgb f) :: ls) [NL] /\ length ls = length (fe_feat f) /\
    forall k v, nth_error (fe_feat f) k = Some v -> exists g, nth_error (fe_gains f) k = Some g /\ nth_error ls k = Some (featLine k v g).
Proof.
  split.
  - unfold StringFeats. pose proof (featLines_ok (fe_gains f) (fe_feat f) 0) as HI. cbn [Z.of_nat Nat.add] in HI. split.
    + intros [s H]. binv H. destruct (proj1 HI (ex_intro _ _ Hb)) as [HH|HH]; [exact HH|rewrite HH; simpl; lia].
    + intros H. destruct (proj2 HI (or_introl H)) as [ls ->]. cbn [bind]. eauto.
  - intros s H. unfold StringFeats in H. binv H. apply Ok_inj in H. subst s. exists v. split; [reflexivity|].
    apply (featLines_spec _ _ 0) in Hb. exact Hb.
Qed.
Lemma featLine_inj i f g i' f' g' : featLine i f g = featLine i' f' g' -> f = f' /\ same3 g g'.
Proof.
  intros H. unfold featLine in H.
  change (decZ (Z.of_nat i + 1) ++ " "%char :: tx "Feature " ++ decZ f ++ tx " with score: " ++ fmt3 g =
    decZ (Z.of_nat i' + 1) ++ " "%char :: tx "Feature " ++ decZ f' ++ tx " with score: " ++ fmt3 g') in H.
  apply cut_first in H as [_ H]; [|apply dec_no; [reflexivity|discriminate]|apply dec_no; [reflexivity|discriminate]]. apply app_inv_head in H.
  change (decZ f ++ " "%char :: tx "with score: " ++ fmt3 g = decZ f' ++ " "%char :: tx "with score: " ++ fmt3 g') in H.
  apply cut_first in H as [HF H]; [|apply dec_no; [reflexivity|discriminate]|apply dec_no; [reflexivity|discriminate]]. apply app_inv_head in H.
  split; [apply dec_inj; auto|apply fmt3_inj; auto].
Qed.
Lemma featLine_oneLine i f g : oneLineT (featLine i f g).
Proof. unfold featLine. nl; apply dec_no; try reflexivity; discriminate. Qed.
Lemma featHeader_oneLine b : oneLineT (featHeader b).
Proof. unfold featHeader. nl. destruct b; apply noNL_tx; reflexivity. Qed.
Lemma c108_faithful_lemma f f' s : StringFeats f = Ok s -> StringFeats f' = Ok s -> fe_xgb f = fe_xgb f' /\ fe_feat f = fe_feat f' /\
  forall k g g', (k < length (fe_feat f))%nat -> nth_error (fe_gains f) k = Some g -> nth_error (fe_gains f') k = Some g' -> same3 g g'.
Proof.
  intros H H'. apply c108_lemma in H as (ls & -> & HL & HK). apply c108_lemma in H' as (ls' & HE & HL' & HK').
  assert (HW : forall (fe : feats) ls, length ls = length (fe_feat fe) ->
    (forall k v, nth_error (fe_feat fe) k = Some v -> exists g, nth_error (fe_gains fe) k = Some g /\ nth_error ls k = Some (featLine k v g)) ->
    forall w, In w (featHeader (fe_xgb fe) :: ls) -> w <> [] /\ ~ In NL w).
  { intros fe l Hl Hk w [<-|Hw].
    - split; [discriminate|apply featHeader_oneLine].
    - apply In_nth_error in Hw as [k Hw]. destruct (nth_error (fe_feat fe) k) as [v|] eqn:Ev.
      + destruct (Hk k v Ev) as (g & _ & E). rewrite E in Hw. injection Hw as <-. split; [|apply featLine_oneLine].
        unfold featLine. intros HX. apply app_eq_nil in HX as [HX _]. apply decZ_nonempty in HX. exact HX.
      + exfalso. apply nth_error_None in Ev. assert (nth_error l k <> None) as HH by congruence. apply nth_error_Some in HH. lia. }
  apply join_inj in HE; [|apply HW; auto|apply HW; auto]. injection HE as HH HE. subst ls'.
  assert (HX : fe_xgb f = fe_xgb f') by (unfold featHeader in HH; destruct (fe_xgb f), (fe_xgb f'); try reflexivity; discriminate HH).
  split; [exact HX|].
  assert (HFG : forall k v v', nth_error (fe_feat f) k = Some v -> nth_error (fe_feat f') k = Some v' -> v = v' /\
     forall g g', nth_error (fe_gains f) k = Some g -> nth_error (fe_gains f') k = Some g' -> same3 g g').
  { intros k v v' Hv Hv'. destruct (HK k v Hv) as (g & G1 & G2). destruct (HK' k v' Hv') as (g' & G1' & G2'). rewrite G2 in G2'. injection G2' as G2'.
    apply featLine_inj in G2' as [-> HS]. split; [auto|]. intros g1 g1' E1 E1'. congruence. }
  split.
  - assert (HLL : length (fe_feat f) = length (fe_feat f')) by congruence. apply (nth_error_ext_len (fe_feat f) (fe_feat f') HLL). intros k v v' Hv Hv'. eapply HFG; eauto.
  - intros k g g' Hk Hg Hg'. destruct (nth_error (fe_feat f) k) as [v|] eqn:Ev; [|apply nth_error_None in Ev; lia].
    destruct (nth_error (fe_feat f') k) as [v'|] eqn:Ev'; [|apply nth_error_None in Ev'; lia]. eapply HFG; eauto.
Qed.

(** ** options *)
Ltac cutNum H := apply cut_first in H as [?HN H]; [|first [apply fmt3_no; reflexivity|apply dec_no; [reflexivity|discriminate]]|first [apply fmt3_no; reflexivity|apply dec_no; [reflexivity|discriminate]]].
Lemma c109_lemma O O' : StringOptions O = StringOptions O' -> sameOptions3 O O'.
Proof.
  unfold StringOptions, sameOptions3. destruct (o_xgb O) eqn:EX, (o_xgb O') eqn:EX'; intros H; try discriminate H.
  - apply app_inv_head in H.
    assert (HC : forall (s : string) a b a' b', ~ In " "%char a -> ~ In " "%char a' -> a ++ tx (String " " s) ++ b = a' ++ tx (String " " s) ++ b' -> a = a' /\ b = b').
    { intros s a b a' b' Ha Ha' HH. change (tx (String " " s)) with (" "%char :: tx s) in HH. cbn [app] in HH. apply cut_first in HH as [-> HH]; auto. apply app_inv_head in HH. auto. }
    assert (HD : forall z, ~ In " "%char (decZ z)) by (intros; apply dec_no; [reflexivity|discriminate]).
    assert (HF : forall x, ~ In " "%char (fmt3 x)) by (intros; apply fmt3_no; reflexivity).
    apply HC in H as [H1 H]; auto. apply HC in H as [H2 H]; auto. apply HC in H as [H3 H]; auto. apply HC in H as [H4 H]; auto. apply HC in H as [H5 H]; auto.
    apply HC in H as [H6 H]; auto. apply HC in H as [H7 H]; auto. apply HC in H as [H8 H]; auto. apply app_inv_tail in H.
    split; [auto|]. split; [apply dec_inj; auto|]. split; [apply dec_inj; auto|]. split; [apply fmt3_inj; auto|]. split; [apply fmt3_inj; auto|]. intros _.
    repeat split; apply fmt3_inj; auto.
  - apply app_inv_head in H.
    assert (HC : forall (s : string) a b a' b', ~ In " "%char a -> ~ In " "%char a' -> a ++ tx (String " " s) ++ b = a' ++ tx (String " " s) ++ b' -> a = a' /\ b = b').
    { intros s a b a' b' Ha Ha' HH. change (tx (String " " s)) with (" "%char :: tx s) in HH. cbn [app] in HH. apply cut_first in HH as [-> HH]; auto. apply app_inv_head in HH. auto. }
    assert (HD : forall z, ~ In " "%char (decZ z)) by (intros; apply dec_no; [reflexivity|discriminate]).
    assert (HF : forall x, ~ In " "%char (fmt3 x)) by (intros; apply fmt3_no; reflexivity).
    apply HC in H as [H1 H]; auto. apply HC in H as [H2 H]; auto. apply HC in H as [H3 H]; auto. apply app_inv_tail in H.
    split; [auto|]. split; [apply dec_inj; auto|]. split; [apply dec_inj; auto|]. split; [apply fmt3_inj; auto|]. split; [apply fmt3_inj; auto|]. intros HX. discriminate HX.
Qed.

(** ** matrices *)
Lemma join_snoc l : forall a x (sep : text), joinT (l ++ [a ++ x]) sep = joinT (l ++ [a]) sep ++ x.
Proof.
  induction l as [|b l IH]; intros a x sep; [reflexivity|]. cbn [app]. destruct l as [|c l].
  - cbn [app joinT]. rewrite <- !app_assoc. reflexivity.
  - change (joinT (b :: (c :: l) ++ [a ++ x]) sep) with (b ++ sep ++ joinT ((c :: l) ++ [a ++ x]) sep). rewrite IH.
    change (joinT (b :: (c :: l) ++ [a]) sep) with (b ++ sep ++ joinT ((c :: l) ++ [a]) sep). rewrite <- !app_assoc. reflexivity.
Qed.
Lemma upd_last {A} (l : list A) a b : upd (l ++ [a]) (Z.of_nat (length (l ++ [a])) - 1) b = Ok (l ++ [b]).
Proof.
  rewrite app_length. cbn [length]. replace (Z.of_nat (length l + 1) - 1) with (Z.of_nat (length l)) by lia.
  apply upd_Ok. rewrite app_length. cbn [length]. split; [lia|].
  rewrite Nat2Z.id. clear. induction l as [|c l IH]; [reflexivity|]. cbn [app length upd_nat]. rewrite <- IH. reflexivity.
Qed.
Lemma c110_lemma fv m : (d_r m = 0%nat -> PrintDenseMatrix fv m = Panic) /\
  (d_r m <> 0%nat -> PrintDenseMatrix fv m = Ok (tx "[" ++ joinT (map (fun i => listText (map fv (rowView m i))) (seq 0 (d_r m))) [NL] ++ tx "]")).
Proof.
  unfold PrintDenseMatrix. split; intros H; [rewrite H; reflexivity|]. destruct (d_r m) as [|k]; [congruence|]. clear H. cbv zeta.
  set (rows := map _ (seq 0 (S k))). assert (HR : exists r0 rest, rows = r0 :: rest) by (subst rows; cbn [seq map]; eauto). clearbody rows. destruct HR as (r0 & rest & ->).
  change (idx (r0 :: rest) 0) with (Ok r0). cbn [bind]. change (upd (r0 :: rest) 0 (tx "[" ++ r0)) with (Ok ((tx "[" ++ r0) :: rest)). cbn [bind].
  assert (HS : exists (l : list text) (a : text), (tx "[" ++ r0) :: rest = l ++ [a]).
  { destruct (exists_last (l := (tx "[" ++ r0) :: rest)) as (l & a & ->); [discriminate|]. eauto. }
  assert (HJ : joinT ((tx "[" ++ r0) :: rest) [NL] = tx "[" ++ joinT (r0 :: rest) [NL]) by (destruct rest; cbn [joinT]; rewrite <- ?app_assoc; reflexivity).
  destruct HS as (l & a & ES). rewrite !ES. rewrite ES in HJ.
  assert (HI : @idx text (l ++ [a]) (Z.of_nat (length (l ++ [a])) - 1) = Ok a).
  { apply look_idx. rewrite app_length. cbn [length]. replace (Z.of_nat (length l + 1) - 1) with (Z.of_nat (length l)) by lia. split; [lia|].
    rewrite Nat2Z.id, nth_error_app2, Nat.sub_diag by lia. reflexivity. }
  rewrite HI. cbn [bind]. rewrite upd_last. cbn [bind]. f_equal. rewrite join_snoc. etransitivity; [apply (f_equal (fun u => u ++ tx "]") HJ)|]. rewrite <- app_assoc. reflexivity.
Qed.
Lemma c109_text_lemma O : StringOptions O = (if o_xgb O then tx "xgboost " else tx "gboost ") ++ withUnits
  ([(decZ (o_rounds O), tx "r"); (decZ (o_maxdepth O), tx "md"); (fmt3 (o_lr O), tx "lr")] ++
   (if o_xgb O then [(fmt3 (o_ss O), tx "ss"); (fmt3 (o_base O), tx "bs"); (fmt3 (o_gamma O), tx "gam"); (fmt3 (o_lambda O), tx "lam")] else []) ++
   [(fmt3 (o_mcw O), tx "mcw")] ++ (if o_xgb O then [(fmt3 (o_css O), tx "css")] else [])).
Proof.
  unfold StringOptions, withUnits. destruct (o_xgb O); cbn [app map fst snd joinT]; rewrite <- !app_assoc; reflexivity.
Qed.
