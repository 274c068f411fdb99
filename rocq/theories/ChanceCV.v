(** The distribution of the folds of CrossValidationSamples (proof support for C162). *)
From Coq Require Import FinFun.
From Verif Require Import Base F64 Env Utils Tree Options Train CV SpecCV CVProofs SpecChance ChanceProofs.
Open Scope Z_scope.

(** ** permuting the values of the draws *)
Lemma words_map {A B} (f : A -> B) U n : words (map f U) n = map (map f) (words U n).
Proof.
  induction n as [|n IH]; cbn [words map]; auto. rewrite IH. generalize (words U n). intros W.
  clear IH. induction U as [|u U IHU]; cbn [map flat_map]; auto. rewrite map_app, IHU. f_equal. rewrite !map_map. reflexivity.
Qed.
Lemma flat_map_perm {A B} (f g : A -> list B) l l' : Permutation l l' -> (forall a, Permutation (f a) (g a)) -> Permutation (flat_map f l) (flat_map g l').
Proof.
  intros HP HF. transitivity (flat_map g l).
  - clear HP. induction l as [|a l IH]; cbn [flat_map]; auto. apply Permutation_app; auto.
  - clear HF f. induction HP; cbn [flat_map]; auto.
    + apply Permutation_app_head; auto.
    + rewrite !app_assoc. apply Permutation_app_tail, Permutation_app_comm.
    + etransitivity; eauto.
Qed.
Lemma words_perm {A} (U U' : list A) n : Permutation U U' -> Permutation (words U n) (words U' n).
Proof. intros H. induction n as [|n IH]; cbn [words]; auto. apply flat_map_perm; auto. intros a. apply Permutation_map. auto. Qed.
Lemma filter_perm_length {A} (P : A -> bool) l l' : Permutation l l' -> length (filter P l) = length (filter P l').
Proof. intros H. induction H; cbn [filter]; auto; [destruct (P x); cbn; auto|destruct (P x), (P y); auto|congruence]. Qed.
Lemma ways_perm {A} (U : list A) n (f : A -> A) P : Permutation (map f U) U -> ways U n P = ways U n (fun w => P (map f w)).
Proof. intros H. unfold ways. rewrite <- (filter_map_length (map f) P), <- words_map. f_equal. apply filter_perm_length, words_perm. symmetry. auto. Qed.

(** ** permuted draws give permuted folds *)
Section Perm.
Context (tot : nat) (f : Z -> Z).
Definition inR (x : Z) : Prop := 0 <= x < Z.of_nat tot.
Context (f_range : forall x, inR x -> inR (f x)) (f_inj : forall x y, inR x -> inR y -> f x = f y -> x = y).
Definition foldsIn (folds : list (list Z)) : Prop := forall x, In x (concat folds) -> inR x.

Lemma concat_mapmap (folds : list (list Z)) : concat (map (map f) folds) = map f (concat folds).
Proof. symmetry. apply concat_map. Qed.
Lemma isIn_map x folds : inR x -> foldsIn folds -> isInPrevious (f x) (map (map f) folds) = isInPrevious x folds.
Proof.
  intros Hx HF. apply eq_true_iff_eq. rewrite !isInPrevious_iff, concat_mapmap, in_map_iff. split.
  - intros (y & E & Hy). apply f_inj in E; auto. subst; auto.
  - intros H. eauto.
Qed.
Lemma foldIndex_map x folds : inR x -> foldsIn folds -> foldIndex (f x) (map (map f) folds) = foldIndex x folds.
Proof.
  intros Hx. induction folds as [|l folds IH]; intros HF; cbn [map foldIndex]; auto.
  assert (E : existsb (Z.eqb (f x)) (map f l) = existsb (Z.eqb x) l).
  { apply eq_true_iff_eq. rewrite !existsb_In, in_map_iff. split; [|eauto]. intros (y & E & Hy). apply f_inj in E; [subst; auto|apply HF; cbn [concat]; apply in_or_app; auto|auto]. }
  rewrite E, IH; [auto|]. intros y Hy. apply HF. cbn [concat]. apply in_or_app. auto.
Qed.
Lemma drawUnused_map ints : (forall i, inR (ints i)) -> forall fuel p folds, foldsIn folds ->
  drawUnused fuel (fun i => f (ints i)) p (map (map f) folds) = match drawUnused fuel ints p folds with Ok (n, p') => Ok (f n, p') | Panic => Panic | Diverge => Diverge end.
Proof.
  intros HI. induction fuel as [|fuel IH]; intros p folds HF; cbn [drawUnused]; auto. rewrite isIn_map by auto. destruct (isInPrevious (ints p) folds); auto.
Qed.
Lemma snocAt_map folds i x : snocAt (map (map f) folds) i (f x) = map (map f) (snocAt folds i x).
Proof.
  unfold snocAt. revert i. induction folds as [|l folds IH]; intros [|i]; cbn [map upd_nat nth]; auto; [rewrite map_app; auto|]. f_equal. apply IH.
Qed.
Lemma drawFolds_map ints : (forall i, inR (ints i)) -> forall plan fuel p folds, foldsIn folds -> (forall i, In i plan -> (i < length folds)%nat) ->
  drawFolds fuel (fun i => f (ints i)) plan p (map (map f) folds) = match drawFolds fuel ints plan p folds with Ok fs => Ok (map (map f) fs) | Panic => Panic | Diverge => Diverge end.
Proof.
  intros HI. induction plan as [|i plan IH]; intros fuel p folds HF HP; cbn [drawFolds]; auto. rewrite drawUnused_map by auto.
  destruct (drawUnused fuel ints p folds) as [[n p']| |] eqn:E; cbn [bind]; auto. fold (snocAt (map (map f) folds) i (f n)). fold (snocAt folds i n). rewrite snocAt_map.
  apply drawUnused_Ok in E as (_ & _ & ->). apply IH.
  - intros x Hx. apply (Permutation_in _ (snocAt_perm folds i _ (HP i (or_introl eq_refl)))) in Hx as [<-|Hx]; auto.
  - intros j Hj. rewrite snocAt_length. apply HP. right; auto.
Qed.
End Perm.

(** the fold of a row after the left-over rows have been added to the last fold *)
Lemma foldIndex_spec folds x : NoDup (concat folds) -> forall k, (k < length folds)%nat -> In x (nth k folds []) -> foldIndex x folds = k.
Proof.
  intros HN. induction folds as [|l folds IH]; intros k Hk Hx; [cbn in Hk; lia|]. cbn [foldIndex]. cbn [concat] in HN. destruct k as [|k]; cbn [nth] in Hx.
  - rewrite (proj2 (existsb_In x l) Hx). auto.
  - assert (Hc : In x (concat folds)) by (apply in_concat; exists (nth k folds []); split; [apply nth_In; cbn in Hk; lia|auto]).
    assert (E : existsb (Z.eqb x) l = false).
    { destruct (existsb (Z.eqb x) l) eqn:E; auto. apply existsb_In in E. exfalso. clear -HN Hc E. induction l as [|y l IHl]; [destruct E|]. cbn [app] in HN. apply NoDup_cons_iff in HN as [H1 H2].
      destruct E as [->|E]; [apply H1, in_or_app; auto|auto]. }
    rewrite E. f_equal. apply IH; [|cbn in Hk; lia|auto]. clear -HN. induction l; auto. cbn [app] in HN. apply NoDup_cons_iff in HN as [_ H]. auto.
Qed.
Lemma foldIndex_In x folds : In x (concat folds) -> (foldIndex x folds < length folds)%nat /\ In x (nth (foldIndex x folds) folds []).
Proof.
  induction folds as [|l folds IH]; intros H; [destruct H|]. cbn [foldIndex length]. destruct (existsb (Z.eqb x) l) eqn:E.
  - cbn [nth]. split; [lia|apply existsb_In; auto].
  - cbn [concat] in H. apply in_app_or in H as [H|H]; [apply existsb_In in H; congruence|]. destruct (IH H). cbn [nth]. split; [lia|auto].
Qed.
Lemma fill_assign tot m fs : length fs = S m -> goodPart (Z.of_nat tot) fs ->
  exists fs', fillRemaining fs (Z.of_nat tot) = Ok fs' /\ length fs' = S m /\ goodPart (Z.of_nat tot) fs' /\
    forall x, 0 <= x < Z.of_nat tot -> foldIndex x fs' = if isInPrevious x fs then foldIndex x fs else m.
Proof.
  intros HL HG. unfold fillRemaining. rewrite HL. replace (Z.of_nat (S m) - 1) with (Z.of_nat m) by lia. rewrite Nat2Z.id.
  destruct (fill_step (Z.of_nat tot) m (indices tot) fs HL HG) as (fs' & E1 & E2 & E3 & E4 & E5 & E6); [intros i Hi; apply In_indices; auto|].
  exists fs'. split; [exact E1|]. split; [auto|]. split; [auto|]. intros x Hx. apply In_indices in Hx. specialize (E4 x Hx).
  destruct (isInPrevious x fs) eqn:E.
  - apply isInPrevious_iff in E. destruct (foldIndex_In x fs E) as [K1 K2]. destruct (Nat.eq_dec (foldIndex x fs) m) as [Em|Em].
    + destruct (foldIndex_In x fs' E4) as [L1 L2]. destruct (Nat.eq_dec (foldIndex x fs') m) as [Em'|Em']; [congruence|]. exfalso. rewrite E6 in L2 by lia.
      assert (foldIndex x fs = foldIndex x fs'); [|congruence]. apply foldIndex_spec; [apply HG|lia|auto].
    + apply foldIndex_spec; [apply E3|lia|]. rewrite E6 by lia. auto.
  - destruct (foldIndex_In x fs' E4) as [L1 L2]. destruct (Nat.eq_dec (foldIndex x fs') m) as [Em'|Em']; [auto|]. exfalso. rewrite E6 in L2 by lia.
    assert (In x (concat fs)); [|apply isInPrevious_iff in H; congruence]. apply in_concat. eexists. split; [|exact L2]. apply nth_In. lia.
Qed.

(** ** the draws that are used *)
Definition noData : DataBunch unit := MkData [] [] [].
Lemma drawUnused_seen ints : forall fuel p folds n p', drawUnused fuel ints p folds = Ok (n, p') -> forall q, (p <= q < p')%nat -> In (ints q) (n :: concat folds).
Proof.
  induction fuel as [|fuel IH]; intros p folds n p' H q Hq; [discriminate H|]. cbn [drawUnused] in H. destruct (isInPrevious (ints p) folds) eqn:E.
  - destruct (Nat.eq_dec q p) as [->|Hne]; [right; apply isInPrevious_iff; auto|]. eapply IH; eauto. lia.
  - injection H as <- <-. assert (q = p) by lia. subst. left; auto.
Qed.
Lemma drawUnused_agree ints ints' : forall fuel p folds n p', drawUnused fuel ints p folds = Ok (n, p') -> (forall q, (q < p')%nat -> ints' q = ints q) ->
  drawUnused fuel ints' p folds = Ok (n, p').
Proof.
  induction fuel as [|fuel IH]; intros p folds n p' H HA; [discriminate H|]. pose proof (drawUnused_Ok _ _ _ _ _ _ H) as (_ & Hp & _). cbn [drawUnused] in *. rewrite HA by auto.
  destruct (isInPrevious (ints p) folds); [eapply IH; eauto|]. auto.
Qed.
Lemma drawFolds_prefix w ints : w <> [] -> (forall q, (q < length w)%nat -> ints q = nth q w 0) -> forall fuel fuel' plan p folds fs, (fuel <= fuel')%nat ->
  (forall i, In i plan -> (i < length folds)%nat) -> (p = 0%nat /\ concat folds = [] \/ In (hd 0 w) (concat folds)) ->
  drawFolds fuel (intsOf w) plan p folds = Ok fs -> drawFolds fuel' ints plan p folds = Ok fs.
Proof.
  intros Hw HA fuel fuel' plan. induction plan as [|i plan IH]; intros p folds fs Hf HP HI H; cbn [drawFolds] in *; auto.
  apply bind_Ok in H as ([n p'] & Hd & H). pose proof (drawUnused_Ok _ _ _ _ _ _ Hd) as (Hn & Hp & En).
  assert (HN : (p' <= length w)%nat /\ In (hd 0 w) (n :: concat folds)).
  { destruct HI as [[-> Hc]|HI].
    - destruct fuel as [|fuel]; [discriminate Hd|]. cbn [drawUnused] in Hd. destruct (isInPrevious (intsOf w 0) folds) eqn:E; [apply isInPrevious_iff in E; rewrite Hc in E; destruct E|].
      injection Hd as <- <-. destruct w as [|x w]; [congruence|]. split; [cbn; lia|left; auto].
    - split; [|right; auto]. apply Nat.nlt_ge. intros HL. apply Hn. rewrite En. unfold intsOf. rewrite nth_overflow by lia. auto. }
  destruct HN as [HL HH].
  assert (HA' : forall q, (q < p')%nat -> ints q = intsOf w q) by (intros q Hq; rewrite HA by lia; unfold intsOf; apply nth_indep; lia).
  rewrite (drawUnused_mono noData ints fuel fuel' p folds (n, p') Hf (drawUnused_agree _ _ _ _ _ _ _ Hd HA')). cbn [bind]. fold (snocAt folds i n) in *.
  apply (IH p'); auto.
  - intros j Hj. rewrite snocAt_length. apply HP. right; auto.
  - right. apply (Permutation_in _ (Permutation_sym (snocAt_perm folds i n (HP i (or_introl eq_refl))))). auto.
Qed.
Lemma drawFolds_all w tot : (forall x, 0 <= x < Z.of_nat tot -> In x w) -> validInts (Z.of_nat tot) (intsOf w) -> forall plan p folds, goodPart (Z.of_nat tot) folds ->
  (forall i, In i plan -> (i < length folds)%nat) -> (length (concat folds) + length plan <= tot)%nat -> (forall q, (q < p)%nat -> (q < length w)%nat -> In (intsOf w q) (concat folds)) ->
  exists fs, drawFolds (length w) (intsOf w) plan p folds = Ok fs.
Proof.
  intros HA HV plan. induction plan as [|i plan IH]; intros p folds HG HP HL HS; cbn [drawFolds]; [eauto|]. cbn [length] in HL.
  destruct (unused_exists noData folds tot HG ltac:(lia)) as (x & Hx & Hn). destruct (In_nth w x (hd 0 w) (HA x Hx)) as (q & Hq & Eq). change (nth q w (hd 0 w)) with (intsOf w q) in Eq.
  assert (Hpq : (p <= q)%nat). { apply Nat.nlt_ge. intros HC. apply Hn. rewrite <- Eq. apply HS; auto. }
  destruct (drawUnused_found noData (intsOf w) folds (q - p) p) as ([y p'] & Hd); [replace (p + (q - p))%nat with q by lia; rewrite Eq; auto|].
  apply (drawUnused_mono noData _ _ (length w)) in Hd; [|lia]. rewrite Hd. cbn [bind]. pose proof (drawUnused_Ok _ _ _ _ _ _ Hd) as (Hy & _ & Ey).
  assert (Hi : (i < length folds)%nat) by (apply HP; left; auto). fold (snocAt folds i y). pose proof (snocAt_perm folds i y Hi) as HPm.
  apply IH.
  - apply goodPart_snoc; auto. rewrite Ey. apply HV.
  - intros j Hj. rewrite snocAt_length. apply HP. right; auto.
  - rewrite (Permutation_length HPm). cbn [length]. lia.
  - intros k Hk Hk'. apply (Permutation_in _ (Permutation_sym HPm)). destruct (Nat.lt_ge_cases k p) as [Hkp|Hkp]; [right; apply HS; auto|]. eapply drawUnused_seen; eauto.
Qed.

Lemma nodup_l {A} (a b : list A) : NoDup (a ++ b) -> NoDup a.
Proof. induction a as [|x a IH]; intros H; [constructor|]. cbn [app] in H. apply NoDup_cons_iff in H as [H1 H2]. constructor; auto. intros HC. apply H1, in_or_app. auto. Qed.
Lemma nodup_r {A} (a b : list A) : NoDup (a ++ b) -> NoDup b.
Proof. induction a as [|x a IH]; intros H; auto. cbn [app] in H. apply NoDup_cons_iff in H as [H1 H2]. auto. Qed.

(** ** counting *)
Lemma double_count (rows : list nat) (P : nat -> list Z -> bool) (Q : list Z -> bool) s W : (forall w, In w W -> length (filter (fun r => P r w) rows) = if Q w then s else 0%nat) ->
  fold_right Z.add 0 (map (fun r => Z.of_nat (length (filter (P r) W))) rows) = Z.of_nat s * Z.of_nat (length (filter Q W)).
Proof.
  induction W as [|w W IH]; intros H.
  - cbn [filter length]. clear H. induction rows as [|r rows IHr]; cbn [map fold_right]; lia.
  - assert (E : fold_right Z.add 0 (map (fun r => Z.of_nat (length (filter (P r) (w :: W)))) rows) =
      Z.of_nat (length (filter (fun r => P r w) rows)) + fold_right Z.add 0 (map (fun r => Z.of_nat (length (filter (P r) W))) rows)).
    { clear H IH. induction rows as [|r rows IHr]; cbn [map fold_right]; [auto|]. rewrite IHr. cbn [filter]. destruct (P r w); cbn [length]; lia. }
    rewrite E, IH by (intros v Hv; apply H; right; auto). rewrite (H w (or_introl eq_refl)). cbn [filter]. destruct (Q w); cbn [length]; lia.
Qed.
Lemma sum_const {A} (g : A -> Z) c l : (forall a, In a l -> g a = c) -> fold_right Z.add 0 (map g l) = Z.of_nat (length l) * c.
Proof. induction l as [|a l IH]; intros H; cbn [map fold_right length]; [lia|]. rewrite IH, (H a (or_introl eq_refl)) by (intros b Hb; apply H; right; auto). lia. Qed.
Lemma ways_missing (U : list Z) v : NoDup U -> In v U -> forall n, ways U n (fun w => negb (existsb (Z.eqb v) w)) = (Z.of_nat (length U) - 1) ^ Z.of_nat n.
Proof.
  intros HN HV. assert (H1 : length (filter (Z.eqb v) U) = 1%nat).
  { clear -HN HV. induction U as [|u U IH]; [destruct HV|]. apply NoDup_cons_iff in HN as [H1 H2]. cbn [filter]. destruct (Z.eqb_spec v u) as [->|Hne].
    - cbn [length]. f_equal. assert (E : filter (Z.eqb u) U = filter (fun _ => false) U) by (apply filter_ext_in; intros a Ha; apply Z.eqb_neq; intros ->; auto). rewrite E. clear. induction U; auto.
    - destruct HV as [HV|HV]; [congruence|]. auto. }
  induction n as [|n IH]; [reflexivity|]. rewrite ways_S. rewrite (map_ext _ (fun u => if Z.eqb v u then 0 else (Z.of_nat (length U) - 1) ^ Z.of_nat n)).
  - rewrite sum_split, H1, (Nat2Z.inj_succ n), Z.pow_succ_r by lia. change (Z.of_nat 1) with 1. ring.
  - intros u. cbn [existsb]. destruct (Z.eqb v u); cbn [orb negb]; [apply ways_none|exact IH].
Qed.
Lemma ways_union (U V : list Z) n (P : Z -> list Z -> bool) Q : (forall w, length w = n -> incl w U -> Q w = true -> exists v, In v V /\ P v w = true) ->
  ways U n Q <= fold_right Z.add 0 (map (fun v => ways U n (P v)) V).
Proof.
  intros H. unfold ways. assert (HW : forall w, In w (words U n) -> Q w = true -> exists v, In v V /\ P v w = true) by (intros w Hw; apply words_all in Hw as [A1 A2]; auto). revert HW.
  generalize (words U n). intros W. induction W as [|w W IH]; intros HW.
  - cbn [filter length]. clear. induction V; cbn [map fold_right]; lia.
  - assert (E : fold_right Z.add 0 (map (fun v => Z.of_nat (length (filter (P v) (w :: W)))) V) =
      Z.of_nat (length (filter (fun v => P v w) V)) + fold_right Z.add 0 (map (fun v => Z.of_nat (length (filter (P v) W))) V)).
    { clear. induction V as [|v V IHV]; cbn [map fold_right]; [auto|]. rewrite IHV. cbn [filter]. destruct (P v w); cbn [length]; lia. }
    rewrite E. specialize (IH ltac:(intros u Hu; apply HW; right; auto)). cbn [filter]. destruct (Q w) eqn:EQ; cbn [length]; [|lia].
    destruct (HW w (or_introl eq_refl) EQ) as (v & Hv & HP). assert (In v (filter (fun v => P v w) V)) by (apply filter_In; auto).
    destruct (filter (fun v => P v w) V); [destruct H0|]. cbn [length]. lia.
Qed.

Section CVS.
Context {K : Type} (D : DataBunch K) (nfold : Z).
Let tot := length (Data D).
Let nf := @foldsUsed K D nfold.

Lemma concat_repeat_nil n : concat (repeat ([] : list Z) n) = [].
Proof. induction n; auto. Qed.
Lemma part0 n : goodPart (Z.of_nat tot) (repeat [] n).
Proof. unfold goodPart. rewrite concat_repeat_nil. split; [constructor|intros x []]. Qed.
Lemma used_tot : (2 <= nf)%nat -> (2 <= tot)%nat.
Proof. unfold nf, foldsUsed. fold tot. intros H. destruct (Nat.le_gt_cases 2 tot); auto. assert (tot / 2 = 0)%nat by (apply Nat.div_small; lia). lia. Qed.
(** the draws alone *)
Definition drawn (fuel : nat) (ints : nat -> Z) : res (list (list Z)) := drawFolds fuel ints (foldPlan nf (tot / nf)) 0 (repeat [] nf).
Lemma CVS_drawn fuel ints : (2 <= nf)%nat -> CrossValidationSamples fuel ints D nfold =
  (fs <- drawn fuel ints ;; fs' <- fillRemaining fs (Z.of_nat tot) ;; Ok (nf, Some (MkSampler D fs' nf 0), Nat.ltb nf (requested nfold))).
Proof.
  intros H. unfold CrossValidationSamples. fold (requested nfold). fold tot. pose proof (adjust_used D nfold (used_tot H)) as HA. fold tot nf in HA. rewrite HA. cbn [bind].
  destruct (Nat.ltb_spec nf 2); [lia|]. rewrite <- Nat2Z.inj_div, Nat2Z.id. reflexivity.
Qed.
Lemma CVS_none fuel ints : (nf < 2)%nat -> forall n s e, CrossValidationSamples fuel ints D nfold <> Ok (n, Some s, e).
Proof.
  intros H n s e HC. unfold CrossValidationSamples in HC. fold (requested nfold) in HC. fold tot in HC. destruct (Nat.le_gt_cases 2 tot) as [HT|HT].
  - pose proof (adjust_used D nfold HT) as HA. fold tot nf in HA. rewrite HA in HC. cbn [bind] in HC. destruct (Nat.ltb_spec nf 2); [discriminate HC|lia].
  - rewrite adjust_small in HC by lia. discriminate HC.
Qed.
Lemma drawn_good fuel ints fs : validInts (Z.of_nat tot) ints -> (2 <= nf)%nat -> drawn fuel ints = Ok fs -> goodPart (Z.of_nat tot) fs /\ length fs = nf.
Proof.
  intros HV Hn H. unfold drawn in H. apply (drawFolds_Ok _ _ (Z.of_nat tot)) in H as (G1 & G2 & _); auto.
  - rewrite repeat_length in G2. auto.
  - intros i Hi. apply plan_In in Hi. rewrite repeat_length. auto.
  - apply part0.
Qed.
Definition rowFold (fs : list (list Z)) (x : Z) : nat := if isInPrevious x fs then foldIndex x fs else (nf - 1)%nat.
Lemma CVS_assign fuel ints : validInts (Z.of_nat tot) ints -> (2 <= nf)%nat ->
  match drawn fuel ints with
  | Ok fs => exists s e, CrossValidationSamples fuel ints D nfold = Ok (nf, Some s, e) /\ assignment tot (sp_folds s) = map (rowFold fs) (iota tot)
  | _ => forall n s e, CrossValidationSamples fuel ints D nfold <> Ok (n, Some s, e)
  end.
Proof.
  intros HV Hn. rewrite CVS_drawn by auto. destruct (drawn fuel ints) as [fs| |] eqn:E; [|intros ? ? ? H; discriminate H|intros ? ? ? H; discriminate H]. cbn [bind].
  destruct (drawn_good _ _ _ HV Hn E) as [HG HL]. destruct (fill_assign tot (nf - 1) fs) as (fs' & E1 & E2 & E3 & E4); [lia|auto|].
  rewrite E1. cbn [bind]. eexists _, _. split; [reflexivity|]. cbn [sp_folds]. unfold assignment, rowFold. apply map_ext_in. intros x Hx. apply E4. apply In_indices. exact Hx.
Qed.
Lemma intsOf_range w : w <> [] -> incl w (iota tot) -> validInts (Z.of_nat tot) (intsOf w).
Proof.
  intros Hw HI i. apply In_indices. change (indices tot) with (iota tot). apply HI. unfold intsOf. destruct w as [|x w]; [congruence|]. destruct (nth_in_or_default i (x :: w) (hd 0 (x :: w))) as [H|H]; [auto|].
  rewrite H. left; auto.
Qed.
Lemma assignOf_drawn w : w <> [] -> incl w (iota tot) -> (2 <= nf)%nat ->
  assignOf D nfold w = match drawn (length w) (intsOf w) with Ok fs => Some (map (rowFold fs) (iota tot)) | _ => None end.
Proof.
  intros Hw HI Hn. pose proof (CVS_assign (length w) (intsOf w) (intsOf_range w Hw HI) Hn) as H. unfold assignOf. fold tot. destruct (drawn (length w) (intsOf w)) as [fs| |].
  - destruct H as (s & e & H1 & H2). rewrite H1, H2. auto.
  - destruct (CrossValidationSamples (length w) (intsOf w) D nfold) as [[[n [s|]] e]| |]; auto. exfalso. eapply H. reflexivity.
  - destruct (CrossValidationSamples (length w) (intsOf w) D nfold) as [[[n [s|]] e]| |]; auto. exfalso. eapply H. reflexivity.
Qed.
Lemma assignOf_none w : (nf < 2)%nat -> assignOf D nfold w = None.
Proof. intros Hn. unfold assignOf. pose proof (CVS_none (length w) (intsOf w) Hn) as H. destruct (CrossValidationSamples (length w) (intsOf w) D nfold) as [[[n [s|]] e]| |]; auto. exfalso. eapply H. reflexivity. Qed.
Lemma drawn_nil ints : (2 <= nf)%nat -> drawn 0 ints = Diverge.
Proof.
  intros Hn. pose proof (used_tot Hn) as HT. unfold drawn. destruct (foldPlan nf (tot / nf)) eqn:E; [|reflexivity]. exfalso. apply (f_equal (@length nat)) in E. rewrite plan_length in E. cbn in E.
  pose proof (used_min tot nfold HT) as HU. change (Nat.min (requested nfold) (tot / 2))%nat with nf in HU. specialize (HU Hn). nia.
Qed.
Lemma assignOf_nil : assignOf D nfold [] = None.
Proof.
  destruct (Nat.lt_ge_cases nf 2) as [Hn|Hn]; [apply assignOf_none; auto|]. unfold assignOf. rewrite CVS_drawn, drawn_nil by auto. auto.
Qed.

(** a permutation of the rows acts on the assignments *)
Section Act.
Context (f : Z -> Z) (f_range : forall x, inR tot x -> inR tot (f x)) (f_inj : forall x y, inR tot x -> inR tot y -> f x = f y -> x = y).
Lemma iota_in x : In x (iota tot) <-> inR tot x.
Proof. apply In_indices. Qed.
Lemma act w : incl w (iota tot) -> match assignOf D nfold w with
  | Some a => exists a', assignOf D nfold (map f w) = Some a' /\ length a = tot /\ length a' = tot /\
      forall x, inR tot x -> nth_error a' (Z.to_nat (f x)) = nth_error a (Z.to_nat x)
  | None => assignOf D nfold (map f w) = None end.
Proof.
  intros HI. destruct (Nat.lt_ge_cases nf 2) as [Hn|Hn]; [rewrite !assignOf_none by auto; auto|].
  destruct w as [|w0 w]; [rewrite assignOf_nil; apply assignOf_nil|]. set (W := w0 :: w) in *.
  assert (Hne : W <> []) by discriminate. assert (Hne' : map f W <> []) by discriminate.
  assert (HI' : incl (map f W) (iota tot)). { intros y Hy. apply in_map_iff in Hy as (x & <- & Hx). apply iota_in, f_range, iota_in, HI; auto. }
  rewrite !assignOf_drawn by auto. rewrite map_length.
  pose proof (intsOf_range W Hne HI) as HV.
  assert (ES : drawn (length W) (intsOf (map f W)) = match drawn (length W) (intsOf W) with Ok fs => Ok (map (map f) fs) | Panic => Panic | Diverge => Diverge end).
  { unfold drawn. assert (E0 : repeat ([] : list Z) nf = map (map f) (repeat [] nf)) by (clear; generalize nf; intros n; induction n as [|n IH]; cbn [repeat map]; [auto|congruence]).
    rewrite E0 at 1. rewrite <- (drawFolds_map tot f f_inj (intsOf W)).
    - assert (EX : forall i, intsOf (map f W) i = f (intsOf W i)). { intros i. unfold intsOf. change (hd 0 (map f W)) with (f (hd 0 W)). apply map_nth. }
      clear -EX. generalize 0%nat (map (map f) (repeat [] nf)) (foldPlan nf (tot / nf)). intros p fs plan. revert p fs. induction plan as [|i plan IH]; intros p fs; cbn [drawFolds]; auto.
      assert (EU : forall fuel p, drawUnused fuel (intsOf (map f W)) p fs = drawUnused fuel (fun i => f (intsOf W i)) p fs).
      { induction fuel as [|fuel IHf]; intros q; cbn [drawUnused]; auto. rewrite EX, IHf. auto. }
      rewrite EU. destruct (drawUnused _ _ p fs) as [[n p']| |]; cbn [bind]; auto.
    - exact HV.
    - intros x Hx. rewrite concat_repeat_nil in Hx. destruct Hx.
    - intros i Hi. apply plan_In in Hi. rewrite repeat_length. auto. }
  rewrite ES. destruct (drawn (length W) (intsOf W)) as [fs| |] eqn:E; auto. destruct (drawn_good _ _ _ HV Hn E) as [HG HL].
  eexists. split; [reflexivity|]. rewrite !map_length, iota_length. split; [auto|]. split; [auto|]. intros x Hx.
  assert (HF : foldsIn tot fs) by (intros y Hy; apply HG; auto).
  pose proof (f_range x Hx) as Hfx. unfold inR in Hx, Hfx. rewrite !nth_error_map, !iota_nth by lia. cbn [option_map]. f_equal. rewrite !Z2Nat.id by lia.
  unfold rowFold. rewrite (isIn_map tot f f_inj) by auto. rewrite (foldIndex_map tot f f_inj) by auto. auto.
Qed.
Lemma act_perm : Permutation (map f (iota tot)) (iota tot).
Proof.
  apply NoDup_Permutation_bis.
  - assert (H : forall l, incl l (iota tot) -> NoDup l -> NoDup (map f l)).
    { induction l as [|x l IH]; intros HI HN; cbn [map]; [constructor|]. apply NoDup_cons_iff in HN as [H1 H2]. constructor.
      - intros HC. apply in_map_iff in HC as (y & Ey & Hy). apply f_inj in Ey; [subst; auto|apply iota_in, HI; right; auto|apply iota_in, HI; left; auto].
      - apply IH; auto. intros y Hy. apply HI. right; auto. }
    apply H; [apply incl_refl|apply NoDup_indices].
  - rewrite map_length. auto.
  - intros y Hy. apply in_map_iff in Hy as (x & <- & Hx). apply iota_in, f_range, iota_in. auto.
Qed.
End Act.

Lemma uniform_lemma N a a' : Permutation a a' -> ways (iota tot) N (assigns D nfold a) = ways (iota tot) N (assigns D nfold a').
Proof.
  intros HP. assert (HLen : length a = length a') by (apply Permutation_length; auto).
  assert (Hbad : forall b, length b <> tot -> ways (iota tot) N (assigns D nfold b) = 0).
  { intros b Hb. rewrite <- (ways_none (iota tot) N). apply ways_ext. intros w Hw HI. unfold assigns. pose proof (act (fun x => x) ltac:(auto) ltac:(auto) w HI) as HA.
    destruct (assignOf D nfold w) as [c|]; auto. destruct HA as (_ & _ & HA & _). destruct (list_eq_dec Nat.eq_dec c b); auto. congruence. }
  destruct (Nat.eq_dec (length a) tot) as [HT|HT]; [|rewrite !Hbad by congruence; auto].
  destruct (proj1 (Permutation_nth a a' 0%nat) HP) as (_ & g & G1 & G2 & G3). rewrite HT in *.
  (* nth x a' = nth (g x) a, so words for a' are taken to words for a by g *)
  pose (f := fun x : Z => Z.of_nat (g (Z.to_nat x))).
  assert (f_range : forall x, inR tot x -> inR tot (f x)). { intros x Hx. unfold inR, f in *. pose proof (G1 (Z.to_nat x) ltac:(lia)). lia. }
  assert (f_inj : forall x y, inR tot x -> inR tot y -> f x = f y -> x = y). { intros x y Hx Hy E. unfold inR, f in *. assert (Z.to_nat x = Z.to_nat y); [|lia]. apply G2; lia. }
  rewrite (ways_perm (iota tot) N f (assigns D nfold a) (act_perm f f_range f_inj)). apply ways_ext. intros w Hw HI. unfold assigns.
  pose proof (act f f_range f_inj w HI) as HA. destruct (assignOf D nfold w) as [c|]; [|rewrite HA; auto]. destruct HA as (c' & -> & L1 & L2 & HN).
  destruct (list_eq_dec Nat.eq_dec c' a) as [e|ne], (list_eq_dec Nat.eq_dec c a') as [e'|ne']; auto; exfalso.
  - apply ne'. subst c'. apply (nth_ext _ _ 0%nat 0%nat); [lia|]. intros x Hx. assert (Hr : inR tot (Z.of_nat x)) by (unfold inR; lia).
    pose proof (HN _ Hr) as H. unfold f in H. rewrite !Nat2Z.id in H. rewrite (G3 x ltac:(lia)). symmetry.
    erewrite (nth_error_nth c x 0%nat) by (rewrite <- H; apply nth_error_nth'; rewrite HT; apply G1; lia). auto.
  - apply ne. subst c. apply (nth_ext _ _ 0%nat 0%nat); [lia|]. intros y Hy.
    assert (HS : exists x, (x < tot)%nat /\ g x = y).
    { assert (HQ : bSurjective tot g) by (apply bInjective_bSurjective; auto). destruct (HQ y ltac:(lia)) as (x & X1 & X2). eauto. }
    destruct HS as (x & Hx & <-). assert (Hr : inR tot (Z.of_nat x)) by (unfold inR; lia).
    pose proof (HN _ Hr) as H. unfold f in H. rewrite !Nat2Z.id in H. rewrite <- (G3 x ltac:(lia)). apply nth_error_nth. rewrite H. apply nth_error_nth'. lia.
Qed.
(** ** sizes, shares, and enough draws *)
Lemma sizes_lemma w a : incl w (iota tot) -> assignOf D nfold w = Some a -> length a = tot /\ forall i, count_occ Nat.eq_dec a i = foldSize tot nf i.
Proof.
  intros HI H. destruct w as [|w0 w]; [rewrite assignOf_nil in H; discriminate H|]. pose proof (intsOf_range (w0 :: w) ltac:(discriminate) HI) as HV.
  unfold assignOf in H. fold tot in H. destruct (CrossValidationSamples (length (w0 :: w)) (intsOf (w0 :: w)) D nfold) as [[[n [s|]] e]| |] eqn:E; try discriminate H. injection H as <-.
  apply (CVS_inv D) in E as (HT & [(_ & _ & E & _)|(Hn & E1 & _ & s' & E2 & _ & _ & _ & HG)]); [discriminate E| |exact HV]. injection E2 as <-. change (foldsUsed D nfold) with nf in Hn, E1. change (length (Data D)) with tot in HG. subst n. destruct HG as (G1 & G2 & G3 & G4).
  unfold assignment. split; [rewrite map_length, iota_length; auto|]. intros i.
  assert (HND : NoDup (concat (sp_folds s))) by (eapply Permutation_NoDup; [symmetry; exact G2|apply NoDup_indices]).
  assert (EC : count_occ Nat.eq_dec (map (fun r => foldIndex r (sp_folds s)) (iota tot)) i = length (filter (fun r => Nat.eqb (foldIndex r (sp_folds s)) i) (iota tot))).
  { clear. induction (iota tot) as [|x l IHl]; cbn [map count_occ filter]; auto. destruct (Nat.eq_dec (foldIndex x (sp_folds s)) i) as [Ei|Ei].
    - rewrite (proj2 (Nat.eqb_eq _ _) Ei). cbn [length]. f_equal. exact IHl.
    - rewrite (proj2 (Nat.eqb_neq _ _) Ei). exact IHl. }
  rewrite EC. assert (EP : length (filter (fun r => Nat.eqb (foldIndex r (sp_folds s)) i) (iota tot)) = if (i <? nf)%nat then length (nth i (sp_folds s) []) else 0%nat).
  { destruct (Nat.ltb_spec i nf) as [Hi|Hi].
    - apply Permutation_length, NoDup_Permutation.
      + apply NoDup_filter, NoDup_indices.
      + clear -HND. revert i. induction (sp_folds s) as [|l fs IH]; intros i; [destruct i; constructor|]. cbn [concat] in HND.
        destruct i as [|i]; cbn [nth]; [apply nodup_l in HND; auto|apply IH; apply nodup_r in HND; auto].
      + intros x. rewrite filter_In, Nat.eqb_eq. split.
        * intros [Hx Ex]. assert (HC : In x (concat (sp_folds s))) by (apply (Permutation_in _ (Permutation_sym G2)); auto). destruct (foldIndex_In x _ HC) as [_ HH]. rewrite Ex in HH. auto.
        * intros Hx. assert (HC : In x (concat (sp_folds s))) by (apply in_concat; eexists; split; [|exact Hx]; apply nth_In; lia). split; [apply (Permutation_in _ G2); auto|].
          apply foldIndex_spec; auto. lia.
    - destruct (filter _ (iota tot)) as [|x l] eqn:EF; auto. exfalso. assert (Hx : In x (x :: l)) by (left; auto). rewrite <- EF in Hx. apply filter_In in Hx as [Hx Ex]. apply Nat.eqb_eq in Ex.
      assert (HC : In x (concat (sp_folds s))) by (apply (Permutation_in _ (Permutation_sym G2)); auto). destruct (foldIndex_In x _ HC) as [HH _]. lia. }
  rewrite EP. unfold foldSize. destruct (Nat.ltb_spec i nf) as [Hi|Hi].
  - destruct (Nat.ltb_spec i (nf - 1)) as [Hl|Hl].
    + apply (G3 i); auto. apply nth_error_nth'. lia.
    + destruct (Nat.eqb_spec i (nf - 1)); [|lia]. subst i. apply G4. apply nth_error_nth'. lia.
  - destruct (Nat.ltb_spec i (nf - 1)); [lia|]. destruct (Nat.eqb_spec i (nf - 1)); [lia|auto].
Qed.
Lemma alike_lemma N r r' i : (r < tot)%nat -> (r' < tot)%nat -> ways (iota tot) N (putsIn D nfold r i) = ways (iota tot) N (putsIn D nfold r' i).
Proof.
  intros Hr Hr'. pose (f := fun x : Z => if Z.eqb x (Z.of_nat r) then Z.of_nat r' else if Z.eqb x (Z.of_nat r') then Z.of_nat r else x).
  assert (f_range : forall x, inR tot x -> inR tot (f x)). { intros x Hx. unfold inR, f in *. destruct (Z.eqb_spec x (Z.of_nat r)), (Z.eqb_spec x (Z.of_nat r')); lia. }
  assert (f_inj : forall x y, inR tot x -> inR tot y -> f x = f y -> x = y).
  { intros x y _ _ E. unfold f in E. destruct (Z.eqb_spec x (Z.of_nat r)), (Z.eqb_spec x (Z.of_nat r')), (Z.eqb_spec y (Z.of_nat r)), (Z.eqb_spec y (Z.of_nat r')); lia. }
  rewrite (ways_perm (iota tot) N f (putsIn D nfold r' i) (act_perm f f_range f_inj)). apply ways_ext. intros w Hw HI. unfold putsIn.
  pose proof (act f f_range f_inj w HI) as HA. destruct (assignOf D nfold w) as [c|]; [|rewrite HA; auto]. destruct HA as (c' & -> & L1 & L2 & HN).
  assert (Hx : inR tot (Z.of_nat r)) by (unfold inR; lia). specialize (HN _ Hx). unfold f in HN. rewrite Z.eqb_refl, !Nat2Z.id in HN. rewrite HN. auto.
Qed.
Lemma share_lemma N r i : (r < tot)%nat -> Z.of_nat tot * ways (iota tot) N (putsIn D nfold r i) = Z.of_nat (foldSize tot nf i) * ways (iota tot) N (enough D nfold).
Proof.
  intros Hr. unfold ways at 2. rewrite <- (double_count (seq 0 tot) (fun r w => putsIn D nfold r i w)).
  - rewrite (sum_const _ (ways (iota tot) N (putsIn D nfold r i))); [rewrite seq_length; auto|]. intros r' Hr'. apply in_seq in Hr'. apply alike_lemma; [lia|auto].
  - intros w Hw. apply words_all in Hw as [Hw HI]. unfold putsIn, enough. destruct (assignOf D nfold w) as [a|] eqn:E.
    + destruct (sizes_lemma w a HI E) as [HL HC]. rewrite <- HC, <- HL. clear. induction a as [|j a IH] using rev_ind; [reflexivity|].
      rewrite app_length, Nat.add_1_r, seq_S, filter_app, app_length, count_occ_app. cbn [filter Nat.add]. rewrite nth_error_app2, Nat.sub_diag by lia. cbn [nth_error].
      assert (EE : length (filter (fun r => match nth_error (a ++ [j]) r with Some j => Nat.eqb j i | None => false end) (seq 0 (length a))) = length (filter (fun r => match nth_error a r with Some j => Nat.eqb j i | None => false end) (seq 0 (length a)))).
      { apply filter_ext_length. intros x Hx. apply in_seq in Hx. rewrite nth_error_app1 by lia. auto. }
      rewrite EE, IH. f_equal. cbn [count_occ]. destruct (Nat.eq_dec j i) as [->|Hne]; [rewrite Nat.eqb_refl; auto|rewrite (proj2 (Nat.eqb_neq _ _) Hne); auto].
    + clear. induction (seq 0 tot); auto.
Qed.
Lemma enough_all w : (2 <= nf)%nat -> w <> [] -> incl w (iota tot) -> (forall x, In x (iota tot) -> In x w) -> enough D nfold w = true.
Proof.
  intros Hn Hw HI HA. unfold enough. rewrite assignOf_drawn by auto. unfold drawn.
  destruct (drawFolds_all w tot) with (plan := foldPlan nf (tot / nf)) (p := 0%nat) (folds := repeat ([] : list Z) nf) as [fs ->]; auto.
  - intros x Hx. apply HA, iota_in. auto.
  - apply intsOf_range; auto.
  - apply part0.
  - intros i Hi. apply plan_In in Hi. rewrite repeat_length. auto.
  - rewrite concat_repeat_nil, plan_length. cbn [length Nat.add]. apply Nat.mul_div_le. lia.
  - intros q Hq. lia.
Qed.
Lemma finish_lemma N : (2 <= nf)%nat -> ways (iota tot) N (fun w => negb (enough D nfold w)) <= Z.of_nat tot * (Z.of_nat tot - 1) ^ Z.of_nat N.
Proof.
  intros Hn. pose proof (used_tot Hn) as HT.
  assert (E : fold_right Z.add 0 (map (fun v => ways (iota tot) N (fun w => negb (existsb (Z.eqb v) w))) (iota tot)) = Z.of_nat tot * (Z.of_nat tot - 1) ^ Z.of_nat N).
  { rewrite (sum_const _ ((Z.of_nat tot - 1) ^ Z.of_nat N)); [rewrite iota_length; auto|]. intros v Hv. rewrite ways_missing; [rewrite iota_length; auto|apply NoDup_indices|auto]. }
  rewrite <- E. apply ways_union. intros w Hw HI HQ. apply negb_true_iff in HQ.
  destruct w as [|w0 w].
  - exists 0. split; [apply iota_in; unfold inR; lia|reflexivity].
  - destruct (List.Exists_dec (fun v => ~ In v (w0 :: w)) (iota tot)) as [H|H].
    + intros v. destruct (in_dec Z.eq_dec v (w0 :: w)); [right|left]; auto.
    + apply Exists_exists in H as (v & Hv & Hn'). exists v. split; [auto|]. apply negb_true_iff. destruct (existsb (Z.eqb v) (w0 :: w)) eqn:Ev; auto. apply existsb_In in Ev. tauto.
    + exfalso. rewrite enough_all in HQ; [discriminate HQ|auto|discriminate|auto|]. intros x Hx. destruct (in_dec Z.eq_dec x (w0 :: w)); auto. exfalso. apply H, Exists_exists. eauto.
Qed.
Lemma prefix_lemma w a ints fuel : incl w (iota tot) -> assignOf D nfold w = Some a -> validInts (Z.of_nat tot) ints -> (forall q, (q < length w)%nat -> ints q = nth q w 0) -> (length w <= fuel)%nat ->
  exists n s e, CrossValidationSamples fuel ints D nfold = Ok (n, Some s, e) /\ assignment tot (sp_folds s) = a.
Proof.
  intros HI H HV HA Hf. destruct (Nat.lt_ge_cases nf 2) as [Hn|Hn]; [rewrite assignOf_none in H by auto; discriminate H|].
  destruct w as [|w0 w]; [rewrite assignOf_nil in H; discriminate H|]. rewrite assignOf_drawn in H by (auto; discriminate).
  destruct (drawn (length (w0 :: w)) (intsOf (w0 :: w))) as [fs| |] eqn:E; try discriminate H. injection H as <-.
  assert (E' : drawn fuel ints = Ok fs).
  { unfold drawn in *. eapply (drawFolds_prefix (w0 :: w) ints); [discriminate|exact HA|exact Hf| |left; split; [auto|apply concat_repeat_nil]|exact E]. intros i Hi. apply plan_In in Hi. rewrite repeat_length. auto. }
  pose proof (CVS_assign fuel ints HV Hn) as HC. rewrite E' in HC. destruct HC as (s & e & H1 & H2). eauto.
Qed.
End CVS.
