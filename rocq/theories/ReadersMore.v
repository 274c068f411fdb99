(** The round trip through the LibSVM text, the CSV records and text, the name files. *)
From Coq Require Import Ascii String Reals.
From Flocq Require Import Core IEEE754.BinarySingleNaN.
From Verif Require Import Base F64 Env F64Lemmas Utils Text Confu Readers SpecReaders ReadersProofs ReadersNum.
From Coq Require Import List.
Open Scope Z_scope.

(** ** Words of joined parts *)
Definition safeChar (c : ascii) : bool := (33 <=? byteOf c) && (byteOf c <? 128).
Lemma white_unsafe w : In w whiteSpaces -> exists c t, w = c :: t /\ safeChar c = false.
Proof. cbv [whiteSpaces map app In]. intros H. repeat destruct H as [<-|H]; [do 2 eexists; split; reflexivity..|destruct H]. Qed.
Lemma solid_app a k : (forall c, In c a -> safeChar c = true) -> solid k -> solid (a ++ k).
Proof.
  induction a as [|c a IH]; intros Ha Hk; [exact Hk|]. intros x w b Hw H. destruct x as [|y x].
  - destruct (white_unsafe w Hw) as (d & t & -> & Hd). injection H as -> _. rewrite (Ha d) in Hd by (left; auto). discriminate.
  - injection H as _ H. apply (IH (fun d Hd => Ha d (or_intror Hd)) Hk x w b Hw H).
Qed.
Lemma solid_nil : solid [].
Proof. intros a w b Hw H. destruct (white_len w Hw) as (x & y & ->). destruct a; discriminate H. Qed.
Lemma solid_safe t : (forall c, In c t -> safeChar c = true) -> solid t.
Proof. intros H. rewrite <- (app_nil_r t). apply solid_app; auto. apply solid_nil. Qed.
Lemma solid_line t : solid t -> oneLine t.
Proof. intros H Hin. apply in_split in Hin as (a & b & ->). exact (H a [NL] b white_NL eq_refl). Qed.
Lemma plain_safe c : plainChar c = true -> safeChar c = true.
Proof.
  unfold plainChar, safeChar. rewrite !orb_true_iff. intros [[H|H]|H].
  - apply digit_byte in H. lia.
  - apply Ascii.eqb_eq in H as ->. reflexivity.
  - apply Ascii.eqb_eq in H as ->. reflexivity.
Qed.
Lemma plain_colon t : (forall c, In c t -> plainChar c = true) -> ~ In ":"%char t.
Proof. intros H Hin. apply H in Hin. discriminate Hin. Qed.
Lemma words_blank b t fs : blank b -> wordsOf t fs -> wordsOf (b ++ t) fs.
Proof. induction 1; auto. intros Hw. rewrite <- app_assoc. apply words_white; auto. Qed.
Lemma startsBlank_app a b : startsBlank a -> startsBlank b -> startsBlank (a ++ b).
Proof. intros [->|(w & x & Hw & ->)] Hb; auto. right. exists w, (x ++ b). rewrite app_assoc. auto. Qed.
Lemma words_app a x b y : wordsOf a x -> startsBlank b -> wordsOf b y -> wordsOf (a ++ b) (x ++ y).
Proof.
  intros Ha Hb Hy. induction Ha as [c Hc|c f rest fs Hc Hf Hs Hr Hw IH]; [apply words_blank; auto|].
  rewrite <- !app_assoc. cbn [app]. constructor; auto. apply startsBlank_app; auto.
Qed.
Lemma white_sp : In [" "%char] whiteSpaces.
Proof. cbv [whiteSpaces map app In]. do 5 right. left. reflexivity. Qed.
Lemma words_solid f : f <> [] -> solid f -> wordsOf f [f].
Proof. intros H Hs. pose proof (words_cons [] f [] [] blank_nil H Hs (or_introl eq_refl) (words_nil [] blank_nil)) as HW. simpl in HW. rewrite app_nil_r in HW. exact HW. Qed.
Lemma words_join ps qss : Forall2 wordsOf ps qss -> wordsOf (joinT ps sp) (concat qss).
Proof.
  induction 1 as [|p qs ps qss Hp HF IH]; [constructor; constructor|]. destruct ps as [|p2 ps].
  - inversion HF; subst. simpl. rewrite app_nil_r. exact Hp.
  - rewrite join_cons. cbn [concat]. apply words_app; auto.
    + right. exists [" "%char], (joinT (p2 :: ps) sp). split; [apply white_sp|auto].
    + apply (words_white [" "%char]); [apply white_sp|exact IH].
Qed.
Lemma blank_spaces k : blank (repeat " "%char k).
Proof. induction k; [constructor|]. apply (blank_cons [" "%char]); [apply white_sp|auto]. Qed.
Lemma words_pad w f : f <> [] -> solid f -> wordsOf (padL w f) [f].
Proof. intros H Hs. unfold padL. apply words_blank; [apply blank_spaces|apply words_solid; auto]. Qed.
Lemma words_dec z : wordsOf (padL 3 (decZ z)) [decZ z].
Proof. apply words_pad; [apply decZ_nonempty|]. apply solid_safe. intros c Hc. apply plain_safe. eapply dec_plain; eauto. Qed.
Lemma join_no c ps : (forall p, In p ps -> ~ In c p) -> c <> " "%char -> ~ In c (joinT ps sp).
Proof.
  intros H Hc. induction ps as [|p ps IH]; [simpl; tauto|]. destruct ps as [|p2 ps]; [simpl; apply H; left; auto|].
  rewrite join_cons, !in_app_iff. intros [H1|[H1|H1]].
  - apply (H p); [left; auto|exact H1].
  - destruct H1 as [H1|[]]. congruence.
  - apply IH; [|exact H1]. intros q Hq. apply H. right. exact Hq.
Qed.

(** ** The lines of LibSVM *)
Lemma label_ok (D : DataBunch text) i : (i < length (Data D))%nat -> exists lab, getithLabel D (Z.of_nat i) = Ok lab /\ nth_error (labelsOf D) i = Some lab.
Proof.
  intros Hi. unfold getithLabel, labelsOf. destruct (Nat.eqb_spec (length (Labels D)) (length (Data D))) as [HE|HE].
  - destruct (nth_error (Labels D) i) as [lab|] eqn:E; [|apply nth_error_None in E; lia]. exists lab. split; [apply idx_of_nat|]; auto.
  - exists (-1). split; [auto|]. apply nth_error_repeat. exact Hi.
Qed.
Lemma labels_len {K} (D : DataBunch K) : length (labelsOf D) = length (Data D).
Proof. unfold labelsOf. destruct (Nat.eqb_spec (length (Labels D)) (length (Data D))); [auto|apply repeat_length]. Qed.
Definition svmLine (l : nat) (lab : Z) (v : list f64) : text := joinT (padL 3 (decZ lab) :: repeat [] l ++ svmTerms 1 v) sp.
Definition zipWith {A B C} (f : A -> B -> C) (a : list A) (b : list B) : list C := map (fun p => f (fst p) (snd p)) (combine a b).
Lemma skipn_nth {A} (l : list A) i x : nth_error l i = Some x -> skipn i l = x :: skipn (S i) l.
Proof. revert l; induction i; intros [|y l] H; try discriminate; simpl in *; [congruence|]. rewrite (IHi l H). auto. Qed.
Lemma svm_lines (D : DataBunch text) l : forall rows i, skipn i (Data D) = rows ->
  svmLines D l (Z.of_nat i) rows = Ok (zipWith (svmLine l) (skipn i (labelsOf D)) rows).
Proof.
  induction rows as [|v rows IH]; intros i H; cbn [svmLines].
  - unfold zipWith. destruct (skipn i (labelsOf D)); reflexivity.
  - assert (Hi : (i < length (Data D))%nat).
    { destruct (le_lt_dec (length (Data D)) i) as [HL|HL]; auto. rewrite skipn_all2 in H by auto. discriminate H. }
    destruct (label_ok D i Hi) as (lab & -> & HN). cbn [bind]. replace (Z.of_nat i + 1) with (Z.of_nat (S i)) by lia.
    rewrite (IH (S i)).
    + cbn [bind]. rewrite (skipn_nth _ _ _ HN). reflexivity.
    + destruct (nth_error (Data D) i) as [x|] eqn:E; [|apply nth_error_None in E; lia]. rewrite (skipn_nth _ _ _ E) in H. congruence.
Qed.
Definition svmTextLines (D : DataBunch text) (r0 : list f64) : list text :=
  (if Nat.eqb (length (Keys D)) (length r0) then [joinT (tx "Labels" :: svmKeys 1 (Keys D)) sp] else []) ++
  zipWith (svmLine (length r0)) (labelsOf D) (Data D).
Lemma LibSVM_text D r0 rs : Data D = r0 :: rs -> LibSVM (Some D) = Ok (joinT (svmTextLines D r0) [NL]).
Proof.
  intros HD. unfold LibSVM. rewrite HD at 1. cbn [idx Z.ltb]. change (idx (r0 :: rs) 0) with (Ok r0). cbn [bind].
  pose proof (svm_lines D (length r0) (Data D) 0 eq_refl) as HL. cbn [Z.of_nat skipn] in HL. rewrite HL. cbn [bind]. reflexivity.
Qed.
Lemma join_unlines ls x : joinT (ls ++ [x]) [NL] = unlines ls x.
Proof.
  induction ls as [|l ls IH]; [reflexivity|]. rewrite unlines_cons, <- IH. cbn [app]. destruct ls; reflexivity.
Qed.
Lemma unlines_end ls x : unlines ls x ++ [NL] = unlines (ls ++ [x]) [].
Proof. unfold unlines. rewrite app_nil_r, map_app, concat_app. cbn [map concat]. rewrite app_nil_r, app_assoc. reflexivity. Qed.

(** a printed term *)
Definition termText (j : Z) (x : f64) : text := decZ j ++ tx ":" ++ fmtF x.
Lemma terms_map j v : svmTerms j v = zipWith termText (map (fun k => j + Z.of_nat k) (seq 0 (length v))) v.
Proof.
  revert j; induction v as [|x v IH]; intros j; [reflexivity|]. cbn [svmTerms length seq map]. unfold zipWith in *. cbn [combine map fst snd].
  rewrite IH. change (Z.of_nat 0) with 0. rewrite Z.add_0_r, <- seq_shift, map_map. change (decZ j ++ tx ":" ++ fmtF x) with (termText j x).
  rewrite (map_ext (fun k : nat => j + 1 + Z.of_nat k) (fun k : nat => j + Z.of_nat (S k))) by (intros; lia). reflexivity.
Qed.
Lemma dec_safe j c : In c (decZ j ++ tx ":") -> safeChar c = true.
Proof. rewrite in_app_iff. intros [H|[<-|[]]]; [apply plain_safe; eapply dec_plain; eauto|reflexivity]. Qed.
Lemma term_finite j x : is_finite x = true -> wordsOf (termText j x) [termText j x] /\ term (termText j x) (fmtF x).
Proof.
  intros Hf. split.
  - apply words_solid; [unfold termText; pose proof (decZ_nonempty j); destruct (decZ j); [congruence|discriminate]|].
    unfold termText. rewrite app_assoc. apply solid_app; [apply dec_safe|]. apply solid_safe. intros c Hc. rewrite (fmt_finite x Hf) in Hc.
    apply plain_safe. eapply fixed_plain; eauto.
  - exists (decZ j). split; [reflexivity|]. split; apply plain_colon; intros c Hc; [eapply dec_plain; eauto|].
    rewrite (fmt_finite x Hf) in Hc. eapply fixed_plain; eauto.
Qed.
Lemma term_special j x : is_finite x = false -> exists v, wordsOf (termText j x) [decZ j ++ tx ":"; v].
Proof.
  intros Hf. destruct (fmt_special x Hf) as (v & k & HE & Hv). exists v. unfold termText. rewrite HE, app_assoc.
  apply (words_app _ [decZ j ++ tx ":"] _ [v]).
  - apply words_solid; [destruct (decZ j); discriminate|]. apply solid_safe. apply dec_safe.
  - right. exists [" "%char], (repeat " "%char k ++ v). split; [apply white_sp|reflexivity].
  - apply words_blank; [apply blank_spaces|]. apply words_solid.
    + destruct Hv as [<-|[<-|[<-|[]]]]; discriminate.
    + apply solid_safe. intros c. destruct Hv as [<-|[<-|[<-|[]]]]; simpl; intros Hc; repeat destruct Hc as [<-|Hc]; try reflexivity; destruct Hc.
Qed.
(** the words of a printed row *)
Lemma line_words l lab v : exists tss, Forall2 wordsOf (svmTerms 1 v) tss /\ wordsOf (svmLine l lab v) (decZ lab :: concat tss).
Proof.
  assert (HT : forall j, exists tss, Forall2 wordsOf (svmTerms j v) tss).
  { induction v as [|x v IH]; intros j; [exists []; constructor|]. destruct (IH (j + 1)) as (tss & HF).
    destruct (words_exist (length (termText j x)) (termText j x) (Nat.le_refl _)) as (fs & Hfs). exists (fs :: tss). constructor; auto. }
  destruct (HT 1) as (tss & HF). exists tss. split; [auto|]. unfold svmLine.
  change (decZ lab :: concat tss) with ([decZ lab] ++ concat tss). replace (concat tss) with (concat (repeat [] l ++ tss)).
  - apply (words_join _ ([decZ lab] :: repeat [] l ++ tss)). constructor; [apply words_dec|]. apply Forall2_app; [|exact HF].
    clear. induction l; constructor; auto. constructor; constructor.
  - rewrite concat_app. replace (concat (repeat [] l)) with (@nil text); [reflexivity|]. clear. induction l; auto.
Qed.
Lemma Forall2_fun {A B} (P : A -> B -> Prop) a b1 b2 : (forall x y z, P x y -> P x z -> y = z) -> Forall2 P a b1 -> Forall2 P a b2 -> b1 = b2.
Proof. intros HP H. revert b2; induction H; intros b2 H2; inversion H2; subst; auto. f_equal; eauto. Qed.
Lemma words_det t a b : wordsOf t a -> wordsOf t b -> a = b.
Proof. intros Ha Hb. apply words_iff in Ha, Hb. congruence. Qed.
Lemma row_finite pf l lab v : ParserOk pf -> int64 lab -> Forall (fun x => is_finite x = true) v ->
  exists v', svmRow pf (svmLine l lab v) lab v' /\ Forall2 asPrinted v v'.
Proof.
  intros HP Hl Hv. destruct (line_words l lab v) as (tss & HF & HW).
  assert (HT : forall j v, Forall (fun x => is_finite x = true) v -> exists v', Forall2 (fun f x => exists t, term f t /\ pf t = Some x) (svmTerms j v) v' /\
    Forall2 asPrinted v v' /\ Forall2 wordsOf (svmTerms j v) (map (fun t => [t]) (svmTerms j v))).
  { clear -HP. intros j v Hv. revert j; induction Hv as [|x v Hx Hv IH]; intros j; [exists []; split; [constructor|split; constructor]|].
    destruct (IH (j + 1)) as (v' & H1 & H2 & H3). destruct (read_printed pf x HP Hx) as (x' & Hr & Hp). destruct (term_finite j x Hx) as [HA HB].
    exists (x' :: v'). split; [constructor; [exists (fmtF x); auto|auto]|]. split; constructor; auto. }
  destruct (HT 1 v Hv) as (v' & H1 & H2 & H3). exists v'. split; [|exact H2].
  assert (HE : tss = map (fun t => [t]) (svmTerms 1 v)) by (eapply Forall2_fun; [apply words_det|exact HF|exact H3]).
  exists (decZ lab), (concat tss). split; [exact HW|]. split; [apply atoi_dec; exact Hl|].
  rewrite HE. replace (concat (map (fun t : text => [t]) (svmTerms 1 v))) with (svmTerms 1 v); [exact H1|].
  clear. generalize (svmTerms 1 v). intros ls. induction ls; simpl; congruence.
Qed.
Lemma row_special pf l lab v : ParserOk pf -> Exists (fun x => is_finite x = false) v -> forall c r, ~ svmRow pf (svmLine l lab v) c r.
Proof.
  intros HP Hv c r (f0 & fs & HW & _ & HF). destruct (line_words l lab v) as (tss & HT & HW2).
  pose proof (words_det _ _ _ HW HW2) as HE. injection HE as _ ->. clear HW HW2.
  assert (HIn : exists j, In (decZ j ++ tx ":") (concat tss)).
  { clear HF. revert HT. generalize 1%Z. intros j HT. revert tss j HT. induction Hv as [x v Hx|x v Hv IH]; intros tss j HT; cbn [svmTerms] in HT; inversion HT as [|? ws ? tss' H1 H2]; subst.
    - destruct (term_special j x Hx) as (w & Hw). pose proof (words_det _ _ _ H1 Hw) as ->. exists j. simpl. auto.
    - destruct (IH tss' (j + 1) H2) as (k & Hk). exists k. cbn [concat]. apply in_app_iff. auto. }
  destruct HIn as (j & Hj). revert HF Hj. clear -HP. generalize (concat tss). intros fs HF Hj. revert Hj.
  induction HF as [|f x fs r (t & (a & HE & Ha & Ht) & Hpf) HF IH]; [simpl; tauto|]. intros [H|H]; [|auto].
  assert (HT2 : splitT (decZ j ++ tx ":") (tx ":") = [decZ j; []]).
  { apply split_term. split; [reflexivity|]. split; [apply plain_colon; intros c Hc; eapply dec_plain; eauto|simpl; tauto]. }
  rewrite <- H, HE in HT2.
  assert (HS : splitT (a ++ tx ":" ++ t) (tx ":") = [a; t]) by (apply split_term; auto).
  rewrite HT2 in HS. injection HS as _ <-. rewrite (po_empty pf HP) in Hpf. discriminate.
Qed.
Lemma row_not_blank l lab v : ~ blank (svmLine l lab v).
Proof. intros H. apply words_none in H. destruct (line_words l lab v) as (tss & _ & HW). pose proof (words_det _ _ _ H HW) as HE. discriminate HE. Qed.
Lemma header_ok ks : Forall svmKey ks -> svmHeader (joinT (tx "Labels" :: svmKeys 1 ks) sp) ks.
Proof.
  intros HK. exists (tx "Labels"), (svmKeys 1 ks).
  assert (HS : forall j, Forall2 term (svmKeys j ks) ks /\ Forall2 wordsOf (svmKeys j ks) (map (fun t => [t]) (svmKeys j ks))).
  { induction HK as [|k ks [Hk1 Hk2] HK IH]; intros j; [split; constructor|]. destruct (IH (j + 1)) as [H1 H2]. cbn [svmKeys map]. split; constructor; auto.
    - exists (decZ j). split; [reflexivity|]. split; [|exact Hk2]. apply plain_colon. intros c Hc. eapply dec_plain; eauto.
    - apply words_solid; [destruct (decZ j); discriminate|]. rewrite app_assoc. apply solid_app; [apply dec_safe|exact Hk1]. }
  destruct (HS 1) as [H1 H2]. split; [|exact H1]. pose proof (words_join (tx "Labels" :: svmKeys 1 ks) ([tx "Labels"] :: map (fun t => [t]) (svmKeys 1 ks))) as HJ.
  cbn [concat app] in HJ. replace (concat (map (fun t : text => [t]) (svmKeys 1 ks))) with (svmKeys 1 ks) in HJ.
  - apply HJ. constructor; [|exact H2]. apply words_solid; [discriminate|]. apply solid_safe. intros c. simpl. intros Hc. repeat destruct Hc as [<-|Hc]; try reflexivity; destruct Hc.
  - clear. generalize (svmKeys 1 ks). intros ls. induction ls; simpl; congruence.
Qed.
(** all lines are lines *)
Lemma pad_line w t : oneLine t -> oneLine (padL w t).
Proof. unfold oneLine, padL. intros H Hin. apply in_app_iff in Hin as [Hin|Hin]; [apply repeat_spec in Hin; discriminate|auto]. Qed.
Lemma plain_line t : (forall c, In c t -> plainChar c = true) -> oneLine t.
Proof. intros H Hin. apply H in Hin. discriminate. Qed.
Lemma fmt_line x : oneLine (fmtF x).
Proof.
  unfold fmtF. apply pad_line. destruct x as [s|s| |s m e He].
  - apply plain_line. apply fixed_plain.
  - destruct s; intros H; simpl in H; repeat destruct H as [H|H]; try discriminate; destruct H.
  - intros H; simpl in H; repeat destruct H as [H|H]; try discriminate; destruct H.
  - apply plain_line. apply fixed_plain.
Qed.
Lemma svm_line_line l lab v : oneLine (svmLine l lab v).
Proof.
  unfold oneLine, svmLine. apply join_no; [|discriminate]. intros p [<-|Hp].
  - apply pad_line, plain_line. apply dec_plain.
  - apply in_app_iff in Hp as [Hp|Hp]; [apply repeat_spec in Hp as ->; simpl; tauto|]. rewrite terms_map in Hp. unfold zipWith in Hp.
    apply in_map_iff in Hp as ((j & x) & <- & _). cbn [fst snd]. unfold termText. rewrite !in_app_iff. intros [H|[H|H]].
    + revert H. apply plain_line. apply dec_plain.
    + destruct H as [H|[]]. discriminate H.
    + exact (fmt_line x H).
Qed.
Lemma header_line ks : Forall svmKey ks -> oneLine (joinT (tx "Labels" :: svmKeys 1 ks) sp).
Proof.
  intros HK. unfold oneLine. apply join_no; [|discriminate]. intros p [<-|Hp].
  - simpl. intros H. repeat destruct H as [H|H]; try discriminate; destruct H.
  - assert (HG : forall j, In p (svmKeys j ks) -> exists i k, p = decZ i ++ tx ":" ++ k /\ In k ks).
    { clear Hp. induction ks as [|k ks IH]; intros j; cbn [svmKeys]; [intros []|]. inversion HK; subst. intros [<-|Hp]; [exists j, k; simpl; auto|].
      destruct (IH H2 (j + 1) Hp) as (i & k' & -> & Hk). exists i, k'. simpl. auto. }
    destruct (HG 1 Hp) as (i & k & -> & Hk). rewrite Forall_forall in HK. destruct (HK k Hk) as [Hs _]. rewrite !in_app_iff. intros [H|[H|H]].
    + revert H. apply plain_line. apply dec_plain.
    + destruct H as [H|[]]. discriminate H.
    + exact (solid_line k Hs H).
Qed.

(** ** The round trip *)
Lemma zip_in {A B C} (f : A -> B -> C) a b y : In y (zipWith f a b) -> exists p q, y = f p q /\ In p a /\ In q b.
Proof. unfold zipWith. intros H. apply in_map_iff in H as ((p & q) & <- & H). exists p, q. split; [auto|]. split; [eapply in_combine_l; eauto|eapply in_combine_r; eauto]. Qed.
Lemma rows_finite pf l : ParserOk pf -> forall labs rows, length labs = length rows -> Forall int64 labs -> Forall (Forall (fun x => is_finite x = true)) rows ->
  exists rows', rowsRun pf (zipWith (svmLine l) labs rows) = Ok (Some (labs, rows')) /\ Forall2 (Forall2 asPrinted) rows rows'.
Proof.
  intros HP. induction labs as [|lab labs IH]; intros rows HL Hl Hr; destruct rows as [|v rows]; try discriminate HL; [exists []; split; [reflexivity|constructor]|].
  inversion Hl; inversion Hr; subst. destruct (IH rows) as (rows' & H1' & H2'); auto. destruct (row_finite pf l lab v HP) as (v' & Hv & Hp); auto.
  exists (v' :: rows'). split; [|constructor; auto]. unfold zipWith in *. cbn [combine map fst snd rowsRun].
  rewrite (proj2 (line_row pf (svmLine l lab v) lab [] v')) by auto. cbn [bind]. rewrite H1'. reflexivity.
Qed.
Lemma rows_error pf ls : (forall l, In l ls -> ~ blank l) -> (exists l, In l ls /\ forall c r, ~ svmRow pf l c r) -> rowsRun pf ls = Ok None.
Proof.
  induction ls as [|l ls IH]; intros Hb (x & Hx & Hbad); [destruct Hx|]. cbn [rowsRun].
  destruct (parseLibSVMLine pf (l ++ [NL]) false) as [[[[c ks] r]|]| |] eqn:E; cbn [bind].
  - destruct Hx as [<-|Hx]; [apply line_row in E as [E _]; exfalso; eapply Hbad; eauto|]. rewrite IH; [reflexivity|intros; apply Hb; right; auto|eauto].
  - reflexivity.
  - apply line_panic in E. exfalso. apply (Hb l); [left; auto|exact E].
  - exfalso. eapply line_not_div; eauto.
Qed.
Lemma zip_firstn {A B C} (f : A -> B -> C) n : forall a b, firstn n (zipWith f a b) = zipWith f (firstn n a) (firstn n b).
Proof. unfold zipWith. intros. rewrite firstn_map, combine_firstn. reflexivity. Qed.
Lemma zip_len {A B C} (f : A -> B -> C) a b : length a = length b -> length (zipWith f a b) = length b.
Proof. intros H. unfold zipWith. rewrite map_length, combine_length. lia. Qed.
Lemma split_last {A} (l : list A) x t : l = x :: t -> exists y, l = firstn (Nat.pred (length l)) l ++ [y].
Proof.
  intros ->. destruct (@exists_last A (x :: t)) as (a & y & E); [discriminate|]. rewrite E. exists y.
  rewrite app_length. cbn [length]. replace (Nat.pred (length a + 1)) with (length a) by lia. rewrite firstn_app, firstn_all, Nat.sub_diag. cbn [firstn]. rewrite app_nil_r. auto.
Qed.
(** the text as lines *)
Lemma svm_text D t : LibSVM (Some D) = Ok t -> Forall svmKey (Keys D) \/ hasKeys D = false -> exists r0 rs last,
  Data D = r0 :: rs /\ oneLine last /\
  let hd := if hasKeys D then [joinT (tx "Labels" :: svmKeys 1 (Keys D)) sp] else [] in
  let n := length (Data D) in
  let rows k := zipWith (svmLine (length r0)) (firstn k (labelsOf D)) (firstn k (Data D)) in
  t = unlines (hd ++ rows (Nat.pred n)) last /\ t ++ [NL] = unlines (hd ++ rows n) [] /\
  (forall k, Forall oneLine (hd ++ rows k)).
Proof.
  intros HT HK. destruct (Data D) as [|r0 rs] eqn:HD; [unfold LibSVM in HT; rewrite HD in HT; discriminate HT|].
  rewrite (LibSVM_text D r0 rs HD) in HT. injection HT as <-. exists r0, rs.
  set (hd := if hasKeys D then [joinT (tx "Labels" :: svmKeys 1 (Keys D)) sp] else []).
  assert (HX : svmTextLines D r0 = hd ++ zipWith (svmLine (length r0)) (labelsOf D) (Data D)) by (unfold svmTextLines, hd, hasKeys; rewrite HD; reflexivity).
  rewrite HX. pose proof (labels_len D) as HL. rewrite HD in HX, HL.
  assert (HZ : length (zipWith (svmLine (length r0)) (labelsOf D) (r0 :: rs)) = length (r0 :: rs)) by (apply zip_len; exact HL).
  destruct (zipWith (svmLine (length r0)) (labelsOf D) (r0 :: rs)) as [|z0 zs] eqn:EZ; [discriminate HZ|].
  destruct (split_last _ _ _ EZ) as (y & Hy). rewrite EZ, HZ in Hy. rewrite <- EZ, zip_firstn in Hy.
  exists y. split; [auto|]. split.
  { assert (Hin : In y (z0 :: zs)) by (rewrite <- EZ, Hy; apply in_app_iff; right; left; auto). rewrite <- EZ in Hin. apply zip_in in Hin as (p & q & -> & _). apply svm_line_line. }
  cbv zeta. rewrite HD. split; [|split].
  - rewrite Hy, app_assoc, join_unlines. reflexivity.
  - rewrite Hy at 1. rewrite app_assoc, join_unlines, unlines_end, <- app_assoc, <- Hy. f_equal. f_equal.
    rewrite firstn_all, <- HL, firstn_all. reflexivity.
  - intros k. apply Forall_app. split.
    + unfold hd. destruct (hasKeys D) eqn:EK; [|constructor]. constructor; [|constructor]. destruct HK as [HK|HK]; [apply header_line; auto|discriminate].
    + apply Forall_forall. intros x Hx. apply zip_in in Hx as (p & q & -> & _). apply svm_line_line.
Qed.
Lemma firstn_Forall {A} (P : A -> Prop) n l : Forall P l -> Forall P (firstn n l).
Proof. intros H. rewrite <- (firstn_skipn n l) in H. apply Forall_app in H. tauto. Qed.
Theorem svm_round_trip pf D t : ParserOk pf -> LibSVM (Some D) = Ok t -> Forall int64 (Labels D) -> Forall svmKey (Keys D) \/ hasKeys D = false ->
  let n := length (Data D) in
  (Forall (Forall (fun x => is_finite x = true)) (firstn (Nat.pred n) (Data D)) ->
    exists D', ParseLibSVM pf t true (hasKeys D) = Ok (Some D') /\ Keys D' = (if hasKeys D then Keys D else []) /\ printedRows (Nat.pred n) D D') /\
  (Forall (Forall (fun x => is_finite x = true)) (Data D) ->
    exists D', ParseLibSVM pf (t ++ [NL]) true (hasKeys D) = Ok (Some D') /\ Keys D' = (if hasKeys D then Keys D else []) /\ printedRows n D D').
Proof.
  intros HP HT Hlab HK n. destruct (svm_text D t HT HK) as (r0 & rs & last & HD & Hlast & H1 & H2 & H3).
  assert (HI : Forall int64 (labelsOf D)).
  { unfold labelsOf. destruct (Nat.eqb _ _); [auto|]. apply Forall_forall. intros x Hx. apply repeat_spec in Hx as ->. unfold int64. lia. }
  assert (HG : forall k last', oneLine last' -> (k <= n)%nat -> Forall (Forall (fun x => is_finite x = true)) (firstn k (Data D)) ->
    exists D', ParseLibSVM pf (unlines ((if hasKeys D then [joinT (tx "Labels" :: svmKeys 1 (Keys D)) sp] else []) ++
      zipWith (svmLine (length r0)) (firstn k (labelsOf D)) (firstn k (Data D))) last') true (hasKeys D) = Ok (Some D') /\
    Keys D' = (if hasKeys D then Keys D else []) /\ printedRows k D D').
  { intros k last' HL Hk Hf. destruct (rows_finite pf (length r0) HP (firstn k (labelsOf D)) (firstn k (Data D))) as (rows' & HR & HF).
    - rewrite !firstn_length, labels_len. reflexivity.
    - apply firstn_Forall. exact HI.
    - exact Hf.
    - exists (MkData rows' (if hasKeys D then Keys D else []) (firstn k (labelsOf D))). split; [|split; [reflexivity|split; [reflexivity|exact HF]]].
      apply svm_data; [apply H3|exact HL|]. split; [reflexivity|]. apply rows_run in HR. unfold svmDoc. destruct (hasKeys D) eqn:EK.
      + cbn [app]. split; [|exact HR]. destruct HK as [HK|HK]; [apply header_ok; exact HK|discriminate].
      + cbn [app]. split; [reflexivity|exact HR]. }
  split.
  - intros Hf. rewrite H1. apply HG; auto. unfold n. lia.
  - intros Hf. rewrite H2. apply HG; [intros []|unfold n; lia|]. apply firstn_Forall. exact Hf.
Qed.
Theorem svm_round_trip_special pf D t : ParserOk pf -> LibSVM (Some D) = Ok t -> Forall svmKey (Keys D) \/ hasKeys D = false ->
  Exists (Exists (fun x => is_finite x = false)) (firstn (Nat.pred (length (Data D))) (Data D)) -> ParseLibSVM pf t true (hasKeys D) = Ok None.
Proof.
  intros HP HT HK HE. destruct (svm_text D t HT HK) as (r0 & rs & last & HD & Hlast & H1 & H2 & H3). rewrite H1, parse_svm by auto.
  set (n := Nat.pred (length (Data D))) in *.
  assert (HR : rowsRun pf (zipWith (svmLine (length r0)) (firstn n (labelsOf D)) (firstn n (Data D))) = Ok None).
  { apply rows_error.
    - intros l Hl. apply zip_in in Hl as (p & q & -> & _). apply row_not_blank.
    - apply Exists_exists in HE as (v & Hv & HE). apply In_nth_error in Hv as (i & Hi).
      assert (Hlen : length (firstn n (labelsOf D)) = length (firstn n (Data D))) by (rewrite !firstn_length, labels_len; reflexivity).
      assert (Hlt : (i < length (firstn n (labelsOf D)))%nat) by (rewrite Hlen; apply nth_error_Some; intros HH; pose proof (eq_trans (eq_sym Hi) HH); discriminate).
      destruct (nth_error (firstn n (labelsOf D)) i) as [lab|] eqn:EL; [|apply nth_error_None in EL; lia].
      exists (svmLine (length r0) lab v). split; [|apply row_special; auto].
      unfold zipWith. apply in_map_iff. exists (lab, v). split; [reflexivity|]. clear -Hi EL. revert Hi EL. generalize (firstn n (Data D)), (firstn n (labelsOf D)). revert i.
      induction i; intros [|x l] [|y m]; simpl; try discriminate; [intros [= ->] [= ->]; auto|]. intros Ha Hb. right. eauto. }
  destruct (hasKeys D) eqn:EK.
  - cbn [app]. destruct HK as [HK|]; [|discriminate]. rewrite (proj2 (line_header pf (joinT (tx "Labels" :: svmKeys 1 (Keys D)) sp) 0 (Keys D) [])) by (split; [apply header_ok; exact HK|auto]).
    cbn [bind]. rewrite HR. reflexivity.
  - cbn [app]. rewrite HR. cbn [bind]. destruct (zipWith _ _ _) eqn:EZ; [|reflexivity]. discriminate HR.
Qed.
Theorem svm_write D : LibSVM (Some D) = Panic <-> Data D = [].
Proof.
  split.
  - intros H. destruct (Data D) as [|r0 rs] eqn:E; auto. rewrite (LibSVM_text D r0 rs E) in H. discriminate.
  - intros H. unfold LibSVM. rewrite H. reflexivity.
Qed.
