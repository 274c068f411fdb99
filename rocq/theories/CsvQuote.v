(** Quoted fields. *)
From Coq Require Import Ascii String.
From Flocq Require Import IEEE754.BinarySingleNaN.
From Verif Require Import Base F64 Env Utils Text Confu Readers CsvReader SpecReaders ReadersProofs ReadersNum ReadersMore ReadersCsv SpecCsv CsvProofs.
From Coq Require Import List.
Open Scope Z_scope.

(** ** Lines *)
Inductive wf : list text -> Prop :=
| wf_nil : wf []
| wf_last l : ~ In NL l -> wf [l]
| wf_line l ls : ~ In NL l -> wf ls -> wf ((l ++ [NL]) :: ls).
(** the rest of a line, and the lines after it *)
Definition inv (line : text) (ls : list text) : Prop :=
  (exists l, line = l ++ [NL] /\ ~ In NL l /\ wf ls) \/ (~ In NL line /\ ls = []).
Definition invQ (line : text) (ls : list text) : Prop := inv line ls \/ (line = [] /\ wf ls).
Lemma wf_inv l ls : wf (l :: ls) -> inv l ls.
Proof. intros H. inversion H; subst; [right; auto|left; eauto]. Qed.
Lemma inv_wf line ls : inv line ls -> wf ls.
Proof. intros [(l & _ & _ & H)|[_ ->]]; [auto|constructor]. Qed.
Lemma inv_tail c line ls : inv (c :: line) ls -> (c <> NL -> inv line ls) /\ (c = NL -> line = []).
Proof.
  intros [(l & HE & Hl & HW)|[Hl ->]].
  - destruct l as [|x l]; cbn [app] in HE; injection HE as -> ->.
    + split; [congruence|auto].
    + split; [|intros ->; exfalso; apply Hl; left; auto]. intros _. left. exists l. split; [auto|]. split; [|auto]. intros H. apply Hl. right. auto.
  - split; [|intros ->; exfalso; apply Hl; left; auto]. intros _. right. split; [|auto]. intros H. apply Hl. right. auto.
Qed.
Lemma inv_nil ls : inv [] ls -> ls = [].
Proof. intros [(l & HE & _)|[_ H]]; [destruct l; discriminate HE|auto]. Qed.
Lemma inv_split : forall a line ls rest, inv line ls -> ~ In NL a -> line ++ concat ls = a ++ rest -> exists m, line = a ++ m /\ inv m ls /\ m ++ concat ls = rest.
Proof.
  induction a as [|x a IH]; intros line ls rest HI Ha HE; [exists line; auto|]. destruct line as [|y line].
  - apply inv_nil in HI as ->. discriminate HE.
  - cbn [app] in HE. injection HE as -> HE. destruct (inv_tail _ _ _ HI) as [HT _]. destruct (IH line ls rest) as (m & -> & Hm & HR); [apply HT; intros ->; apply Ha; left; auto|intros H; apply Ha; right; auto|auto|].
    exists m. auto.
Qed.
Lemma quoted_eq sep ls line buf : quotedField sep ls line buf =
    match line with
    | [] => match ls with [] => QErr | l :: ls' => quotedField sep ls' l buf end
    | c :: line' =>
        if Ascii.eqb c QT then
          match line' with
          | [] => QEnd buf ls
          | d :: line'' =>
              if Ascii.eqb d QT then quotedField sep ls line'' (buf ++ [QT])
              else if hasPrefix line' sep then QNext buf (skipn (length sep) line') ls
              else if Ascii.eqb d NL && match line'' with [] => true | _ => false end then QEnd buf ls
              else QErr
          end
        else quotedField sep ls line' (buf ++ [c])
    end.
Proof. destruct ls; destruct line; reflexivity. Qed.
Lemma prefix_app : forall p t, hasPrefix (p ++ t) p = true.
Proof. induction p as [|x p IH]; intros t; [destruct t; reflexivity|]. cbn [app hasPrefix]. rewrite Ascii.eqb_refl. apply IH. Qed.
Lemma skip_app {A} (p t : list A) : skipn (length p) (p ++ t) = t.
Proof. induction p; auto. Qed.
Lemma quoted_ok sep : sep <> [] -> ~ In NL sep -> ~ In QT sep -> forall n x line ls buf rest, (length line + length (concat ls) + length ls <= n)%nat -> invQ line ls ->
  line ++ concat ls = doubled x ++ QT :: rest ->
  (rest = [] -> exists ls', quotedField sep ls line buf = QEnd (buf ++ x) ls' /\ concat ls' = [] /\ wf ls' /\ (length ls' <= length ls)%nat) /\
  (forall r, rest = NL :: r -> exists ls', quotedField sep ls line buf = QEnd (buf ++ x) ls' /\ concat ls' = r /\ wf ls' /\ (length ls' <= length ls)%nat) /\
  (forall r, rest = sep ++ r -> exists m ls', quotedField sep ls line buf = QNext (buf ++ x) m ls' /\ m ++ concat ls' = r /\ inv m ls' /\ (length ls' <= length ls)%nat) /\
  (forall d r s0 s1, rest = d :: r -> sep = s0 :: s1 -> d <> s0 -> d <> QT -> d <> NL -> quotedField sep ls line buf = QErr).
Proof.
  intros Hne HN HQ. induction n as [|n IH]; intros x line ls buf rest Hn HI HE.
  { destruct line; [|simpl in Hn; lia]. destruct ls; [|simpl in Hn; lia]. simpl in HE. destruct (doubled x); discriminate HE. }
  rewrite quoted_eq. destruct line as [|c line].
  - destruct ls as [|l ls]; [simpl in HE; destruct (doubled x); discriminate HE|]. cbn [app concat] in HE.
    assert (HW : wf (l :: ls)) by (destruct HI as [HI|[_ HI]]; [apply inv_nil in HI; discriminate HI|exact HI]).
    destruct (IH x l ls buf rest) as (I1 & I2 & I3 & I4); [cbn [concat length] in Hn; rewrite app_length in Hn; lia|left; apply wf_inv; auto|exact HE|].
    split; [|split; [|split; [|exact I4]]].
    + intros Hr. destruct (I1 Hr) as (ls' & A & B & C & E). exists ls'. repeat split; auto. simpl. lia.
    + intros r Hr. destruct (I2 r Hr) as (ls' & A & B & C & E). exists ls'. repeat split; auto. simpl. lia.
    + intros r Hr. destruct (I3 r Hr) as (m & ls' & A & B & C & E). exists m, ls'. repeat split; auto. simpl. lia.
  - assert (HI' : inv (c :: line) ls) by (destruct HI as [HI|[HI _]]; [exact HI|discriminate HI]). clear HI.
    destruct (inv_tail _ _ _ HI') as [HT HTN]. cbn [length] in Hn. destruct x as [|y x].
    + cbn [doubled flat_map app] in HE. injection HE as -> HE. rewrite Ascii.eqb_refl, app_nil_r. assert (HIl : inv line ls) by (apply HT; discriminate).
      destruct line as [|d line].
      * apply inv_nil in HIl as ->. simpl in HE. subst rest. split; [intros _; exists []; repeat split; constructor|]. split; [intros r [=]|]. split; [|intros d r s0 s1 [=]]. intros r Hr. destruct sep; [congruence|discriminate Hr].
      * cbn [app] in HE. split; [intros ->; discriminate HE|]. split; [|split].
        -- intros r ->. injection HE as -> HE. change (Ascii.eqb NL QT) with false. cbn iota.
           destruct (hasPrefix (NL :: line) sep) eqn:EP.
           { destruct sep as [|z sep]; [congruence|]. cbn [hasPrefix] in EP. apply andb_prop in EP as [EP _]. apply Ascii.eqb_eq in EP as ->. exfalso. apply HN. left. auto. }
           destruct (inv_tail _ _ _ HIl) as [_ HX]. rewrite (HX eq_refl) in *. cbn. exists ls. repeat split; auto. eapply inv_wf; eauto.
        -- intros r ->. destruct (inv_split sep (d :: line) ls r HIl HN HE) as (m & Em & Hm & HR). destruct sep as [|z sep]; [congruence|].
           cbn [app] in Em. injection Em as -> ->. destruct (Ascii.eqb_spec z QT) as [->|Hz]; [exfalso; apply HQ; left; auto|].
           change (z :: sep ++ m) with ((z :: sep) ++ m). rewrite prefix_app, skip_app. exists m, ls. auto.
        -- intros d' r s0 s1 -> -> H1 H2 H3. injection HE as -> HE. destruct (Ascii.eqb_spec d' QT) as [?|_]; [congruence|]. cbn [hasPrefix].
           destruct (Ascii.eqb_spec s0 d') as [?|_]; [congruence|]. destruct (Ascii.eqb_spec d' NL) as [?|_]; [congruence|]. reflexivity.
    + cbn [doubled flat_map] in HE. fold (doubled x) in HE. change (Ascii.eqb y """") with (Ascii.eqb y QT) in HE. destruct (Ascii.eqb_spec y QT) as [->|Hy].
      * cbn [app] in HE. injection HE as -> HE. rewrite Ascii.eqb_refl. assert (HIl : inv line ls) by (apply HT; discriminate).
        destruct line as [|d line]; [apply inv_nil in HIl; subst ls; discriminate HE|]. cbn [app] in HE. injection HE as -> HE. rewrite Ascii.eqb_refl.
        destruct (inv_tail _ _ _ HIl) as [HX _]. assert (HI2 : invQ line ls) by (left; apply HX; discriminate).
        destruct (IH x line ls (buf ++ [QT]) rest) as (I1 & I2 & I3 & I4); [cbn [length] in Hn; lia|exact HI2|exact HE|]. rewrite <- app_assoc in I1, I2, I3. exact (conj I1 (conj I2 (conj I3 I4))).
      * cbn [app] in HE. injection HE as -> HE. destruct (Ascii.eqb_spec y QT) as [HX|_]; [congruence|].
        assert (HI2 : invQ line ls).
        { destruct (Ascii.eqb_spec y NL) as [->|Hc]; [|left; auto]. right. split; [auto|]. eapply inv_wf; eauto. }
        destruct (IH x line ls (buf ++ [y]) rest) as (I1 & I2 & I3 & I4); [lia|exact HI2|exact HE|]. rewrite <- app_assoc in I1, I2, I3. exact (conj I1 (conj I2 (conj I3 I4))).
Qed.

(** ** Records *)
Lemma trim_quote m : trimLeft (""""%char :: m) = """"%char :: m.
Proof. apply trim_none. destruct m as [|x [|y m]]; reflexivity. Qed.
(** what follows a record *)
Definition follows (rest r : text) : Prop := rest = [] /\ r = [] \/ rest = NL :: r.
Lemma fields_cells sep : goodDelim sep -> forall rec raw v fuel line ls acc rest r, Forall (fun p => cell sep (fst p) (snd p)) ((raw, v) :: rec) -> inv line ls ->
  (length line + length (concat ls) < fuel)%nat -> line ++ concat ls = joinT (map fst ((raw, v) :: rec)) sep ++ rest -> follows rest r ->
  exists ls', readFields fuel sep line ls acc = Some (acc ++ map snd ((raw, v) :: rec), ls') /\ concat ls' = r /\ wf ls' /\ (length ls' <= length ls)%nat.
Proof.
  intros HG. pose proof HG as (Hne & HN & HC & HQ & _ & _). induction rec as [|[raw2 v2] rec IH]; intros raw v fuel line ls acc rest r HF HI Hf HE HR; (destruct fuel as [|fuel]; [lia|]);
    inversion HF as [|? ? Hcell HF']; subst; cbn [fst snd] in Hcell.
  - cbn [map fst snd joinT] in *. destruct Hcell as [(c & -> & Hc & (K1 & K2 & K3 & K4 & K5) & HU)|(b & Hb & Hb1 & Hb2 & -> & Hv)].
    + apply unindent_trim in HU. destruct (inv_split raw line ls rest HI K2 HE) as (m & -> & Hm & HM). cbn [readFields].
      assert (HX : exists k, trimLeft (raw ++ m) = k /\ ~ In c k /\ ~ In QT k /\ chopNL k = v /\ concat ls = r).
      { assert (Hv : forall d, In d v -> In d raw) by (rewrite <- HU; intros d; apply trim_in). destruct HR as [[-> ->]| ->].
        - apply app_eq_nil in HM as [-> HM]. exists v. rewrite app_nil_r. repeat split; auto. apply chop_none. auto.
        - destruct m as [|y m]; [apply inv_nil in Hm as ->; discriminate HM|]. cbn [app] in HM. injection HM as -> HM. destruct (inv_tail _ _ _ Hm) as [_ HX]. rewrite (HX eq_refl) in *. rewrite trim_NL, HU.
          destruct v as [|z v']; [exists []; repeat split; auto|]. exists ((z :: v') ++ [NL]). repeat split; auto.
          + intros H. apply in_app_iff in H as [H|[H|[]]]; [auto|]. subst c. apply HN. left. auto.
          + intros H. apply in_app_iff in H as [H|[H|[]]]; [auto|discriminate H].
          + apply chop_NL. }
      destruct HX as (k & -> & Hk1 & Hk2 & Hk3 & Hk4). rewrite (cut_none c k Hk1), Hk3.
      assert (Hqv : hasQuote v = false) by (apply quote_none; rewrite <- HU; intros H; apply trim_in in H; auto). cbn zeta. rewrite Hqv.
      exists ls. split; [|split; [auto|split; [eapply inv_wf; eauto|auto]]].
      destruct k as [|d k]; [reflexivity|]. destruct (Ascii.eqb_spec d QT) as [->|]; [exfalso; apply Hk2; left; auto|]. reflexivity.
    + rewrite <- app_assoc in HE. destruct (inv_split b line ls _ HI Hb1 HE) as (m & -> & Hm & HM). cbn [readFields]. rewrite trim_blank by auto.
      unfold quoteField in HM. cbn [app] in HM. destruct m as [|y m]; [apply inv_nil in Hm as ->; discriminate HM|]. cbn [app] in HM. injection HM as -> HM.
      rewrite trim_quote. change (Ascii.eqb """" QT) with true. cbn iota. rewrite <- app_assoc in HM. cbn [app] in HM.
      destruct (inv_tail _ _ _ Hm) as [HT _].
      destruct (quoted_ok sep Hne HN HQ _ v m ls [] rest (Nat.le_refl _) (or_introl (HT ltac:(discriminate))) HM) as (I1 & I2 & _). cbn [app] in I1, I2.
      destruct HR as [[-> ->]| ->].
      * destruct (I1 eq_refl) as (ls' & -> & A & B & C). exists ls'. auto.
      * destruct (I2 r eq_refl) as (ls' & -> & A & B & C). exists ls'. auto.
  - cbn [map fst snd] in HE |- *. rewrite join_cons, <- !app_assoc in HE. set (more := joinT (raw2 :: map fst rec) sep ++ rest) in *.
    destruct Hcell as [(c & -> & Hc & (K1 & K2 & K3 & K4 & K5) & HU)|(b & Hb & Hb1 & Hb2 & -> & Hv)].
    + apply unindent_trim in HU. destruct (inv_split raw line ls _ HI K2 HE) as (m & -> & Hm & HM). destruct m as [|y m]; [apply inv_nil in Hm as ->; discriminate HM|]. cbn [app] in HM. injection HM as -> HM.
      cbn [readFields]. rewrite trim_field by auto. rewrite HU. assert (Hv : forall d, In d v -> In d raw) by (rewrite <- HU; intros d; apply trim_in).
      rewrite cut_some by auto. rewrite quote_none by auto. destruct (inv_tail _ _ _ Hm) as [HT _].
      destruct (IH raw2 v2 fuel m ls (acc ++ [v]) rest r) as (ls' & HR1 & HR2 & HR3 & HR4); auto.
      { apply HT. intros ->. apply HN. left. auto. }
      { rewrite app_length in Hf. simpl in Hf. lia. }
      exists ls'. rewrite HR1, <- app_assoc. cbn [app]. split; [|auto].
      destruct v as [|z v']; cbn [app].
      * destruct (Ascii.eqb_spec c QT) as [->|]; [exfalso; apply HQ; left; auto|reflexivity].
      * destruct (Ascii.eqb_spec z QT) as [->|]; [exfalso; apply K4; apply Hv; left; auto|reflexivity].
    + rewrite <- app_assoc in HE. destruct (inv_split b line ls _ HI Hb1 HE) as (m & -> & Hm & HM). cbn [readFields]. rewrite trim_blank by auto.
      unfold quoteField in HM. cbn [app] in HM. destruct m as [|y m]; [apply inv_nil in Hm as ->; discriminate HM|]. cbn [app] in HM. injection HM as -> HM.
      rewrite trim_quote. change (Ascii.eqb """" QT) with true. cbn iota. rewrite <- app_assoc in HM. cbn [app] in HM.
      destruct (inv_tail _ _ _ Hm) as [HT _].
      destruct (quoted_ok sep Hne HN HQ _ v m ls [] _ (Nat.le_refl _) (or_introl (HT ltac:(discriminate))) HM) as (_ & _ & I3 & _). cbn [app] in I3.
      destruct (I3 more eq_refl) as (m2 & ls2 & -> & A & B & C).
      destruct (IH raw2 v2 fuel m2 ls2 (acc ++ [v]) rest r) as (ls' & HR1 & HR2 & HR3 & HR4); auto.
      { assert (HL : length (m ++ concat ls) = length (doubled v ++ QT :: sep ++ m2 ++ concat ls2)) by (rewrite HM, A; reflexivity).
        rewrite !app_length in HL. rewrite app_length in Hf. cbn [length] in HL, Hf. rewrite !app_length in HL. unfold text in *. lia. }
      exists ls'. rewrite HR1, <- app_assoc. cbn [app]. split; [auto|]. split; [auto|]. split; [auto|exact (Nat.le_trans _ _ _ HR4 C)].
Qed.
Definition recOk' (sep : text) (rec : list (text * text)) : Prop :=
  rec <> [] /\ joinT (map fst rec) sep <> [] /\ Forall (fun p => cell sep (fst p) (snd p)) rec.
Lemma cell_head sep raw v : cell sep raw v -> forall d t, raw = d :: t -> d <> NL.
Proof.
  intros [(c & _ & _ & (_ & K & _) & _)|(b & _ & Hb & _ & -> & _)] d t HE ->.
  - apply K. rewrite HE. left. auto.
  - destruct b as [|x b]; [discriminate HE|]. injection HE as -> _. apply Hb. left. auto.
Qed.
Lemma join_head sep rec : goodDelim sep -> Forall (fun p => cell sep (fst p) (snd p)) rec -> forall d t, joinT (map fst rec) sep = d :: t -> d <> NL.
Proof.
  intros (Hne & HN & _) HF d t HE. destruct rec as [|[raw v] rec]; [discriminate HE|]. inversion HF as [|? ? Hc _]; subst. cbn [fst snd map] in *. destruct rec as [|[raw2 v2] rec].
  - exact (cell_head sep raw v Hc d t HE).
  - cbn [map fst] in HE. rewrite join_cons in HE. destruct raw as [|x raw].
    + destruct sep as [|z sep]; [congruence|]. cbn [app] in HE. injection HE as -> _. intros ->. apply HN. left. auto.
    + cbn [app] in HE. injection HE as -> _. exact (cell_head sep _ v Hc d raw eq_refl).
Qed.
Lemma file_cons sep rec recs : csvFile sep (rec :: recs) = joinT rec sep ++ match recs with [] => [] | _ => NL :: csvFile sep recs end.
Proof. unfold csvFile. cbn [map]. destruct recs as [|r recs]; [cbn [map joinT]; rewrite app_nil_r; reflexivity|]. cbn [map]. rewrite join_cons. reflexivity. Qed.
Lemma records_cells sep : goodDelim sep -> forall recs fuel n ls, Forall (recOk' sep) recs -> wf ls -> concat ls = csvFile sep (map (map fst) recs) -> (length ls < fuel)%nat ->
  readRecords fuel sep n ls true = sameFields n (map (map snd) recs).
Proof.
  intros HG. induction recs as [|rec recs IH]; intros fuel n ls HF HW HE Hf; (destruct fuel as [|fuel]; [lia|]).
  - change (csvFile sep (map (map fst) [])) with (@nil ascii) in HE. destruct ls as [|l ls]; [reflexivity|]. cbn [concat] in HE. apply app_eq_nil in HE as [-> HE].
    apply wf_inv, inv_nil in HW. subst ls. destruct fuel; [simpl in Hf; lia|reflexivity].
  - inversion HF as [|? ? (Hr & Hj & Hc) HF']; subst. cbn [map] in HE. rewrite file_cons in HE. destruct ls as [|l ls].
    { destruct (joinT (map fst rec) sep); [congruence|discriminate HE]. }
    pose proof (wf_inv _ _ HW) as HI. cbn [concat] in HE.
    assert (HEm : emptyLine l = false).
    { destruct l as [|x [|y l]].
      - apply inv_nil in HI. subst ls. cbn [concat app] in HE. destruct (joinT (map fst rec) sep); [congruence|discriminate HE].
      - cbn [emptyLine]. destruct (Ascii.eqb_spec x NL) as [->|]; [|reflexivity]. exfalso. destruct (joinT (map fst rec) sep) as [|d t] eqn:EJ; [congruence|]. cbn [app] in HE. injection HE as <- _.
        exact (join_head sep rec HG Hc NL t EJ eq_refl).
      - reflexivity. }
    cbn [readRecords map sameFields]. rewrite HEm. destruct rec as [|[raw v] rec]; [congruence|].
    destruct (fields_cells sep HG rec raw v (S (length (concat (l :: ls)))) l ls [] _ (csvFile sep (map (map fst) recs)) Hc HI ltac:(cbn [concat]; rewrite app_length; lia) HE) as (ls' & HR & HR2 & HR3 & HR4).
    { destruct recs as [|r2 recs]; [left; auto|right; reflexivity]. }
    rewrite HR. cbn [app]. cbn zeta. set (vs := map snd ((raw, v) :: rec)). cbn [length] in Hf. rewrite (IH fuel (Some (length vs)) ls' HF' HR3 HR2 ltac:(lia)).
    destruct (sameFields (Some (length vs)) (map (map snd) recs)) as [a b]. destruct n as [m|]; [|reflexivity]. destruct (Nat.eqb (length vs) m); reflexivity.
Qed.

(** ** The lines of a text *)
Fixpoint crOk (t : text) : bool :=
  match t with
  | [] => true
  | c :: t' => (negb (Ascii.eqb c "013") || match t' with [] => false | d :: _ => negb (Ascii.eqb d NL) end) && crOk t'
  end.
Lemma crOk_app a b : crOk a = true -> crOk b = true -> crOk (a ++ b) = true.
Proof.
  induction a as [|x a IH]; intros Ha Hb; [auto|]. cbn [app crOk] in *. apply andb_prop in Ha as [H1 H2]. rewrite (IH H2 Hb), andb_true_r.
  destruct (Ascii.eqb x "013"); [|reflexivity]. cbn [negb orb] in *. destruct a as [|y a]; [discriminate H1|exact H1].
Qed.
Lemma crOk_none t : ~ In "013"%char t -> crOk t = true.
Proof.
  induction t as [|x t IH]; intros H; [reflexivity|]. cbn [crOk]. rewrite IH by (intros Hin; apply H; right; auto). destruct (Ascii.eqb_spec x "013") as [->|]; [exfalso; apply H; left; auto|reflexivity].
Qed.
Lemma crOk_quote v : noCRLF v -> crOk (doubled v ++ [""""%char]) = true.
Proof.
  induction v as [|x v IH]; intros H; [reflexivity|]. assert (Hv : noCRLF v) by (intros a b ->; apply (H (x :: a) b); reflexivity). specialize (IH Hv).
  cbn [doubled flat_map]. fold (doubled v). destruct (Ascii.eqb_spec x """") as [->|Hx].
  - cbn [app crOk]. change (Ascii.eqb """" "013") with false. exact IH.
  - cbn [app crOk]. rewrite IH, andb_true_r. destruct (Ascii.eqb_spec x "013") as [->|]; [|reflexivity]. cbn [negb orb].
    destruct v as [|y v]; [reflexivity|]. assert (Hy : y <> NL) by (intros ->; apply (H [] v); reflexivity). cbn [doubled flat_map]. destruct (Ascii.eqb y """"); cbn [app]; destruct (Ascii.eqb_spec y NL); congruence || reflexivity.
Qed.
Lemma crOk_cell sep raw v : cell sep raw v -> crOk raw = true.
Proof.
  intros [(c & _ & _ & (_ & _ & K & _) & _)|(b & _ & _ & Hb & -> & Hv)]; [apply crOk_none; auto|].
  apply crOk_app; [apply crOk_none; auto|]. unfold quoteField. cbn [crOk]. rewrite crOk_quote by auto. reflexivity.
Qed.
Lemma crOk_join sep l : crOk sep = true -> Forall (fun f => crOk f = true) l -> crOk (joinT l sep) = true.
Proof.
  intros Hs. induction l as [|f l IH]; intros HF; [reflexivity|]. inversion HF; subst. destruct l as [|g l]; [auto|]. rewrite join_cons. apply crOk_app; [auto|]. apply crOk_app; auto.
Qed.
Lemma crOk_file sep recs : goodDelim sep -> Forall (recOk' sep) recs -> crOk (csvFile sep (map (map fst) recs)) = true.
Proof.
  intros (_ & _ & HC & _) HF. unfold csvFile. apply crOk_join; [reflexivity|]. apply Forall_forall. intros x Hx. apply in_map_iff in Hx as (rec & <- & Hrec). apply in_map_iff in Hrec as (rec' & <- & Hrec).
  rewrite Forall_forall in HF. destruct (HF _ Hrec) as (_ & _ & Hc). apply crOk_join; [apply crOk_none; auto|]. apply Forall_forall. intros y Hy. apply in_map_iff in Hy as ([raw v] & <- & Hp).
  rewrite Forall_forall in Hc. apply (crOk_cell sep raw v). exact (Hc _ Hp).
Qed.
Lemma crOk_drop t : crOk t = true -> dropCR t = t.
Proof.
  intros H. unfold dropCR. destruct (rev t) as [|c r] eqn:E; [apply (f_equal (@rev ascii)) in E; rewrite rev_involutive in E; auto|].
  destruct (Ascii.eqb_spec c "013") as [->|]; auto. exfalso. apply (f_equal (@rev ascii)) in E. rewrite rev_involutive in E. cbn [rev] in E. subst t. clear -H.
  induction (rev r) as [|x l IH]; [discriminate H|]. cbn [app crOk] in H. apply andb_prop in H as [_ H]. auto.
Qed.
Lemma crOk_split a c b : crOk (a ++ c :: b) = true -> crOk b = true.
Proof. induction a as [|x a IH]; cbn [app crOk]; intros H; apply andb_prop in H as [_ H]; auto. Qed.
Lemma crOk_before a b : crOk (a ++ NL :: b) = true -> crOk a = true.
Proof.
  induction a as [|x a IH]; cbn [app crOk]; intros H; [reflexivity|]. apply andb_prop in H as [H1 H2]. rewrite (IH H2), andb_true_r.
  destruct a as [|y a]; cbn [app] in H1; [|exact H1]. destruct (Ascii.eqb x "013"); [discriminate H1|reflexivity].
Qed.
Lemma raw_concat : forall t cur, crOk (cur ++ t) = true -> concat (rawLines cur t true) = cur ++ t.
Proof.
  induction t as [|c t IH]; intros cur H; cbn [rawLines].
  - rewrite app_nil_r in *. destruct cur as [|x cur]; [reflexivity|]. cbn [concat]. rewrite app_nil_r. apply crOk_drop. exact H.
  - destruct (Ascii.eqb_spec c NL) as [->|Hc].
    + cbn [concat]. rewrite IH; [|exact (crOk_split _ _ _ H)]. rewrite crOk_drop by exact (crOk_before _ _ H). rewrite <- app_assoc. reflexivity.
    + rewrite IH by (rewrite <- app_assoc; exact H). rewrite <- app_assoc. reflexivity.
Qed.
Lemma raw_wf eof : forall t cur, ~ In NL cur -> wf (rawLines cur t eof).
Proof.
  induction t as [|c t IH]; intros cur H; cbn [rawLines].
  - destruct eof; [|constructor]. destruct cur as [|x cur]; [constructor|]. apply wf_last. intros Hin. apply drop_in in Hin. auto.
  - destruct (Ascii.eqb_spec c NL) as [->|Hc].
    + apply wf_line; [intros Hin; apply drop_in in Hin; auto|]. apply IH. intros [].
    + apply IH. intros Hin. apply in_app_iff in Hin as [Hin|[->|[]]]; auto.
Qed.
Theorem read_cells sep recs : goodDelim sep -> Forall (recOk' sep) recs -> csvRead sep (csvFile sep (map (map fst) recs)) true = sameFields None (map (map snd) recs).
Proof.
  intros HG HF. unfold csvRead. rewrite (delim_valid sep HG). cbn zeta. apply records_cells; auto; [apply raw_wf; intros []|apply (raw_concat _ []), crOk_file; auto].
Qed.
