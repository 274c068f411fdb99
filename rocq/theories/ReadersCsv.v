(** CSV records, the round trip through the CSV text, and the name files. *)
From Coq Require Import Ascii String Reals.
From Flocq Require Import Core IEEE754.BinarySingleNaN.
From Verif Require Import Base F64 Env F64Lemmas Utils Text Confu Readers SpecReaders ReadersProofs ReadersNum ReadersMore.
From Coq Require Import List.
Open Scope Z_scope.

(** ** Records *)
Lemma parse_all pf fs row : parseAll pf fs = Some row <-> values pf fs row.
Proof.
  unfold values. revert row; induction fs as [|f fs IH]; intros row; cbn [parseAll].
  - split; [intros [= <-]; constructor|]. intros H. inversion H. auto.
  - split.
    + destruct (pf f) as [x|] eqn:E; [|discriminate]. destruct (parseAll pf fs) as [l|]; [|discriminate]. intros [= <-]. constructor; [auto|]. apply IH. auto.
    + intros H. inversion H as [|? x ? l Hx Hl]; subst. rewrite Hx. apply IH in Hl. rewrite Hl. reflexivity.
Qed.
Definition recOk (pf : parser) (hl : bool) (rec : list text) (l : Z) (row : list f64) : Prop :=
  if hl then exists f0 fs, rec = f0 :: fs /\ atoi f0 = Some l /\ values pf fs row else l = -1 /\ values pf rec row.
Lemma rec_data pf rec hl l row : recordsToData pf rec hl = Ok (Some (l, row)) <-> recOk pf hl rec l row.
Proof.
  unfold recordsToData, recOk. destruct hl.
  - destruct rec as [|f fs]; [split; [discriminate|intros (? & ? & ? & _); discriminate]|]. change (idx (f :: fs) 0) with (Ok f). cbn [bind tl]. split.
    + destruct (atoi f) as [k|] eqn:E; [|discriminate]. destruct (parseAll pf fs) as [d|] eqn:EP; [|discriminate]. intros [= <- <-]. exists f, fs. split; [auto|]. split; [auto|]. apply parse_all. auto.
    + intros (f0 & fs0 & [= <- <-] & HA & HV). rewrite HA. apply parse_all in HV. rewrite HV. reflexivity.
  - split.
    + destruct (parseAll pf rec) as [d|] eqn:EP; [|discriminate]. intros [= <- <-]. split; [auto|]. apply parse_all. auto.
    + intros (-> & HV). apply parse_all in HV. rewrite HV. reflexivity.
Qed.
Lemma rec_panic pf rec hl : recordsToData pf rec hl = Panic <-> hl = true /\ rec = [].
Proof.
  unfold recordsToData. destruct hl.
  - destruct rec as [|f fs]; [cbn; tauto|]. change (idx (f :: fs) 0) with (Ok f). cbn [bind tl]. split; [|intros [_ ?]; discriminate].
    destruct (atoi f); [|discriminate]. destruct (parseAll pf fs); discriminate.
  - split; [|intros [? _]; discriminate]. destruct (parseAll pf rec); discriminate.
Qed.
Lemma rec_not_div pf rec hl : recordsToData pf rec hl <> Diverge.
Proof. unfold recordsToData. destruct hl; [|destruct (parseAll pf rec); discriminate]. destruct rec as [|f fs]; [discriminate|]. change (idx (f :: fs) 0) with (Ok f). cbn [bind tl]. destruct (atoi f); [|discriminate]. destruct (parseAll pf fs); discriminate. Qed.
Fixpoint recsRun (pf : parser) (hl : bool) (recs : list (list text)) : res (option (list Z * list (list f64))) :=
  match recs with
  | [] => Ok (Some ([], []))
  | rec :: t =>
      o <- recordsToData pf rec hl ;;
      match o with
      | None => Ok None
      | Some (c, r) => p <- recsRun pf hl t ;; match p with None => Ok None | Some (cs, rs) => Ok (Some (if hl then c :: cs else cs, r :: rs)) end
      end
  end.
Lemma csv_loop pf eof hl : forall recs hs data labels, csvLoop pf recs eof hl hs data labels =
  (p <- recsRun pf hl recs ;; match p with None => Ok None | Some (cs, rs) => if eof then Ok (Some (MkData (data ++ rs) hs (labels ++ cs))) else Ok None end).
Proof.
  induction recs as [|rec recs IH]; intros hs data labels; cbn [csvLoop recsRun bind]; [rewrite !app_nil_r; reflexivity|].
  destruct (recordsToData pf rec hl) as [[[c r]|]| |]; cbn [bind]; auto. rewrite IH. destruct (recsRun pf hl recs) as [[[cs rs]|]| |]; cbn [bind]; auto.
  destruct eof; auto. destruct hl; rewrite <- !app_assoc; reflexivity.
Qed.
Lemma recs_run pf hl : forall recs cs rs, recsRun pf hl recs = Ok (Some (cs, rs)) <-> csvRows pf hl recs (MkData rs [] cs).
Proof.
  unfold csvRows. cbn [Labels Data]. induction recs as [|rec recs IH]; intros cs rs; cbn [recsRun].
  - destruct hl.
    + split; [intros [= <- <-]; split; [auto|constructor]|]. intros (HL & H). inversion H as [HC|]. destruct cs, rs; try discriminate; auto.
    + split; [intros [= <- <-]; split; [auto|constructor]|]. intros (-> & H). inversion H. auto.
  - split.
    + destruct (recordsToData pf rec hl) as [[[c r]|]| |] eqn:E; cbn [bind]; try discriminate. destruct (recsRun pf hl recs) as [[[cs' rs']|]| |]; cbn [bind]; try discriminate.
      intros [= <- <-]. apply rec_data in E. specialize (proj1 (IH cs' rs') eq_refl). unfold recOk in E. destruct hl.
      * intros [HL HF]. split; [simpl; lia|]. constructor; auto.
      * intros [-> HF]. split; [auto|]. constructor; [|auto]. tauto.
    + destruct hl.
      * intros (HL & H). destruct cs as [|c cs], rs as [|r rs]; simpl in HL; try lia; [inversion H|]. cbn [combine] in H. inversion H as [|? ? ? ? H1 H2]; subst.
        rewrite (proj2 (rec_data pf rec true c r)) by exact H1. cbn [bind]. rewrite (proj2 (IH cs rs)) by auto. reflexivity.
      * intros (-> & H). destruct rs as [|r rs]; [inversion H|]. inversion H; subst. rewrite (proj2 (rec_data pf rec false (-1) r)) by (split; auto). cbn [bind].
        rewrite (proj2 (IH [] rs)) by auto. reflexivity.
Qed.
Lemma recs_panic pf hl : forall recs, recsRun pf hl recs = Panic <-> hl = true /\ exists pre post cs rs, recs = pre ++ [] :: post /\ recsRun pf hl pre = Ok (Some (cs, rs)).
Proof.
  induction recs as [|rec recs IH]; cbn [recsRun].
  - split; [discriminate|]. intros (_ & pre & post & _ & _ & H & _). destruct pre; discriminate H.
  - split.
    + destruct (recordsToData pf rec hl) as [[[c r]|]| |] eqn:E; cbn [bind]; try discriminate.
      * destruct (recsRun pf hl recs) as [[[cs' rs']|]| |]; cbn [bind]; try discriminate. intros _. destruct (proj1 IH eq_refl) as (Hh & pre & post & cs & rs & -> & HR).
        split; [auto|]. exists (rec :: pre), post. cbn [recsRun app]. rewrite E. cbn [bind]. rewrite HR. cbn [bind]. eauto.
      * intros _. apply rec_panic in E as [-> ->]. split; [auto|]. exists [], recs, [], []. auto.
    + intros (-> & pre & post & cs & rs & H & HR). destruct pre as [|x pre].
      * injection H as -> ->. rewrite (proj2 (rec_panic pf [] true)) by auto. reflexivity.
      * injection H as <- ->. cbn [recsRun] in HR. destruct (recordsToData pf rec true) as [[[c r]|]| |]; cbn [bind] in HR; try discriminate.
        destruct (recsRun pf true pre) as [[[cs' rs']|]| |] eqn:EP; cbn [bind] in HR; try discriminate. cbn [bind]. rewrite (proj2 IH); [reflexivity|].
        split; [auto|]. exists pre, post, cs', rs'. auto.
Qed.
Lemma recs_not_div pf hl : forall recs, recsRun pf hl recs <> Diverge.
Proof.
  induction recs as [|rec recs IH]; cbn [recsRun]; [discriminate|]. pose proof (rec_not_div pf rec hl).
  destruct (recordsToData pf rec hl) as [[[c r]|]| |]; cbn [bind]; try congruence. destruct (recsRun pf hl recs) as [[[cs rs]|]| |]; cbn [bind]; congruence.
Qed.
Lemma rows_keys pf hl recs d k l : csvRows pf hl recs (MkData d k l) <-> csvRows pf hl recs (MkData d [] l).
Proof. reflexivity. Qed.
Theorem csv_data pf recs eof hh hl D : ParseCSV pf recs eof hh hl = Ok (Some D) <-> eof = true /\ csvDoc pf hh hl recs D.
Proof.
  assert (HG : forall hs rs, csvLoop pf rs eof hl hs [] [] = Ok (Some D) <-> eof = true /\ Keys D = hs /\ csvRows pf hl rs D).
  { intros hs rs. rewrite csv_loop. split.
    - destruct (recsRun pf hl rs) as [[[cs ds]|]| |] eqn:E; cbn [bind]; try discriminate. destruct eof; [|discriminate]. intros [= <-]. apply recs_run in E. cbn [app]. auto.
    - intros (-> & HK & HR). destruct D as [d k l]. simpl in HK. subst. rewrite (proj2 (recs_run pf hl rs l d)) by exact HR. reflexivity. }
  unfold ParseCSV, csvDoc. destruct hh; [|rewrite HG; reflexivity]. destruct recs as [|h t].
  - split; [discriminate|]. intros (_ & h & t & H & _). discriminate H.
  - destruct hl.
    + destruct h as [|k h]; cbn [length Nat.ltb Nat.leb].
      * split; [discriminate|]. intros (_ & h & t' & [= <- <-] & (k & Hk) & _). discriminate Hk.
      * rewrite HG. cbn [skipn]. split.
        -- intros (He & HK & HR). split; [auto|]. exists (k :: h), t. split; [auto|]. split; [exists k; congruence|auto].
        -- intros (He & h0 & t0 & [= <- <-] & (k0 & [= <- Hk]) & HR). auto.
    + cbn [Nat.ltb Nat.leb]. rewrite HG. cbn [skipn]. split.
      * intros (He & HK & HR). split; [auto|]. exists h, t. auto.
      * intros (He & h0 & t0 & [= <- <-] & Hk & HR). auto.
Qed.
Theorem csv_panic pf recs eof hh hl : ParseCSV pf recs eof hh hl = Panic <-> hl = true /\ exists pre post, recs = pre ++ [] :: post /\ (pre = [] \/ exists D, csvDoc pf hh true pre D).
Proof.
  assert (HG : forall hs rs, csvLoop pf rs eof hl hs [] [] = Panic <-> hl = true /\ exists pre post cs ds, rs = pre ++ [] :: post /\ csvRows pf true pre (MkData ds hs cs)).
  { intros hs rs. rewrite csv_loop. split.
    - destruct (recsRun pf hl rs) as [[[cs ds]|]| |] eqn:E; cbn [bind]; try discriminate; [destruct eof; discriminate|]. intros _. apply recs_panic in E as (-> & pre & post & cs & ds & -> & HR).
      split; [auto|]. exists pre, post, cs, ds. split; [auto|]. apply recs_run in HR. exact HR.
    - intros (-> & pre & post & cs & ds & -> & HR). rewrite (proj2 (recs_panic pf true (pre ++ [] :: post))); [reflexivity|]. split; [auto|]. exists pre, post, cs, ds. split; [auto|]. apply recs_run. exact HR. }
  unfold ParseCSV, csvDoc. destruct hh.
  - destruct recs as [|h t].
    + split; [discriminate|]. intros (_ & pre & post & H & _). destruct pre; discriminate H.
    + destruct hl.
      * destruct h as [|k h]; cbn [length Nat.ltb Nat.leb].
        -- split; [intros _; split; [auto|]; exists [], t; auto|auto].
        -- rewrite HG. cbn [skipn]. split.
           ++ intros (_ & pre & post & cs & ds & -> & HR). split; [auto|]. exists ((k :: h) :: pre), post. split; [auto|]. right. exists (MkData ds h cs), (k :: h), pre. split; [auto|]. split; [exists k; auto|exact HR].
           ++ intros (_ & pre & post & H & HP). split; [auto|]. destruct pre as [|x pre]; [discriminate H|]. injection H as <- ->. destruct HP as [HP|(D & h0 & t0 & [= <- <-] & (k0 & [= _ Hk]) & HR)]; [discriminate HP|].
              destruct D as [d ks l]. simpl in Hk. subst ks. eauto 8.
      * cbn [Nat.ltb Nat.leb]. rewrite HG. split; intros (H & _); discriminate H.
  - rewrite HG. split.
    + intros (-> & pre & post & cs & ds & -> & HR). split; [auto|]. exists pre, post. split; [auto|]. right. exists (MkData ds [] cs). auto.
    + intros (-> & pre & post & -> & [->|([d k l] & HK & HR)]); (split; [auto|]).
      * exists [], post, [], []. split; [auto|]. split; [auto|constructor].
      * simpl in HK. subst k. exists pre, post, l, d. auto.
Qed.
Theorem csv_terminates pf recs eof hh hl : ParseCSV pf recs eof hh hl <> Diverge.
Proof.
  assert (HG : forall hs rs, csvLoop pf rs eof hl hs [] [] <> Diverge).
  { intros hs rs. rewrite csv_loop. pose proof (recs_not_div pf hl rs). destruct (recsRun pf hl rs) as [[[cs ds]|]| |]; cbn [bind]; try congruence. destruct eof; discriminate. }
  unfold ParseCSV. destruct hh; [|apply HG]. destruct recs as [|h t]; [discriminate|]. destruct (Nat.ltb _ _); [discriminate|apply HG].
Qed.

(** ** Reading CSV text *)
Lemma trim_skip k : forall a t, length a = k -> trimFrom k (a ++ t) = trimFrom 0 t.
Proof. induction k as [|k IH]; intros a t H; destruct a as [|c a]; try discriminate H; [reflexivity|]. cbn [app trimFrom]. apply IH. simpl in H. lia. Qed.
Lemma trim_white w t : In w whiteSpaces -> trimLeft (w ++ t) = trimLeft t.
Proof.
  intros Hw. unfold trimLeft. pose proof (spaceLen_app w t Hw) as HS. destruct (white_len w Hw) as (c & a & ->). cbn [app trimFrom]. cbn [app] in HS. rewrite HS. cbn [length].
  apply trim_skip. reflexivity.
Qed.
Lemma trim_none t : spaceLen t = O -> trimLeft t = t.
Proof. intros H. destruct t as [|c t]; [reflexivity|]. unfold trimLeft. cbn [trimFrom]. rewrite H. reflexivity. Qed.
Lemma trim_blank b t : blank b -> trimLeft (b ++ t) = trimLeft t.
Proof. induction 1; auto. rewrite <- app_assoc, trim_white; auto. Qed.
Lemma space_none t : spaceLen t = O <-> ~ exists w r, In w whiteSpaces /\ t = w ++ r.
Proof.
  split.
  - intros H (w & r & Hw & ->). rewrite (spaceLen_app w r Hw) in H. destruct (white_len w Hw) as (c & a & ->). discriminate H.
  - intros H. destruct (spaceLen t) as [|n] eqn:E; auto. apply spaceLen_pos in E as (w & b & Hw & -> & _). exfalso. apply H. eauto.
Qed.
Lemma unindent_exists : forall n k, (length k <= n)%nat -> exists k', unindented k k'.
Proof.
  induction n as [|n IH]; intros k Hn.
  - destruct k; [|simpl in Hn; lia]. exists [], []. split; [constructor|]. split; [auto|]. intros (w & r & Hw & H). destruct (white_len w Hw) as (c & a & ->). discriminate H.
  - destruct (spaceLen k) as [|m] eqn:E.
    + exists k, []. split; [constructor|]. split; [auto|]. apply space_none. exact E.
    + apply spaceLen_pos in E as (w & b & Hw & -> & HL). destruct (IH b) as (k' & x & Hx & -> & Hk); [rewrite app_length in Hn; lia|].
      exists k', (w ++ x). split; [constructor; auto|]. split; [rewrite app_assoc; auto|auto].
Qed.
Lemma unindent_trim k k' : unindented k k' -> trimLeft k = k'.
Proof. intros (b & Hb & -> & Hn). rewrite trim_blank by auto. apply trim_none, space_none. exact Hn. Qed.
Lemma trim_unindented k : unindented k (trimLeft k).
Proof. destruct (unindent_exists (length k) k (Nat.le_refl _)) as (k' & H). rewrite (unindent_trim k k' H). exact H. Qed.
Lemma unindent_nil k : trimLeft k = [] <-> blank k.
Proof.
  split.
  - intros H. pose proof (trim_unindented k) as (b & Hb & HE & _). rewrite H, app_nil_r in HE. congruence.
  - intros H. rewrite <- (app_nil_r k), trim_blank; auto.
Qed.
Lemma inner_high c a x b : In (c :: a ++ x :: b) whiteSpaces -> 128 <= byteOf x.
Proof.
  intros H. assert (HC : forallb (fun w => match w with [] => true | _ :: t => forallb (fun y => 128 <=? byteOf y) t end) whiteSpaces = true) by (vm_compute; reflexivity).
  rewrite forallb_forall in HC. specialize (HC _ H). cbn iota beta in HC. rewrite forallb_forall in HC. apply Z.leb_le, HC. apply in_app_iff. right. left. auto.
Qed.
Lemma first_high c y m : In (c :: y :: m) whiteSpaces -> 128 <= byteOf c.
Proof.
  intros H. assert (HC : forallb (fun w => match w with x :: _ :: _ => 128 <=? byteOf x | _ => true end) whiteSpaces = true) by (vm_compute; reflexivity).
  rewrite forallb_forall in HC. specialize (HC _ H). cbn iota beta in HC. apply Z.leb_le, HC.
Qed.
(** trimming the fields of a line does not reach past the separator *)
Lemma trim_field c rest : byteOf c < 128 -> forall f, (In [c] whiteSpaces -> ~ blank f) -> trimLeft (f ++ c :: rest) = trimLeft f ++ c :: rest.
Proof.
  intros Hc f Hf. pose proof (trim_unindented f) as (b & Hb & HE & Hn). set (k := trimLeft f) in *. clearbody k. subst f. rewrite <- app_assoc, trim_blank by auto.
  apply trim_none, space_none. intros (w & r & Hw & H). symmetry in H. apply app_cases in H as [(m & ->)|(x & m & HX & HR)].
  - apply Hn. eauto.
  - injection HR as <- _. destruct k as [|y k].
    + destruct (white_len w Hw) as (z & t & ->). simpl in HX. injection HX as -> ->. destruct m as [|y m].
      * apply (Hf Hw). rewrite app_nil_r. exact Hb.
      * apply first_high in Hw. lia.
    + subst w. apply inner_high in Hw. lia.
Qed.
Lemma cut_some c a b : ~ In c a -> cutAt [c] (a ++ c :: b) = Some (a, b).
Proof.
  induction a as [|x a IH]; intros H; cbn [app cutAt hasPrefix].
  - rewrite Ascii.eqb_refl. reflexivity.
  - destruct (Ascii.eqb_spec c x) as [->|Hx]; [exfalso; apply H; left; auto|]. cbn [andb]. rewrite IH; [reflexivity|]. intros Hin. apply H. right. auto.
Qed.
Lemma cut_none c a : ~ In c a -> cutAt [c] a = None.
Proof.
  induction a as [|x a IH]; intros H; cbn [cutAt hasPrefix]; [reflexivity|].
  destruct (Ascii.eqb_spec c x) as [->|Hx]; [exfalso; apply H; left; auto|]. cbn [andb]. rewrite IH; [reflexivity|]. intros Hin. apply H. right. auto.
Qed.
Lemma trim_in c f : In c (trimLeft f) -> In c f.
Proof. intros H. pose proof (trim_unindented f) as (b & _ & HE & _). rewrite HE. apply in_app_iff. auto. Qed.
Definition fieldOk (c : ascii) (f : text) : Prop := ~ In c f /\ (In [c] whiteSpaces -> ~ blank f).
Lemma csv_fields c : byteOf c < 128 -> forall fs f fuel, (length fs < fuel)%nat -> Forall (fieldOk c) (f :: fs) -> csvFields fuel [c] (joinT (f :: fs) [c]) = map trimLeft (f :: fs).
Proof.
  intros Hc. induction fs as [|g fs IH]; intros f fuel Hf HF; (destruct fuel as [|fuel]; [simpl in Hf; lia|]); inversion HF as [|? ? [H1 H2] H3]; subst; cbn [csvFields].
  - cbn [joinT map]. rewrite cut_none; [reflexivity|]. intros Hin. apply trim_in in Hin. auto.
  - rewrite join_cons. cbn [app]. rewrite trim_field by auto. rewrite cut_some; [|intros Hin; apply trim_in in Hin; auto]. cbn [map]. f_equal. apply IH; [simpl in Hf; lia|auto].
Qed.
Lemma join_len (c : ascii) : forall fs f, (length fs <= length (joinT (f :: fs) [c]))%nat.
Proof. induction fs as [|g fs IH]; intros f; [simpl; lia|]. rewrite join_cons, !app_length. specialize (IH g). simpl in *. lia. Qed.
Lemma text_lines_csv : forall ls cur last, (forall l, In l ls -> ~ In NL l) -> ~ In NL last ->
  csvTextLines cur (unlines ls last) true = match ls with [] => [dropCR (cur ++ last)] | l :: t => dropCR (cur ++ l) :: map dropCR (t ++ [last]) end.
Proof.
  assert (HL : forall l cur rest, ~ In NL l -> csvTextLines cur (l ++ NL :: rest) true = dropCR (cur ++ l) :: csvTextLines [] rest true).
  { induction l as [|c l IH]; intros cur rest H; cbn [app csvTextLines]; [rewrite Ascii.eqb_refl, app_nil_r; auto|].
    destruct (Ascii.eqb_spec c NL) as [->|Hc]; [exfalso; apply H; left; auto|]. rewrite IH; [rewrite <- app_assoc; auto|]. intros Hin. apply H. right. auto. }
  assert (HE : forall l cur, ~ In NL l -> csvTextLines cur l true = [dropCR (cur ++ l)]).
  { induction l as [|c l IH]; intros cur H; cbn [csvTextLines]; [rewrite app_nil_r; auto|].
    destruct (Ascii.eqb_spec c NL) as [->|Hc]; [exfalso; apply H; left; auto|]. rewrite IH; [rewrite <- app_assoc; auto|]. intros Hin. apply H. right. auto. }
  induction ls as [|l ls IH]; intros cur last Hls Hlast; [apply HE; auto|]. rewrite unlines_cons, HL by (apply Hls; left; auto). f_equal.
  rewrite IH; [|intros x Hx; apply Hls; right; auto|auto]. destruct ls; reflexivity.
Qed.
Lemma dropCR_id t : ~ In "013"%char t -> dropCR t = t.
Proof.
  intros H. unfold dropCR. destruct (rev t) as [|c r] eqn:E; [apply (f_equal (@rev ascii)) in E; rewrite rev_involutive in E; auto|].
  destruct (Ascii.eqb_spec c "013") as [->|]; auto. exfalso. apply H. apply in_rev. rewrite E. left. auto.
Qed.
Lemma plain_text c recs : byteOf c < 128 -> recs <> [] -> Forall (fun rec => rec <> [] /\ joinT rec [c] <> [] /\ Forall (fun f => fieldOk c f /\ ~ In NL f /\ ~ In "013"%char f) rec) recs ->
  c <> NL -> c <> "013"%char ->
  csvPlain [c] (joinT (map (fun rec => joinT rec [c]) recs) [NL]) true = let '(a, b) := sameFields None (map (map trimLeft) recs) in (a, b).
Proof.
  intros Hc Hne HF HcN HcR. unfold csvPlain.
  assert (HN : forall d rec, d <> c -> Forall (fun f => ~ In d f) rec -> ~ In d (joinT rec [c])).
  { intros d rec Hd. induction rec as [|f rec IH]; intros H; [simpl; tauto|]. inversion H; subst. destruct rec as [|g rec]; [simpl; auto|].
    rewrite join_cons, !in_app_iff. intros [HI|[HI|HI]]; [auto|destruct HI as [HI|[]]; congruence|]. apply IH; auto. }
  set (ls := map (fun rec => joinT rec [c]) recs).
  assert (Hls : forall l, In l ls -> l <> [] /\ ~ In NL l /\ ~ In "013"%char l).
  { intros l Hl. apply in_map_iff in Hl as (rec & <- & Hrec). rewrite Forall_forall in HF. destruct (HF rec Hrec) as (_ & Hj & Hfs). split; [auto|].
    split; apply HN; auto; (apply Forall_forall; intros f Hf; rewrite Forall_forall in Hfs; apply Hfs in Hf; tauto). }
  assert (HT : csvTextLines [] (joinT ls [NL]) true = ls).
  { destruct (@exists_last _ ls) as (a & x & E); [unfold ls; destruct recs; [congruence|discriminate]|]. rewrite E, join_unlines, text_lines_csv.
    - destruct a as [|l a]; cbn [app map].
      + rewrite dropCR_id; [auto|]. apply Hls. rewrite E. left. auto.
      + rewrite dropCR_id by (apply Hls; rewrite E; left; auto). f_equal. rewrite (map_ext_in dropCR (fun y => y)); [apply map_id|]. intros y Hy. apply dropCR_id. apply Hls. rewrite E. right. auto.
    - intros l Hl. apply Hls. rewrite E. apply in_app_iff. auto.
    - apply Hls. rewrite E. apply in_app_iff. right. left. auto. }
  rewrite HT.
  assert (HFI : filter (fun l : text => match l with [] => false | _ => true end) ls = ls).
  { clear HT. induction ls as [|l ls' IH]; [reflexivity|]. cbn [filter]. destruct (Hls l) as [Hl _]; [left; auto|]. destruct l; [congruence|]. f_equal. apply IH. intros y Hy. apply Hls. right. auto. }
  rewrite HFI.
  assert (HM : map (fun l => csvFields (S (length l)) [c] l) ls = map (map trimLeft) recs).
  { unfold ls. rewrite map_map. apply map_ext_in. intros rec Hrec. rewrite Forall_forall in HF. destruct (HF rec Hrec) as (Hr & _ & Hfs). destruct rec as [|f fs]; [congruence|].
    apply csv_fields; auto; [pose proof (join_len c fs f); lia|]. eapply Forall_impl; [|exact Hfs]. intros a [Ha _]. exact Ha. }
  rewrite HM. destruct (sameFields None (map (map trimLeft) recs)) as [a b]. rewrite andb_true_r. reflexivity.
Qed.

(** ** The round trip *)
Definition csvRec (lab : Z) (v : list f64) : list text := decZ lab :: map fmtF v.
Lemma csv_lines (D : DataBunch text) sep : forall rows i, skipn i (Data D) = rows ->
  csvLines D sep (Z.of_nat i) rows = Ok (zipWith (fun lab v => joinT (csvRec lab v) sep) (skipn i (labelsOf D)) rows).
Proof.
  induction rows as [|v rows IH]; intros i H; cbn [csvLines].
  - unfold zipWith. destruct (skipn i (labelsOf D)); reflexivity.
  - assert (Hi : (i < length (Data D))%nat).
    { destruct (le_lt_dec (length (Data D)) i) as [HL|HL]; auto. rewrite skipn_all2 in H by auto. discriminate H. }
    destruct (label_ok D i Hi) as (lab & -> & HN). cbn [bind]. replace (Z.of_nat i + 1) with (Z.of_nat (S i)) by lia.
    rewrite (IH (S i)).
    + cbn [bind]. rewrite (skipn_nth _ _ _ HN). reflexivity.
    + destruct (nth_error (Data D) i) as [x|] eqn:E; [|apply nth_error_None in E; lia]. rewrite (skipn_nth _ _ _ E) in H. congruence.
Qed.
Definition csvRecs (D : DataBunch text) : list (list text) := (if hasKeys D then [tx "Labels" :: Keys D] else []) ++ zipWith csvRec (labelsOf D) (Data D).
Lemma CSV_text D s : CSV (Some D) s = if match Data D with [] => true | _ => false end then Panic else Ok (joinT (map (fun rec => joinT rec (sepOf s)) (csvRecs D)) [NL]).
Proof.
  unfold CSV, csvRecs, hasKeys. fold (sepOf s). destruct (Data D) as [|r0 rs] eqn:HD; [reflexivity|]. change (idx (r0 :: rs) 0) with (Ok r0). cbn [bind].
  pose proof (csv_lines D (sepOf s) (Data D) 0 eq_refl) as HL. cbn [Z.of_nat skipn] in HL. rewrite HD in HL. rewrite HL. cbn [bind]. do 2 f_equal.
  rewrite map_app. f_equal; [destruct (Nat.eqb _ _); reflexivity|]. unfold zipWith. rewrite map_map. reflexivity.
Qed.
Theorem csv_write D s : CSV (Some D) s = Panic <-> Data D = [].
Proof. rewrite CSV_text. destruct (Data D); split; auto; discriminate. Qed.
Theorem string_write OD : exists t, StringDB OD = Ok t.
Proof.
  destruct OD as [D|]; [|exists []; auto]. unfold StringDB.
  assert (HG : forall rows i, skipn i (Data D) = rows -> exists ls, strLines D (Z.of_nat i) rows = Ok ls).
  { induction rows as [|v rows IH]; intros i H; cbn [strLines]; [eauto|].
    assert (Hi : (i < length (Data D))%nat).
    { destruct (le_lt_dec (length (Data D)) i) as [HL|HL]; auto. rewrite skipn_all2 in H by auto. discriminate H. }
    destruct (label_ok D i Hi) as (lab & -> & HN). cbn [bind]. replace (Z.of_nat i + 1) with (Z.of_nat (S i)) by lia.
    destruct (IH (S i)) as (ls & ->); [|cbn [bind]; eauto].
    destruct (nth_error (Data D) i) as [x|] eqn:E; [|apply nth_error_None in E; lia]. rewrite (skipn_nth _ _ _ E) in H. congruence. }
  destruct (HG (Data D) 0%nat eq_refl) as (ls & HE). cbn [Z.of_nat] in HE. rewrite HE. cbn [bind]. eauto.
Qed.
Lemma fmt_trim x : trimLeft (fmtF x) = if is_finite x then fmtF x else if is_nan x then tx "NaN" else if Bsign x then tx "-Inf" else tx "+Inf".
Proof.
  destruct (is_finite x) eqn:Hf.
  - apply trim_none, space_none. intros (w & r & Hw & H). assert (HS : solid (fmtF x)).
    { apply solid_safe. intros c Hc. rewrite (fmt_finite x Hf) in Hc. apply plain_safe. eapply fixed_plain; eauto. }
    exact (HS [] w r Hw H).
  - destruct x as [s|s| |]; try discriminate; [|reflexivity]. destruct s; reflexivity.
Qed.
Lemma read_any pf x : ParserOk pf -> exists x', pf (trimLeft (fmtF x)) = Some x' /\ asPrinted x x'.
Proof.
  intros HP. rewrite fmt_trim. destruct (is_finite x) eqn:Hf; [apply read_printed; auto|]. exists x. split; [|unfold asPrinted; rewrite Hf; auto].
  destruct x as [s|s| |]; try discriminate; cbn [is_nan Bsign]; [destruct s|]; [apply (po_ninf pf HP)|apply (po_pinf pf HP)|apply (po_nan pf HP)].
Qed.
Definition fmtChars : text := tx "0123456789 -.+NaInf".
Lemma fmt_chars x c : In c (fmtF x) -> isDigit c = true \/ In c (tx " -.+NaInf").
Proof.
  assert (HP : plainChar c = true -> isDigit c = true \/ In c (tx " -.+NaInf")).
  { unfold plainChar. rewrite !orb_true_iff. intros [[H|H]|H]; [auto|right; apply Ascii.eqb_eq in H as ->; cbn; tauto..]. }
  destruct (is_finite x) eqn:Hf.
  - rewrite (fmt_finite x Hf). intros H. apply HP. eapply fixed_plain; eauto.
  - intros H. right. destruct x as [s|s| |]; try discriminate; [destruct s|]; cbn in H; cbn; intuition.
Qed.
Lemma number_field c t : csvSep c -> (forall d, In d t -> isDigit d = true \/ In d (tx " -.+NaInf")) -> ~ In c t /\ ~ In NL t /\ ~ In "013"%char t /\ ~ In """"%char t.
Proof.
  intros (H1 & H2 & H3 & H4 & H5 & H6 & _) Ht.
  assert (HG : forall d, isDigit d = false -> ~ In d (tx " -.+NaInf") -> ~ In d t) by (intros d Ha Hb Hin; destruct (Ht d Hin) as [H|H]; [congruence|auto]).
  assert (HC : forall d, In d (tx " -.+NaInf") -> In d (tx " -.+NaInfLabels")) by (intros d; cbn; tauto).
  split; [apply HG; auto|]. repeat split; apply HG; auto; cbn; intros H; repeat destruct H as [H|H]; try discriminate; destruct H.
Qed.
Lemma dec_chars z d : In d (decZ z) -> isDigit d = true \/ In d (tx " -.+NaInf").
Proof. intros H. apply decZ_chars in H as [H| ->]; [auto|right; cbn; tauto]. Qed.
Lemma dec_not_blank t : t <> [] -> solid t -> ~ blank t.
Proof. intros Hne Hs Hb. apply words_none in Hb. pose proof (words_det _ _ _ Hb (words_solid t Hne Hs)). discriminate. Qed.
Lemma fmt_not_blank x : ~ blank (fmtF x).
Proof.
  intros H. apply unindent_nil in H. rewrite fmt_trim in H. destruct (is_finite x) eqn:Hf.
  - rewrite (fmt_finite x Hf) in H. pose proof (fixed_len (Bsign x) (tenThousands x)) as HL. rewrite H in HL. simpl in HL. lia.
  - destruct (is_nan x); [discriminate|]. destruct (Bsign x); discriminate.
Qed.
Lemma dec_trim z : trimLeft (decZ z) = decZ z.
Proof.
  apply trim_none, space_none. intros (w & r & Hw & H). assert (HS : solid (decZ z)) by (apply solid_safe; intros c Hc; apply plain_safe; eapply dec_plain; eauto).
  exact (HS [] w r Hw H).
Qed.
Lemma recs_ok c D : csvSep c -> Forall (csvKey c) (Keys D) \/ hasKeys D = false -> Data D <> [] ->
  csvRecs D <> [] /\ Forall (fun rec => rec <> [] /\ joinT rec [c] <> [] /\ Forall (fun f => fieldOk c f /\ ~ In NL f /\ ~ In "013"%char f) rec) (csvRecs D) /\
  Forall (fun rec => Forall (fun f => ~ In """"%char f) rec) (csvRecs D).
Proof.
  intros HS HK HD. assert (HJ : forall (f : text) fs, f <> [] -> joinT (f :: fs) [c] <> []).
  { intros f fs Hf. destruct fs as [|g fs]; [exact Hf|]. rewrite join_cons. destruct f; [congruence|discriminate]. }
  assert (HL : fieldOk c (tx "Labels") /\ ~ In NL (tx "Labels") /\ ~ In "013"%char (tx "Labels") /\ ~ In """"%char (tx "Labels")).
  { destruct HS as (H1 & H2 & H3 & H4 & H5 & H6 & _). split; [split|].
    - intros H. apply H6. cbn. cbn in H. tauto.
    - intros _. apply dec_not_blank; [discriminate|]. apply solid_safe. intros d Hd. cbn in Hd. repeat destruct Hd as [<-|Hd]; try reflexivity. destruct Hd.
    - repeat split; cbn; intros H; repeat destruct H as [H|H]; try discriminate; destruct H. }
  assert (HR : forall lab v, Forall (fun f => (fieldOk c f /\ ~ In NL f /\ ~ In "013"%char f) /\ ~ In """"%char f) (csvRec lab v)).
  { intros lab v. constructor.
    - destruct (number_field c (decZ lab) HS (dec_chars lab)) as (Ha & Hb & Hc & Hd). repeat split; auto. intros _. apply dec_not_blank; [apply decZ_nonempty|].
      apply solid_safe. intros d Hd'. apply plain_safe. eapply dec_plain; eauto.
    - apply Forall_forall. intros f Hf. apply in_map_iff in Hf as (x & <- & _). destruct (number_field c (fmtF x) HS (fmt_chars x)) as (Ha & Hb & Hc & Hd). repeat split; auto. intros _. apply fmt_not_blank. }
  assert (HKs : hasKeys D = true -> Forall (fun f => (fieldOk c f /\ ~ In NL f /\ ~ In "013"%char f) /\ ~ In """"%char f) (tx "Labels" :: Keys D)).
  { intros HH. destruct HK as [HK|HK]; [|congruence]. constructor; [tauto|]. eapply Forall_impl; [|exact HK]. intros k (A1 & A2 & A3 & A4 & A5). repeat split; auto. }
  split; [|split].
  - unfold csvRecs. destruct (hasKeys D); [discriminate|]. cbn [app]. pose proof (zip_len csvRec (labelsOf D) (Data D) (labels_len D)) as HZ. destruct (zipWith csvRec _ _); [|discriminate].
    destruct (Data D); [congruence|discriminate].
  - apply Forall_app. split.
    + destruct (hasKeys D) eqn:EK; [|constructor]. constructor; [|constructor]. split; [discriminate|]. split; [apply HJ; discriminate|].
      eapply Forall_impl; [|exact (HKs eq_refl)]. intros a Ha. first [exact (proj1 Ha)|exact (proj2 Ha)].
    + apply Forall_forall. intros rec Hrec. apply zip_in in Hrec as (lab & v & -> & _). split; [discriminate|]. split; [apply HJ, decZ_nonempty|].
      eapply Forall_impl; [|exact (HR lab v)]. intros a Ha. first [exact (proj1 Ha)|exact (proj2 Ha)].
  - apply Forall_app. split.
    + destruct (hasKeys D) eqn:EK; [|constructor]. constructor; [|constructor]. eapply Forall_impl; [|exact (HKs eq_refl)]. intros a Ha. first [exact (proj1 Ha)|exact (proj2 Ha)].
    + apply Forall_forall. intros rec Hrec. apply zip_in in Hrec as (lab & v & -> & _). eapply Forall_impl; [|exact (HR lab v)]. intros a Ha. first [exact (proj1 Ha)|exact (proj2 Ha)].
Qed.
Lemma no_quote c recs : c <> """"%char -> Forall (fun rec => Forall (fun f => ~ In """"%char f) rec) recs -> ~ In """"%char (joinT (map (fun rec => joinT rec [c]) recs) [NL]).
Proof.
  intros Hc HF.
  assert (HJ : forall (s : ascii) (l : list text), s <> """"%char -> Forall (fun f => ~ In """"%char f) l -> ~ In """"%char (joinT l [s])).
  { intros s l Hs. induction l as [|f l IH]; intros H; [simpl; tauto|]. inversion H; subst. destruct l as [|g l]; [simpl; auto|].
    rewrite join_cons, !in_app_iff. intros [HI|[HI|HI]]; [auto|destruct HI as [HI|[]]; congruence|]. apply IH; auto. }
  apply HJ; [discriminate|]. apply Forall_forall. intros l Hl. apply in_map_iff in Hl as (rec & <- & Hrec). apply HJ; auto. rewrite Forall_forall in HF. auto.
Qed.
Lemma same_all n : forall recs, Forall (fun r : list text => length r = n) recs -> sameFields (Some n) recs = (recs, true) /\ sameFields None recs = (recs, true).
Proof.
  induction 1 as [|r recs Hr HF [IH1 IH2]]; [auto|]. cbn [sameFields]. rewrite Hr, Nat.eqb_refl, IH1. auto.
Qed.
Lemma same_not n : forall recs, Exists (fun r : list text => length r <> n) recs -> exists pre x post, recs = pre ++ x :: post /\ sameFields (Some n) recs = (pre, false) /\ Forall (fun r => length r = n) pre.
Proof.
  induction recs as [|r recs IH]; intros H; [inversion H|]. cbn [sameFields]. destruct (Nat.eqb_spec (length r) n) as [E|E].
  - inversion H as [? ? HX|? ? HX]; subst; [congruence|]. destruct (IH HX) as (pre & x & post & -> & HS & HF). exists (r :: pre), x, post. rewrite HS. split; [auto|]. split; [auto|]. constructor; auto.
  - exists [], r, recs. auto.
Qed.
Lemma rows_printed pf : ParserOk pf -> forall labs rows, length labs = length rows -> Forall int64 labs ->
  exists rows', recsRun pf true (map (map trimLeft) (zipWith csvRec labs rows)) = Ok (Some (labs, rows')) /\ Forall2 (Forall2 asPrinted) rows rows'.
Proof.
  intros HP. induction labs as [|lab labs IH]; intros rows HL Hl; destruct rows as [|v rows]; try discriminate HL; [exists []; split; [reflexivity|constructor]|].
  inversion Hl; subst. destruct (IH rows) as (rows' & HR & HF); auto.
  assert (HV : exists v', values pf (map trimLeft (map fmtF v)) v' /\ Forall2 asPrinted v v').
  { clear -HP. induction v as [|x v (v' & Ha & Hb)]; [exists []; split; constructor|]. destruct (read_any pf x HP) as (x' & Hx & Hp). exists (x' :: v'). split; constructor; auto. }
  destruct HV as (v' & Hv & Hp). exists (v' :: rows'). split; [|constructor; auto]. unfold zipWith in *. cbn [combine map fst snd recsRun csvRec].
  rewrite (proj2 (rec_data pf _ true lab v')).
  - cbn [bind]. rewrite HR. reflexivity.
  - exists (decZ lab), (map trimLeft (map fmtF v)). rewrite dec_trim. split; [auto|]. split; [apply atoi_dec; auto|auto].
Qed.
Lemma int_labels (D : DataBunch text) : Forall int64 (Labels D) -> Forall int64 (labelsOf D).
Proof. unfold labelsOf. destruct (Nat.eqb _ _); [auto|]. intros _. apply Forall_forall. intros x Hx. apply repeat_spec in Hx as ->. unfold int64. lia. Qed.
Lemma keys_unindented ks : Forall2 unindented ks (map trimLeft ks).
Proof. induction ks; constructor; auto. apply trim_unindented. Qed.
Lemma sep_delim c : csvSep c -> goodDelim [c].
Proof.
  intros (A1 & A2 & A3 & A4 & _ & _ & A5). unfold goodDelim. split; [discriminate|]. repeat split.
  - intros [H|[]]; auto.
  - intros [H|[]]; auto.
  - intros [H|[]]; auto.
  - intros [= H]. auto.
  - discriminate.
Qed.
Section Trip.
Variables (pf : parser) (rd : text -> text -> bool -> list (list text) * bool) (D : DataBunch text) (s : option text) (c : ascii) (t : text).
Hypotheses (HP : ParserOk pf) (HR : ReaderOk rd) (Hs : sepOf s = [c]) (HS : csvSep c) (HT : CSV (Some D) s = Ok t) (HI : Forall int64 (Labels D))
  (HK : Forall (csvKey c) (Keys D) \/ hasKeys D = false).
Lemma trip_start : exists r0 rs, Data D = r0 :: rs /\
  DataBunchFromCSVFile pf rd (Some (t, true)) (hasKeys D) true s =
  (let '(a, b) := sameFields None (map (map trimLeft) (csvRecs D)) in ParseCSV pf a b (hasKeys D) true).
Proof.
  pose proof HT as HT'. rewrite CSV_text in HT'. destruct (Data D) as [|r0 rs] eqn:HD; [discriminate|]. injection HT' as HE. exists r0, rs. split; [auto|].
  destruct (recs_ok c D HS HK) as (H1 & H2 & H3); [rewrite HD; discriminate|].
  unfold DataBunchFromCSVFile. fold (sepOf s). rewrite Hs. rewrite Hs in HE. pose proof (sep_delim c HS) as HG. destruct HS as (A1 & A2 & A3 & A4 & _).
  rewrite HR; [|exact HG|rewrite <- HE; apply no_quote; auto]. rewrite <- HE, plain_text by auto. destruct (sameFields None (map (map trimLeft) (csvRecs D))) as [a b]. reflexivity.
Qed.
Theorem csv_round_trip : (forall r r', In r (Data D) -> In r' (Data D) -> length r = length r') ->
  exists D', DataBunchFromCSVFile pf rd (Some (t, true)) (hasKeys D) true s = Ok (Some D') /\
  (if hasKeys D then Forall2 unindented (Keys D) (Keys D') else Keys D' = []) /\ printedRows (length (Data D)) D D'.
Proof.
  intros HL. destruct trip_start as (r0 & rs & HD & ->).
  assert (HA : Forall (fun r : list text => length r = S (length r0)) (map (map trimLeft) (csvRecs D))).
  { apply Forall_forall. intros rec Hrec. apply in_map_iff in Hrec as (rec0 & <- & Hrec). rewrite map_length. unfold csvRecs in Hrec. apply in_app_iff in Hrec as [Hrec|Hrec].
    - unfold hasKeys in Hrec. rewrite HD in Hrec. destruct (Nat.eqb_spec (length (Keys D)) (length r0)) as [E|E]; [|destruct Hrec]. destruct Hrec as [<-|[]]. simpl. lia.
    - apply zip_in in Hrec as (lab & v & -> & _ & Hv). unfold csvRec. cbn [length]. rewrite map_length. f_equal. apply HL; [exact Hv|rewrite HD; left; auto]. }
  destruct (same_all _ _ HA) as [_ ->].
  destruct (rows_printed pf HP (labelsOf D) (Data D) (labels_len D) (int_labels D HI)) as (rows' & HRR & HF).
  exists (MkData rows' (if hasKeys D then map trimLeft (Keys D) else []) (labelsOf D)). split; [|split].
  - apply csv_data. split; [auto|]. apply recs_run in HRR. unfold csvDoc, csvRecs. destruct (hasKeys D).
    + cbn [app map]. eexists _, _. split; [reflexivity|]. split; [|exact HRR]. exists (trimLeft (tx "Labels")). reflexivity.
    + cbn [app]. split; [reflexivity|exact HRR].
  - destruct (hasKeys D); [apply keys_unindented|reflexivity].
  - split; [cbn [Labels]; rewrite <- labels_len, firstn_all; reflexivity|]. cbn [Data]. rewrite firstn_all. exact HF.
Qed.
Theorem csv_ragged : (exists r r', In r (Data D) /\ In r' (Data D) /\ length r <> length r') ->
  DataBunchFromCSVFile pf rd (Some (t, true)) (hasKeys D) true s = Ok None.
Proof.
  intros HX. destruct trip_start as (r0 & rs & HD & ->).
  assert (HN : exists r, In r (Data D) /\ length r <> length r0).
  { destruct HX as (r & r' & Hr & Hr' & Hne). destruct (Nat.eq_dec (length r) (length r0)) as [E|E]; [exists r'; split; [auto|lia]|eauto]. }
  set (recs := zipWith csvRec (labelsOf D) (Data D)).
  assert (HE : Exists (fun r : list text => length r <> S (length r0)) (map (map trimLeft) recs)).
  { destruct HN as (r & Hr & Hne). apply Exists_exists. apply In_nth_error in Hr as (i & Hi).
    assert (Hlt : (i < length (labelsOf D))%nat) by (rewrite labels_len; apply nth_error_Some; intros HH; pose proof (eq_trans (eq_sym Hi) HH); discriminate).
    destruct (nth_error (labelsOf D) i) as [lab|] eqn:EL; [|apply nth_error_None in EL; lia].
    exists (map trimLeft (csvRec lab r)). split; [|unfold csvRec; cbn [map length]; rewrite !map_length; lia].
    apply in_map. unfold recs, zipWith. apply in_map_iff. exists (lab, r). split; [reflexivity|]. clear -Hi EL. revert Hi EL. generalize (Data D), (labelsOf D). revert i.
    induction i; intros [|x l] [|y m]; simpl; try discriminate; [intros [= ->] [= ->]; auto|]. intros Ha Hb. right. eauto. }
  (* the records before the first of another length are read, then the reader fails *)
  assert (HP1 : forall pre post, map (map trimLeft) recs = pre ++ post -> exists cs ds, recsRun pf true pre = Ok (Some (cs, ds))).
  { intros pre post HE2. destruct (rows_printed pf HP (labelsOf D) (Data D) (labels_len D) (int_labels D HI)) as (rows' & HRR & _). fold recs in HRR. rewrite HE2 in HRR. clear -HRR.
    revert HRR. generalize (labelsOf D), rows'. revert post. induction pre as [|x pre IH]; intros post cs ds H; [exists [], []; reflexivity|]. cbn [app recsRun] in H |- *.
    destruct (recordsToData pf x true) as [[[c r]|]| |]; cbn [bind] in H |- *; try discriminate. destruct (recsRun pf true (pre ++ post)) as [[[cs' ds']|]| |] eqn:E; cbn [bind] in H; try discriminate.
    destruct (IH post cs' ds') as (cs2 & ds2 & ->); [exact E|]. cbn [bind]. eauto. }
  assert (HHK : forall h, hasKeys D = true -> h = tx "Labels" :: Keys D -> length (map trimLeft h) = S (length r0)).
  { intros h Hh ->. rewrite map_length. unfold hasKeys in Hh. rewrite HD in Hh. apply Nat.eqb_eq in Hh. simpl. lia. }
  unfold csvRecs. fold recs. unfold ParseCSV. destruct (hasKeys D) eqn:EK.
  - cbn [app map sameFields].  specialize (HHK _ eq_refl eq_refl). cbn [map] in HHK. rewrite HHK. destruct (same_not _ _ HE) as (pre & x & post & HE2 & -> & _). cbn [length Nat.ltb Nat.leb].
    rewrite csv_loop. destruct (HP1 _ _ HE2) as (cs & ds & ->). reflexivity.
  - cbn [app]. assert (HF : exists q, map (map trimLeft) recs = q /\ exists a l, q = a :: l /\ length a = S (length r0)).
    { eexists. split; [reflexivity|]. unfold recs, zipWith. rewrite HD. pose proof (labels_len D) as HLL. rewrite HD in HLL. destruct (labelsOf D) as [|l0 ls]; [discriminate HLL|]. cbn [combine map fst snd csvRec].
      eexists _, _. split; [reflexivity|]. cbn [length]. rewrite !map_length. reflexivity. }
    destruct HF as (q & Hq & a & l & -> & Ha). rewrite Hq in HE, HP1 |- *. cbn [sameFields]. rewrite Ha. inversion HE as [? ? HX1|? ? HX1]; subst; [congruence|].
    destruct (same_not _ _ HX1) as (pre & x & post & -> & -> & _). rewrite csv_loop. destruct (HP1 (a :: pre) (x :: post) eq_refl) as (cs & ds & ->). reflexivity.
Qed.
End Trip.

(** ** Splitting *)
Lemma split_parts sep : sep <> [] -> forall n t cur, (length t <= n)%nat -> (forall a b, cur ++ t = a ++ sep ++ b -> (length cur <= length a)%nat) ->
  Forall (fun p => containsT p sep = false) (splitFrom sep 0 cur t).
Proof.
  intros Hsep.
  assert (HC : forall cur t, (forall a b, cur ++ t = a ++ sep ++ b -> (length cur <= length a)%nat) -> containsT cur sep = false).
  { intros cur t H. destruct (containsT cur sep) eqn:E; auto. apply containsT_iff in E as (a & b & ->). specialize (H a (b ++ t)). rewrite <- !app_assoc in H. specialize (H eq_refl).
    rewrite !app_length in H. destruct sep; [congruence|simpl in H; lia]. }
  induction n as [|n IH]; intros t cur Hn HI.
  - destruct t; [|simpl in Hn; lia]. cbn [splitFrom]. constructor; [eapply HC; eauto|constructor].
  - destruct t as [|c t]; [cbn [splitFrom]; constructor; [eapply HC; eauto|constructor]|]. cbn [splitFrom]. destruct (hasPrefix (c :: t) sep) eqn:E.
    + constructor; [eapply HC; eauto|]. apply hasPrefix_iff in E as (r & E). destruct sep as [|s0 sep]; [congruence|]. injection E as -> E. cbn [Nat.pred length].
      subst t. rewrite (split_skip _ (length sep) [] sep r eq_refl). apply IH; [simpl in Hn; rewrite app_length in Hn; lia|]. intros a b _. simpl. lia.
    + apply IH; [simpl in Hn; lia|]. intros a b H. rewrite <- app_assoc in H. cbn [app] in H. specialize (HI a b H). rewrite app_length. cbn [length].
      destruct (Nat.eq_dec (length cur) (length a)) as [HE|HE]; [|lia]. exfalso. assert (HF : c :: t = sep ++ b).
      { apply (f_equal (skipn (length cur))) in H. rewrite skipn_app, skipn_all, Nat.sub_diag in H. rewrite HE, skipn_app, skipn_all, Nat.sub_diag in H. exact H. }
      assert (HH : hasPrefix (c :: t) sep = true) by (apply hasPrefix_iff; eauto). congruence.
Qed.
(** [strings.Split]: the parts, joined, are the text, and the separator is in none of them *)
Theorem split_spec t sep : sep <> [] -> joinT (splitT t sep) sep = t /\ Forall (fun p => containsT p sep = false) (splitT t sep).
Proof. intros H. split; [apply splitT_join; auto|]. apply (split_parts sep H (length t) t []); [lia|]. intros a b _. simpl. lia. Qed.

(** ** Name files *)
Lemma drop_NL l : oneLine l -> dropNL (l ++ [NL]) = l.
Proof.
  unfold dropNL, oneLine. intros H. induction l as [|c l IH]; [reflexivity|]. cbn [app filter]. destruct (Ascii.eqb_spec c NL) as [->|Hc]; [exfalso; apply H; left; auto|].
  cbn [negb]. rewrite IH; [reflexivity|]. intros Hin. apply H. right. auto.
Qed.
Definition partsOf (sep s : text) : list text := if text_eqb sep sp then fieldsT s else splitT s sep.
Lemma parts_iff sep s ps : nameParts sep s ps <-> partsOf sep s = ps.
Proof. unfold nameParts, partsOf. destruct (text_eqb sep sp); [apply words_iff|]. split; congruence. Qed.
Fixpoint namesRun (sep : text) (ls : list text) : res (option (list (Z * text))) :=
  match ls with
  | [] => Ok (Some [])
  | l :: t =>
      l0 <- idx (partsOf sep l) 0 ;;
      match atoi l0 with
      | None => Ok None
      | Some num => l1 <- idx (partsOf sep l) 1 ;; p <- namesRun sep t ;; match p with None => Ok None | Some m => Ok (Some ((num, l1) :: m)) end
      end
  end.
Lemma name_loop sep last : oneLine last -> forall ls fuel m, Forall oneLine ls -> (length ls < fuel)%nat ->
  nameLoop fuel (unlines ls last) sep m = (p <- namesRun sep ls ;; match p with None => Ok None | Some m' => Ok (Some (rev m' ++ m)) end).
Proof.
  intros HL. induction ls as [|l ls IH]; intros fuel m Hls Hf; (destruct fuel as [|fuel]; [simpl in Hf; lia|]); cbn [nameLoop namesRun].
  - unfold unlines. simpl. rewrite (proj2 (readLine_None last)) by exact HL. reflexivity.
  - inversion Hls; subst. rewrite readLine_unlines by auto. rewrite drop_NL by auto. fold (partsOf sep l).
    destruct (idx (partsOf sep l) 0) as [l0| |]; cbn [bind]; auto. destruct (atoi l0) as [num|]; auto. destruct (idx (partsOf sep l) 1) as [l1| |]; cbn [bind]; auto.
    rewrite IH; [|auto|simpl in Hf; lia]. destruct (namesRun sep ls) as [[m'|]| |]; cbn [bind]; auto. cbn [rev]. rewrite <- app_assoc. reflexivity.
Qed.
Lemma read_names ls last eof s : Forall oneLine ls -> oneLine last ->
  ReadNameMap (Some (unlines ls last, eof)) s = (p <- namesRun (sepName s) ls ;; match p with None => Ok None | Some m' => Ok (Some (rev m')) end).
Proof.
  intros Hls HL. unfold ReadNameMap. fold (sepName s). rewrite name_loop; auto; [|pose proof (unlines_len ls last); lia].
  destruct (namesRun (sepName s) ls) as [[m'|]| |]; cbn [bind]; auto. rewrite app_nil_r. reflexivity.
Qed.
Lemma line_parts sep l num name : nameLine sep l num name <-> exists l0, idx (partsOf sep l) 0 = Ok l0 /\ atoi l0 = Some num /\ idx (partsOf sep l) 1 = Ok name.
Proof.
  unfold nameLine. split.
  - intros (p0 & ps & HN & HA). apply parts_iff in HN. rewrite HN. exists p0. split; [reflexivity|]. split; [auto|reflexivity].
  - intros (l0 & H0 & HA & H1). destruct (partsOf sep l) as [|a [|b ps]] eqn:E; try discriminate. change (idx (a :: b :: ps) 0) with (Ok a) in H0. change (idx (a :: b :: ps) 1) with (Ok b) in H1.
    injection H0 as ->. injection H1 as ->. exists l0, ps. split; [apply parts_iff; auto|auto].
Qed.
Lemma names_run sep : forall ls m, namesRun sep ls = Ok (Some m) <-> Forall2 (fun l p => nameLine sep l (fst p) (snd p)) ls m.
Proof.
  induction ls as [|l ls IH]; intros m; cbn [namesRun]; [split; [intros [= <-]; constructor|intros H; inversion H; auto]|]. split.
  - destruct (idx (partsOf sep l) 0) as [l0| |] eqn:E0; cbn [bind]; try discriminate. destruct (atoi l0) as [num|] eqn:EA; [|discriminate]. destruct (idx (partsOf sep l) 1) as [l1| |] eqn:E1; cbn [bind]; try discriminate.
    destruct (namesRun sep ls) as [[m'|]| |]; cbn [bind]; try discriminate. intros [= <-]. constructor; [apply line_parts; eauto|]. apply IH. auto.
  - intros H. inversion H as [|? [num name] ? m' H1 H2]; subst. apply line_parts in H1 as (l0 & -> & HA & HB). cbn [fst snd bind] in *. rewrite HA, HB. cbn [bind]. rewrite (proj2 (IH m') H2). reflexivity.
Qed.
Lemma names_stop sep : forall ls,
  (namesRun sep ls = Panic <-> exists pre l post m, ls = pre ++ l :: post /\ badLine sep l /\ namesRun sep pre = Ok (Some m)) /\
  (namesRun sep ls = Ok None <-> exists pre l post m, ls = pre ++ l :: post /\ wrongLine sep l /\ namesRun sep pre = Ok (Some m)).
Proof.
  assert (H1 : forall l, badLine sep l <-> match partsOf sep l with [] => True | [a] => exists k, atoi a = Some k | _ => False end).
  { intros l. unfold badLine. split.
    - intros [H|(p0 & k & H & HA)]; apply parts_iff in H; rewrite H; eauto.
    - destruct (partsOf sep l) as [|a [|b ps]] eqn:E; [left; apply parts_iff; auto| |tauto]. intros (k & Hk). right. exists a, k. split; [apply parts_iff; auto|auto]. }
  assert (H2 : forall l, wrongLine sep l <-> match partsOf sep l with [] => False | a :: _ => atoi a = None end).
  { intros l. unfold wrongLine. split.
    - intros (p0 & ps & H & HA). apply parts_iff in H. rewrite H. auto.
    - destruct (partsOf sep l) as [|a ps] eqn:E; [tauto|]. intros HA. exists a, ps. split; [apply parts_iff; auto|auto]. }
  induction ls as [|l ls [IH1 IH2]].
  { split; (split; [discriminate|]); intros (pre & l & post & m & H & _); destruct pre; discriminate H. }
  assert (HC : (badLine sep l /\ namesRun sep (l :: ls) = Panic) \/ (wrongLine sep l /\ namesRun sep (l :: ls) = Ok None) \/
    ((~ badLine sep l) /\ (~ wrongLine sep l) /\ exists p, forall r, namesRun sep (l :: r) = (o <- namesRun sep r ;; match o with None => Ok None | Some m => Ok (Some (p :: m)) end))).
  { rewrite H1, H2. cbn [namesRun]. destruct (partsOf sep l) as [|a [|b ps]].
    - left. auto.
    - change (idx [a] 0) with (Ok a). cbn [bind]. destruct (atoi a) as [k|]; [left; split; [eauto|reflexivity]|right; left; auto].
    - change (idx (a :: b :: ps) 0) with (Ok a). change (idx (a :: b :: ps) 1) with (Ok b). cbn [bind]. destruct (atoi a) as [k|]; [|right; left; auto].
      right. right. split; [tauto|]. split; [discriminate|]. exists (k, b). reflexivity. }
  destruct HC as [[HB HE]|[[HW HE]|(HnB & HnW & p & HE)]].
  - split.
    + split; [intros _; exists [], l, ls, []; auto|auto].
    + rewrite HE. split; [discriminate|]. intros (pre & l' & post & m & H & HW & HR). destruct pre as [|x pre].
      * injection H as <- <-. exfalso. apply H1 in HB. apply H2 in HW. destruct (partsOf sep l) as [|a [|b ps]]; auto. destruct HB as (k & Hk). congruence.
      * injection H as <- ->. exfalso. cbn [namesRun] in HR, HE. apply H1 in HB. destruct (partsOf sep l) as [|a [|b ps]]; [discriminate HR| |tauto]. change (idx [a] 0) with (Ok a) in HR. cbn [bind] in HR.
        destruct HB as (k & Hk). rewrite Hk in HR. discriminate HR.
  - split.
    + rewrite HE. split; [discriminate|]. intros (pre & l' & post & m & H & HB & HR). destruct pre as [|x pre].
      * injection H as <- <-. exfalso. apply H1 in HB. apply H2 in HW. destruct (partsOf sep l) as [|a [|b ps]]; auto. destruct HB as (k & Hk). congruence.
      * injection H as <- ->. exfalso. cbn [namesRun] in HR. apply H2 in HW. destruct (partsOf sep l) as [|a ps]; [tauto|]. change (idx (a :: ps) 0) with (Ok a) in HR. cbn [bind] in HR. rewrite HW in HR. discriminate HR.
    + split; [intros _; exists [], l, ls, []; auto|auto].
  - rewrite HE. split.
    + split.
      * destruct (namesRun sep ls) as [[m|]| |]; cbn [bind]; try discriminate. intros _. destruct (proj1 IH1 eq_refl) as (pre & l' & post & m & -> & HB & HR).
        exists (l :: pre), l', post. rewrite HE, HR. cbn [bind]. eauto.
      * intros (pre & l' & post & m & H & HB & HR). destruct pre as [|x pre]; [injection H as <- _; tauto|]. injection H as <- ->. rewrite HE in HR.
        destruct (namesRun sep pre) as [[m'|]| |] eqn:EP; cbn [bind] in HR; try discriminate. rewrite (proj2 IH1); [reflexivity|]. exists pre, l', post, m'. auto.
    + split.
      * destruct (namesRun sep ls) as [[m|]| |]; cbn [bind]; try discriminate. intros _. destruct (proj1 IH2 eq_refl) as (pre & l' & post & m & -> & HB & HR).
        exists (l :: pre), l', post. rewrite HE, HR. cbn [bind]. eauto.
      * intros (pre & l' & post & m & H & HB & HR). destruct pre as [|x pre]; [injection H as <- _; tauto|]. injection H as <- ->. rewrite HE in HR.
        destruct (namesRun sep pre) as [[m'|]| |] eqn:EP; cbn [bind] in HR; try discriminate. rewrite (proj2 IH2); [reflexivity|]. exists pre, l', post, m'. auto.
Qed.
Lemma last_app l1 l2 k : lastOf (l1 ++ l2) k = match lastOf l2 k with Some x => Some x | None => lastOf l1 k end.
Proof. induction l1 as [|[n x] l1 IH]; [simpl; destruct (lastOf l2 k); auto|]. cbn [app lastOf]. rewrite IH. destruct (lastOf l2 k); auto. Qed.
Lemma lookup_rev m k : lookupZ (rev m) k = lastOf m k.
Proof.
  induction m as [|[n x] m IH] using rev_ind; [reflexivity|]. rewrite rev_app_distr, last_app. cbn [rev app lastOf]. unfold lookupZ in *. cbn [find fst snd].
  destruct (Z.eqb_spec n k) as [->|Hn]; [reflexivity|exact IH].
Qed.
Theorem names_data ls last eof s : Forall oneLine ls -> oneLine last -> forall m,
  ReadNameMap (Some (unlines ls last, eof)) s = Ok (Some m) <-> exists ps, Forall2 (fun l p => nameLine (sepName s) l (fst p) (snd p)) ls ps /\ m = rev ps.
Proof.
  intros Hls HL m. rewrite read_names by auto. split.
  - destruct (namesRun (sepName s) ls) as [[m'|]| |] eqn:E; cbn [bind]; try discriminate. intros [= <-]. exists m'. split; [apply names_run; auto|auto].
  - intros (ps & HF & ->). apply names_run in HF. rewrite HF. reflexivity.
Qed.
Theorem names_lookup ls last eof s m ps : Forall oneLine ls -> oneLine last -> ReadNameMap (Some (unlines ls last, eof)) s = Ok (Some m) ->
  Forall2 (fun l p => nameLine (sepName s) l (fst p) (snd p)) ls ps -> forall k, lookupZ m k = lastOf ps k.
Proof.
  intros Hls HL HR HF k. rewrite read_names in HR by auto. apply names_run in HF. rewrite HF in HR. injection HR as <-. apply lookup_rev.
Qed.
Theorem names_fail ls last eof s : Forall oneLine ls -> oneLine last ->
  (ReadNameMap (Some (unlines ls last, eof)) s = Panic <-> exists pre l post ps, ls = pre ++ l :: post /\ badLine (sepName s) l /\ Forall2 (fun l p => nameLine (sepName s) l (fst p) (snd p)) pre ps) /\
  (ReadNameMap (Some (unlines ls last, eof)) s = Ok None <-> exists pre l post ps, ls = pre ++ l :: post /\ wrongLine (sepName s) l /\ Forall2 (fun l p => nameLine (sepName s) l (fst p) (snd p)) pre ps).
Proof.
  intros Hls HL. rewrite read_names by auto. destruct (names_stop (sepName s) ls) as [H1 H2]. split.
  - split.
    + destruct (namesRun (sepName s) ls) as [[m'|]| |] eqn:E; cbn [bind]; try discriminate. intros _. destruct (proj1 H1 eq_refl) as (pre & l & post & m & -> & HB & HR). exists pre, l, post, m. split; [auto|]. split; [auto|]. apply names_run. auto.
    + intros (pre & l & post & ps & -> & HB & HF). rewrite (proj2 H1); [reflexivity|]. exists pre, l, post, ps. split; [auto|]. split; [auto|]. apply names_run. auto.
  - split.
    + destruct (namesRun (sepName s) ls) as [[m'|]| |] eqn:E; cbn [bind]; try discriminate. intros _. destruct (proj1 H2 eq_refl) as (pre & l & post & m & -> & HB & HR). exists pre, l, post, m. split; [auto|]. split; [auto|]. apply names_run. auto.
    + intros (pre & l & post & ps & -> & HB & HF). rewrite (proj2 H2); [reflexivity|]. exists pre, l, post, ps. split; [auto|]. split; [auto|]. apply names_run. auto.
Qed.
Theorem names_terminates file s : ReadNameMap file s <> Diverge.
Proof.
  destruct file as [[r eof]|]; [|discriminate]. destruct (text_lines r) as (ls & last & -> & Hls & HL). rewrite read_names by auto.
  assert (H : namesRun (sepName s) ls <> Diverge).
  { clear. induction ls as [|l ls IH]; cbn [namesRun]; [discriminate|]. pose proof (idx_not_Diverge (partsOf (sepName s) l) 0). pose proof (idx_not_Diverge (partsOf (sepName s) l) 1).
    destruct (idx (partsOf (sepName s) l) 0) as [l0| |]; cbn [bind]; try congruence. destruct (atoi l0); [|discriminate]. destruct (idx (partsOf (sepName s) l) 1); cbn [bind]; try congruence.
    destruct (namesRun (sepName s) ls) as [[m|]| |]; cbn [bind]; congruence. }
  destruct (namesRun (sepName s) ls) as [[m|]| |]; cbn [bind]; congruence.
Qed.
