(** Keys with separators, quotes and line ends in them. *)
From Coq Require Import Ascii String.
From Flocq Require Import IEEE754.BinarySingleNaN.
From Verif Require Import Base F64 Env Utils Text Confu Readers CsvReader SpecReaders ReadersProofs ReadersNum ReadersMore ReadersCsv SpecCsv CsvProofs CsvQuote.
From Coq Require Import List.
Open Scope Z_scope.

Lemma row_cells c lab v : csvSep c -> Forall (csvKey c) (csvRec lab v).
Proof.
  intros HS. constructor.
  - destruct (number_field c (decZ lab) HS (dec_chars lab)) as (Ha & Hb & Hc & Hd). repeat split; auto. intros _. apply dec_not_blank; [apply decZ_nonempty|].
    apply solid_safe. intros d Hd'. apply plain_safe. eapply dec_plain; eauto.
  - apply Forall_forall. intros f Hf. apply in_map_iff in Hf as (x & <- & _). destruct (number_field c (fmtF x) HS (fmt_chars x)) as (Ha & Hb & Hc & Hd). repeat split; auto. intros _. apply fmt_not_blank.
Qed.
Lemma head_cell c : csvSep c -> csvKey c (tx "Labels").
Proof.
  intros (H1 & H2 & H3 & H4 & H5 & H6 & _). repeat split.
  - intros H. apply H6. cbn. cbn in H. tauto.
  - cbn; intros H; repeat destruct H as [H|H]; try discriminate; destruct H.
  - cbn; intros H; repeat destruct H as [H|H]; try discriminate; destruct H.
  - cbn; intros H; repeat destruct H as [H|H]; try discriminate; destruct H.
  - intros _. apply dec_not_blank; [discriminate|]. apply solid_safe. intros d Hd. cbn in Hd. repeat destruct Hd as [<-|Hd]; try reflexivity. destruct Hd.
Qed.
Definition asCells (fs : list text) : list (text * text) := map (fun f => (f, trimLeft f)) fs.
Lemma as_cells c fs : csvSep c -> Forall (csvKey c) fs -> Forall (fun p => cell [c] (fst p) (snd p)) (asCells fs).
Proof.
  intros HS HF. unfold asCells. apply Forall_forall. intros p Hp. apply in_map_iff in Hp as (f & <- & Hf). left. exists c. split; [auto|]. split; [apply HS|]. rewrite Forall_forall in HF. split; [auto|]. apply trim_unindented.
Qed.
Lemma cells_fst fs : map fst (asCells fs) = fs.
Proof. unfold asCells. rewrite map_map. apply map_id. Qed.
Lemma cells_snd fs : map snd (asCells fs) = map trimLeft fs.
Proof. unfold asCells. rewrite map_map. reflexivity. Qed.
Lemma row_recOk c lab v : csvSep c -> recOk' [c] (asCells (csvRec lab v)).
Proof.
  intros HS. split; [discriminate|]. split; [|apply as_cells, row_cells; auto]. rewrite cells_fst. unfold csvRec.
  assert (HD : decZ lab <> []) by apply decZ_nonempty. destruct (map fmtF v) as [|g fs]; [exact HD|]. rewrite join_cons. destruct (decZ lab); [congruence|discriminate].
Qed.
(** ** The rows of a text written by [CSV], whatever its header *)
Definition rowRecs (D : DataBunch text) : list (list (text * text)) := map asCells (zipWith csvRec (labelsOf D) (Data D)).
Lemma row_recs_ok c D : csvSep c -> Forall (recOk' [c]) (rowRecs D).
Proof. intros HS. apply Forall_forall. intros r Hr. apply in_map_iff in Hr as (rec & <- & Hrec). apply zip_in in Hrec as (lab & v & -> & _). apply row_recOk. auto. Qed.
Lemma row_recs_fst D : map (map fst) (rowRecs D) = zipWith csvRec (labelsOf D) (Data D).
Proof. unfold rowRecs. rewrite map_map. rewrite (map_ext _ (fun x => x)); [apply map_id|]. intros a. apply cells_fst. Qed.
Lemma row_recs_snd D : map (map snd) (rowRecs D) = map (map trimLeft) (zipWith csvRec (labelsOf D) (Data D)).
Proof. unfold rowRecs. rewrite map_map. apply map_ext. intros a. apply cells_snd. Qed.
Lemma CSV_file D s t : CSV (Some D) s = Ok t -> hasKeys D = true -> Data D <> [] /\ t = csvFile (sepOf s) ((tx "Labels" :: Keys D) :: map (map fst) (rowRecs D)).
Proof.
  intros HT HK. rewrite CSV_text in HT. destruct (Data D) as [|r0 rs] eqn:HD; [discriminate|]. split; [discriminate|]. assert (HE : t = joinT (map (fun rec => joinT rec (sepOf s)) (csvRecs D)) [NL]) by congruence.
  rewrite HE, row_recs_fst. unfold csvRecs. rewrite HK, HD. reflexivity.
Qed.
Lemma keys_len (D : DataBunch text) r0 rs : Data D = r0 :: rs -> hasKeys D = true -> length (Keys D) = length r0.
Proof. unfold hasKeys. intros ->. apply Nat.eqb_eq. Qed.
Theorem keys_cells pf D s c t ks : ParserOk pf -> sepOf s = [c] -> csvSep c -> CSV (Some D) s = Ok t -> Forall int64 (Labels D) -> hasKeys D = true ->
  Forall2 (cell [c]) (Keys D) ks -> sameLengths D ->
  exists D', DataBunchFromCSVFile pf csvRead (Some (t, true)) true true s = Ok (Some D') /\ Keys D' = ks /\ printedRows (length (Data D)) D D'.
Proof.
  intros HP Hs HS HT HI HK HC HL. destruct (CSV_file D s t HT HK) as [HD ->]. rewrite Hs. destruct (Data D) as [|r0 rs] eqn:ED; [congruence|].
  set (hdr := (tx "Labels", tx "Labels") :: combine (Keys D) ks). assert (HCL : length (Keys D) = length ks) by (clear -HC; induction HC; simpl; auto).
  assert (Hf : map fst hdr = tx "Labels" :: Keys D).
  { unfold hdr. cbn [map fst]. f_equal. clear -HCL. revert ks HCL. induction (Keys D); intros [|k ks] H; try discriminate H; [reflexivity|]. cbn. f_equal. apply IHl. simpl in H. lia. }
  assert (Hsn : map snd hdr = tx "Labels" :: ks).
  { unfold hdr. cbn [map snd]. f_equal. clear -HCL. revert ks HCL. induction (Keys D); intros [|k ks] H; try discriminate H; [reflexivity|]. cbn. f_equal. apply IHl. simpl in H. lia. }
  assert (HF : Forall (recOk' [c]) (hdr :: rowRecs D)).
  { constructor; [|apply row_recs_ok; auto]. split; [discriminate|]. split.
    - rewrite Hf. destruct (Keys D); [discriminate|]. rewrite join_cons. discriminate.
    - unfold hdr. constructor.
      + left. exists c. split; [auto|]. split; [apply HS|]. split; [apply head_cell; auto|]. apply trim_unindented.
      + clear -HC. induction HC; constructor; auto. }
  assert (HA : Forall (fun r : list text => length r = S (length r0)) (map (map snd) (hdr :: rowRecs D))).
  { cbn [map]. constructor; [rewrite Hsn; simpl; rewrite <- HCL, (keys_len D r0 rs ED HK); auto|]. rewrite row_recs_snd.
    apply Forall_forall. intros rec Hrec. apply in_map_iff in Hrec as (rec0 & <- & Hrec). rewrite map_length.
    apply zip_in in Hrec as (lab & v & -> & _ & Hv). unfold csvRec. cbn [length]. rewrite map_length. f_equal. apply HL; [exact Hv|rewrite ED; left; auto]. }
  pose proof (read_cells [c] (hdr :: rowRecs D) (sep_delim c HS) HF) as HRd. cbn [map] in HRd. rewrite Hf in HRd.
  unfold DataBunchFromCSVFile. fold (sepOf s). rewrite Hs, HRd. destruct (same_all _ _ HA) as [_ HSame]. cbn [map] in HSame. rewrite HSame.
  destruct (rows_printed pf HP (labelsOf D) (Data D) (labels_len D) (int_labels D HI)) as (rows' & HRR & HPr).
  exists (MkData rows' ks (labelsOf D)). split; [|split; [reflexivity|]].
  - apply csv_data. split; [auto|]. apply recs_run in HRR. unfold csvDoc. eexists _, _. split; [reflexivity|]. split; [exists (tx "Labels"); exact Hsn|]. rewrite row_recs_snd. exact HRR.
  - split; [cbn [Labels]; rewrite <- ED, <- labels_len, firstn_all; reflexivity|]. cbn [Data]. rewrite <- ED, firstn_all. exact HPr.
Qed.
(** ** A separator in a key *)
Lemma split_some c k : splitT k [c] <> [].
Proof.
  unfold splitT. assert (H : forall sep k skip cur, splitFrom sep skip cur k <> []); [|apply H].
  induction k0 as [|x k0 IH]; intros skip cur; cbn [splitFrom]; [discriminate|]. destruct skip; [|apply IH]. destruct (hasPrefix (x :: k0) sep); [discriminate|apply IH].
Qed.
Lemma join_flat c : forall ks, joinT (flat_map (fun k => splitT k [c]) ks) [c] = joinT ks [c].
Proof.
  assert (HA : forall a b : list text, a <> [] -> b <> [] -> joinT (a ++ b) [c] = joinT a [c] ++ [c] ++ joinT b [c]).
  { induction a as [|x a IH]; intros b Ha Hb; [congruence|]. destruct a as [|y a].
    - cbn [app]. destruct b as [|z b]; [congruence|]. rewrite join_cons. reflexivity.
    - cbn [app]. rewrite !join_cons. change (y :: a ++ b) with ((y :: a) ++ b). rewrite IH by (auto; discriminate). rewrite <- !app_assoc. reflexivity. }
  induction ks as [|k ks IH]; [reflexivity|]. cbn [flat_map]. destruct (split_spec k [c]) as [HJ _]; [discriminate|]. destruct ks as [|k2 ks].
  - cbn [flat_map]. rewrite app_nil_r. exact HJ.
  - rewrite HA; [|apply split_some|cbn [flat_map]; destruct (splitT k2 [c]) eqn:E; [destruct (split_some c k2 E)|discriminate]]. rewrite HJ, IH, join_cons. reflexivity.
Qed.
Lemma split_piece c k p : In p (splitT k [c]) -> ~ In c p /\ (forall d, In d p -> In d k).
Proof.
  intros H. destruct (split_spec k [c]) as [HJ HC]; [discriminate|]. split.
  - intros Hin. rewrite Forall_forall in HC. specialize (HC p H). apply in_split in Hin as (a & b & ->). rewrite (proj2 (containsT_iff _ _)) in HC; [discriminate HC|]. exists a, b. reflexivity.
  - intros d Hd. rewrite <- HJ. clear HJ HC. induction (splitT k [c]) as [|x l IH]; [destruct H|]. destruct l as [|y l].
    + destruct H as [->|[]]. exact Hd.
    + rewrite join_cons. apply in_app_iff. destruct H as [->|H]; [auto|]. right. apply in_app_iff. right. auto.
Qed.
Lemma split_len c k : (1 <= length (splitT k [c]))%nat /\ (In c k -> (2 <= length (splitT k [c]))%nat).
Proof.
  pose proof (split_some c k) as HN. destruct (split_spec k [c]) as [HJ _]; [discriminate|]. pose proof (split_piece c k) as HP. destruct (splitT k [c]) as [|a [|b l]]; [congruence| |split; intros; simpl; lia].
  split; [simpl; lia|]. intros H. cbn [joinT] in HJ. subst a. exfalso. apply (proj1 (HP k (or_introl eq_refl))). exact H.
Qed.
Lemma flat_len c ks : (length ks <= length (flat_map (fun k => splitT k [c]) ks))%nat /\ (Exists (In c) ks -> (length ks < length (flat_map (fun k => splitT k [c]) ks))%nat).
Proof.
  induction ks as [|k ks [IH1 IH2]]; [split; [auto|intros H; inversion H]|]. cbn [flat_map]. rewrite app_length. destruct (split_len c k) as [H1 H2]. cbn [length]. split; [lia|].
  intros H. inversion H; subst; [specialize (H2 ltac:(auto)); lia|specialize (IH2 ltac:(auto)); lia].
Qed.
Theorem keys_separator pf D s c t : sepOf s = [c] -> csvSep c -> ~ In [c] whiteSpaces -> CSV (Some D) s = Ok t -> hasKeys D = true ->
  Forall noEscapes (Keys D) -> Exists (In c) (Keys D) -> DataBunchFromCSVFile pf csvRead (Some (t, true)) true true s = Ok None.
Proof.
  intros Hs HS Hw HT HK HE HX. destruct (CSV_file D s t HT HK) as [HD ->]. rewrite Hs. destruct (Data D) as [|r0 rs] eqn:ED; [congruence|].
  set (fs := tx "Labels" :: flat_map (fun k => splitT k [c]) (Keys D)).
  assert (HJ : joinT (tx "Labels" :: Keys D) [c] = joinT fs [c]).
  { unfold fs. pose proof (join_flat c (Keys D)) as H. destruct (Keys D) as [|k ks] eqn:EK; [inversion HX|]. rewrite <- EK in *. destruct (flat_map (fun k => splitT k [c]) (Keys D)) as [|g gs] eqn:EF.
    - exfalso. pose proof (proj1 (flat_len c (Keys D))) as HL. rewrite EF, EK in HL. simpl in HL. lia.
    - rewrite EK in *. rewrite !join_cons. rewrite H. reflexivity. }
  assert (HFS : csvFile [c] ((tx "Labels" :: Keys D) :: map (map fst) (rowRecs D)) = csvFile [c] (map (map fst) (asCells fs :: rowRecs D))).
  { cbn [map]. rewrite cells_fst. unfold csvFile. cbn [map]. rewrite HJ. reflexivity. }
  assert (HF : Forall (recOk' [c]) (asCells fs :: rowRecs D)).
  { constructor; [|apply row_recs_ok; auto]. split; [discriminate|]. split.
    - rewrite cells_fst, <- HJ. destruct (Keys D); [discriminate|]. rewrite join_cons. discriminate.
    - apply as_cells; auto. constructor; [apply head_cell; auto|]. apply Forall_forall. intros p Hp. apply in_flat_map in Hp as (k & Hk & Hp). apply split_piece in Hp as [H1 H2].
      rewrite Forall_forall in HE. destruct (HE k Hk) as (E1 & E2 & E3). repeat split; auto. }
  unfold DataBunchFromCSVFile. fold (sepOf s). rewrite Hs, HFS, (read_cells [c] _ (sep_delim c HS) HF). cbn [map sameFields]. rewrite cells_snd, map_length.
  rewrite row_recs_snd. pose proof (labels_len D) as HLL. rewrite ED in *. destruct (labelsOf D) as [|lab labs]; [discriminate HLL|]. unfold zipWith. cbn [combine map sameFields]. rewrite !map_length. cbn [csvRec length fst snd]. rewrite !map_length.
  destruct (Nat.eqb_spec (S (length r0)) (length fs)) as [HEq|_]; [|reflexivity].
  exfalso. unfold fs in HEq. cbn [length] in HEq. pose proof (proj2 (flat_len c (Keys D)) HX) as HLt. rewrite (keys_len D r0 rs ED HK) in HLt. unfold text in *. lia.
Qed.
(** ** Quotes in a key *)
Lemma fields_prefix c : csvSep c -> forall fs fuel m ls acc n, Forall (csvKey c) fs -> (length (concat (map (fun f => f ++ [c]) fs) ++ m) + n < fuel)%nat ->
  exists fuel', (length m + n < fuel')%nat /\ readFields fuel [c] (concat (map (fun f => f ++ [c]) fs) ++ m) ls acc = readFields fuel' [c] m ls (acc ++ map trimLeft fs).
Proof.
  intros HS. pose proof (sep_delim c HS) as (_ & _ & _ & HQ & _). induction fs as [|f fs IH]; intros fuel m ls acc n HF Hf.
  - exists fuel. cbn [map concat app] in *. rewrite app_nil_r. auto.
  - inversion HF as [|? ? (K1 & K2 & K3 & K4 & K5) HF']; subst. cbn [map concat] in *. rewrite <- !app_assoc in *. cbn [app] in *. destruct fuel as [|fuel]; [lia|].
    set (M := concat (map (fun f => f ++ [c]) fs) ++ m) in *. rewrite app_length in Hf. cbn [length] in Hf.
    destruct (IH fuel m ls (acc ++ [trimLeft f]) n HF') as (fuel' & H1 & H2); [fold M; lia|]. exists fuel'. split; [auto|]. fold M in H2. cbn [readFields].
    rewrite trim_field by (auto; apply HS). rewrite cut_some by (intros H; apply trim_in in H; auto). rewrite quote_none by (intros H; apply trim_in in H; auto). rewrite H2, <- app_assoc. cbn [app].
    destruct (trimLeft f) as [|z v'] eqn:E; cbn [app].
    + destruct (Ascii.eqb_spec c QT) as [->|]; [exfalso; apply HQ; left; auto|reflexivity].
    + destruct (Ascii.eqb_spec z QT) as [->|]; [exfalso; apply K4; apply trim_in; rewrite E; left; auto|reflexivity].
Qed.
(** what follows a key in the text *)
Definition after (c : ascii) (post : list text) (D : DataBunch text) : text := concat (map (fun f => c :: f) post) ++ NL :: csvFile [c] (map (map fst) (rowRecs D)).
Lemma join_around c : forall pre k post, joinT (pre ++ k :: post) [c] = concat (map (fun f => f ++ [c]) pre) ++ k ++ concat (map (fun f => c :: f) post).
Proof.
  assert (HA : forall post k, joinT (k :: post) [c] = k ++ concat (map (fun f => c :: f) post)).
  { induction post as [|p post IH]; intros k; [cbn; rewrite app_nil_r; reflexivity|]. rewrite join_cons, IH. reflexivity. }
  induction pre as [|p pre IH]; intros k post; [apply HA|]. cbn [app map concat]. destruct (pre ++ k :: post) as [|g gs] eqn:E; [destruct pre; discriminate E|].
  rewrite join_cons, <- E, IH, <- !app_assoc. reflexivity.
Qed.
Lemma file_in c d : forall recs, In d (csvFile [c] recs) -> d = NL \/ d = c \/ Exists (Exists (In d)) recs.
Proof.
  assert (HJ : forall (x : ascii) (l : list text), In d (joinT l [x]) -> d = x \/ Exists (In d) l).
  { intros x. induction l as [|f l IH]; intros H; [destruct H|]. destruct l as [|g l]; [right; left; exact H|]. rewrite join_cons in H. apply in_app_iff in H as [H|H]; [right; left; auto|].
    apply in_app_iff in H as [[->|[]]|H]; [auto|]. destruct (IH H) as [->|H']; [auto|right; right; auto]. }
  intros recs H. unfold csvFile in H. apply HJ in H as [->|H]; [auto|]. right. apply Exists_exists in H as (l & Hl & H). apply in_map_iff in Hl as (rec & <- & Hrec). apply HJ in H as [->|H]; [auto|]. right.
  apply Exists_exists. eauto.
Qed.
Lemma after_in c post D d : csvSep c -> In d (after c post D) -> d <> """"%char /\ d <> "013"%char \/ Exists (In d) post.
Proof.
  intros HS H. pose proof HS as (_ & _ & HR & HQ & _). unfold after in H. apply in_app_iff in H as [H|[<-|H]].
  - apply in_concat in H as (l & Hl & H). apply in_map_iff in Hl as (f & <- & Hf). destruct H as [<-|H]; [left; auto|]. right. apply Exists_exists. eauto.
  - left. split; discriminate.
  - left. apply file_in in H as [->|[->|H]]; [split; discriminate|auto|]. rewrite row_recs_fst in H. apply Exists_exists in H as (rec & Hrec & H). apply zip_in in Hrec as (lab & v & -> & _).
    apply Exists_exists in H as (f & Hf & H). pose proof (row_cells c lab v HS) as HC. rewrite Forall_forall in HC. destruct (HC f Hf) as (_ & _ & K3 & K4 & _). split; intros ->; auto.
Qed.
Lemma header_fail pf D s c t pre k post : sepOf s = [c] -> csvSep c -> CSV (Some D) s = Ok t -> hasKeys D = true -> Keys D = pre ++ k :: post ->
  Forall (csvKey c) pre -> ~ In "013"%char (k ++ after c post D) ->
  (forall fuel m ls acc, inv m ls -> m ++ concat ls = k ++ after c post D -> (length m + length (concat ls) < fuel)%nat -> readFields fuel [c] m ls acc = None) ->
  DataBunchFromCSVFile pf csvRead (Some (t, true)) true true s = Ok None.
Proof.
  intros Hs HS HT HK HKs HF HC HX. destruct (CSV_file D s t HT HK) as [HD HE]. rewrite Hs in HE.
  assert (HRn : rowRecs D <> []).
  { unfold rowRecs. pose proof (zip_len csvRec (labelsOf D) (Data D) (labels_len D)) as HZ. destruct (zipWith csvRec _ _); [|discriminate]. destruct (Data D); [congruence|discriminate]. }
  set (P := concat (map (fun f => f ++ [c]) (tx "Labels" :: pre))).
  assert (HFp : Forall (csvKey c) (tx "Labels" :: pre)) by (constructor; [apply head_cell; auto|auto]).
  assert (HT2 : t = P ++ k ++ after c post D).
  { rewrite HE, file_cons. rewrite HKs. change (tx "Labels" :: pre ++ k :: post) with ((tx "Labels" :: pre) ++ k :: post). rewrite join_around. fold P. unfold after.
    destruct (map (map fst) (rowRecs D)) as [|r rs] eqn:ER; [destruct (rowRecs D); [congruence|discriminate ER]|]. rewrite <- !app_assoc. reflexivity. }
  assert (HP : forall d, In d P -> d = c \/ d <> NL /\ d <> "013"%char).
  { intros d Hd. unfold P in Hd. apply in_concat in Hd as (l & Hl & Hd). apply in_map_iff in Hl as (f & <- & Hf). apply in_app_iff in Hd as [Hd|[<-|[]]]; [|auto]. right.
    rewrite Forall_forall in HFp. destruct (HFp f Hf) as (_ & K2 & K3 & _). split; intros ->; auto. }
  pose proof (sep_delim c HS) as HG. pose proof HG as (_ & G1 & G2 & _ & _ & _).
  assert (HPN : ~ In NL P) by (intros H; apply HP in H as [<-|[H _]]; [apply G1; left; auto|auto]).
  assert (HCR : crOk t = true).
  { apply crOk_none. rewrite HT2. intros H. apply in_app_iff in H as [H|H]; [|auto]. apply HP in H as [<-|[_ H]]; [apply G2; left; auto|auto]. }
  unfold DataBunchFromCSVFile. fold (sepOf s). rewrite Hs. unfold csvRead. rewrite (delim_valid [c] HG). cbn zeta.
  pose proof (raw_concat t [] HCR) as HRC. cbn [app] in HRC. pose proof (raw_wf true t [] (fun H => H)) as HW. destruct (rawLines [] t true) as [|l ls].
  { exfalso. simpl in HRC. rewrite HT2 in HRC. unfold P in HRC. discriminate HRC. }
  apply wf_inv in HW. cbn [concat] in HRC. rewrite HT2 in HRC. destruct (inv_split P l ls _ HW HPN HRC) as (m & -> & Hm & HM).
  assert (HEm : emptyLine (P ++ m) = false) by reflexivity.
  destruct (fields_prefix c HS (tx "Labels" :: pre) (S (length (concat ((P ++ m) :: ls)))) m ls [] (length (concat ls)) HFp) as (fuel' & H1 & H2); [fold P; cbn [concat]; rewrite (app_length (P ++ m)); lia|].
  fold P in H2. clearbody P. cbn [readRecords]. rewrite HEm. match goal with |- context [readFields ?f ?s ?l ?x ?y] => replace (readFields f s l x y) with (@None (list text * list text)) by (symmetry; exact (eq_trans H2 (HX fuel' m ls _ Hm HM H1))) end. reflexivity.
Qed.
Lemma noCR_after D c pre k post : csvSep c -> noCR D -> Keys D = pre ++ k :: post -> ~ In "013"%char (k ++ after c post D).
Proof.
  intros HS HN HK H. unfold noCR in HN. rewrite HK, Forall_app in HN. destruct HN as [_ HN]. inversion HN as [|? ? H1 H2]; subst. apply in_app_iff in H as [H|H]; [auto|].
  apply after_in in H as [[_ H]|H]; auto. apply Exists_exists in H as (f & Hf & H). rewrite Forall_forall in H2. exact (H2 f Hf H).
Qed.
Theorem bare_quote pf D s c t pre a b post : sepOf s = [c] -> csvSep c -> CSV (Some D) s = Ok t -> hasKeys D = true -> Keys D = pre ++ (a ++ """"%char :: b) :: post ->
  Forall (csvKey c) pre -> csvKey c a -> ~ blank a -> noCR D -> DataBunchFromCSVFile pf csvRead (Some (t, true)) true true s = Ok None.
Proof.
  intros Hs HS HT HK HKs HF (K1 & K2 & K3 & K4 & K5) Hb HCR. apply (header_fail pf D s c t pre (a ++ """"%char :: b) post); auto; [eapply noCR_after; eauto|].
  intros fuel m ls acc HI HM Hf. rewrite <- app_assoc in HM. destruct (inv_split a m ls _ HI K2 HM) as (m' & -> & Hm & HM'). destruct m' as [|y m']; [apply inv_nil in Hm as ->; discriminate HM'|].
  cbn [app] in HM'. injection HM' as -> _. destruct fuel as [|fuel]; [lia|]. cbn [readFields]. rewrite trim_field; [|reflexivity|intros H; exfalso; revert H; clear; cbv [whiteSpaces map app In]; intros H; repeat destruct H as [H|H]; try discriminate; destruct H].
  pose proof (fun d => trim_in d a) as HTa. destruct (trimLeft a) as [|z a'] eqn:E; [apply unindent_nil in E; contradiction|].
  assert (HG : match cutAt [c] ((z :: a') ++ """"%char :: m') with Some (f, rest) => if hasQuote f then None else readFields fuel [c] rest ls (acc ++ [f]) | None => let f := chopNL ((z :: a') ++ """"%char :: m') in if hasQuote f then None else Some (acc ++ [f], ls) end = None).
  { clear HF HKs HT. assert (HCq : c <> """"%char) by (apply HS). destruct (cutAt [c] ((z :: a') ++ """"%char :: m')) as [[f rest]|] eqn:EC.
    - rewrite quote_some; [reflexivity|]. apply cut_parts in EC. pose proof EC as EC2. symmetry in EC. apply app_cases in EC as [(q & HE)|(x & q & HE & HR)].
      + assert (HEC : (f ++ q) ++ """"%char :: m' = f ++ [c] ++ rest) by (rewrite <- HE; exact EC2). exfalso. rewrite <- app_assoc in HEC. apply app_inv_head in HEC. destruct q as [|y q]; cbn [app] in HEC; injection HEC as HEC _; [congruence|]. subst y. apply K1, HTa. rewrite HE. apply in_app_iff. right. left. auto.
      + rewrite HE. apply in_app_iff. right. left. injection HR as HR _. auto.
    - cbn zeta. rewrite quote_some; [reflexivity|]. unfold chopNL. destruct (rev ((z :: a') ++ """"%char :: m')) as [|x r] eqn:ER; [apply (f_equal (@length ascii)) in ER; rewrite rev_length, app_length in ER; simpl in ER; lia|].
      destruct (Ascii.eqb_spec x NL) as [->|_]; [|apply in_app_iff; right; left; auto]. apply -> in_rev.
      assert (Hin : In """"%char (NL :: r)) by (rewrite <- ER; apply -> in_rev; apply in_app_iff; right; left; auto). destruct Hin as [Hin|Hin]; [discriminate Hin|exact Hin]. }
  cbn [app] in HG |- *. destruct (Ascii.eqb_spec z QT) as [->|]; [exfalso; apply K4, HTa; left; auto|]. exact HG.
Qed.
Lemma quoted_err sep : forall ls line buf, ~ In QT line -> ~ In QT (concat ls) -> quotedField sep ls line buf = QErr.
Proof.
  induction ls as [|l ls IHl].
  - induction line as [|x line IH]; intros buf H1 H2; rewrite quoted_eq; [reflexivity|]. destruct (Ascii.eqb_spec x QT) as [->|]; [exfalso; apply H1; left; auto|]. apply IH; [intros H; apply H1; right; auto|auto].
  - cbn [concat]. induction line as [|x line IH]; intros buf H1 H2; rewrite quoted_eq.
    + apply IHl; intros H; apply H2; apply in_app_iff; auto.
    + destruct (Ascii.eqb_spec x QT) as [->|]; [exfalso; apply H1; left; auto|]. apply IH; [intros H; apply H1; right; auto|auto].
Qed.
Theorem open_quote pf D s c t pre b x post : sepOf s = [c] -> csvSep c -> CSV (Some D) s = Ok t -> hasKeys D = true -> Keys D = pre ++ (b ++ """"%char :: x) :: post ->
  Forall (csvKey c) pre -> blank b -> ~ In NL b -> ~ In """"%char x -> Forall (fun k => ~ In """"%char k) post -> noCR D ->
  DataBunchFromCSVFile pf csvRead (Some (t, true)) true true s = Ok None.
Proof.
  intros Hs HS HT HK HKs HF Hb Hn Hx Hp HCR. apply (header_fail pf D s c t pre (b ++ """"%char :: x) post); auto; [eapply noCR_after; eauto|].
  intros fuel m ls acc HI HM Hf. rewrite <- app_assoc in HM. destruct (inv_split b m ls _ HI Hn HM) as (m' & -> & Hm & HM'). destruct m' as [|y m']; [apply inv_nil in Hm as ->; discriminate HM'|].
  cbn [app] in HM'. injection HM' as -> HM'. destruct fuel as [|fuel]; [lia|]. cbn [readFields]. rewrite trim_blank, trim_quote by auto. change (Ascii.eqb """" QT) with true. cbn iota.
  assert (HQ : ~ In QT (m' ++ concat ls)).
  { rewrite HM'. intros H. apply in_app_iff in H as [H|H]; [auto|]. apply after_in in H as [[H _]|H]; auto. apply Exists_exists in H as (f & Hf' & H). rewrite Forall_forall in Hp. exact (Hp f Hf' H). }
  rewrite quoted_err; [reflexivity|intros H; apply HQ; apply in_app_iff; auto..].
Qed.
Theorem junk_quote pf D s c t pre b v d x post : sepOf s = [c] -> csvSep c -> CSV (Some D) s = Ok t -> hasKeys D = true -> Keys D = pre ++ (b ++ quoteField v ++ d :: x) :: post ->
  Forall (csvKey c) pre -> blank b -> ~ In NL b -> d <> """"%char -> d <> c -> d <> NL -> noCR D ->
  DataBunchFromCSVFile pf csvRead (Some (t, true)) true true s = Ok None.
Proof.
  intros Hs HS HT HK HKs HF Hb Hn Hd1 Hd2 Hd3 HCR. apply (header_fail pf D s c t pre (b ++ quoteField v ++ d :: x) post); auto; [eapply noCR_after; eauto|].
  intros fuel m ls acc HI HM Hf. rewrite <- !app_assoc in HM. destruct (inv_split b m ls _ HI Hn HM) as (m' & -> & Hm & HM'). unfold quoteField in HM'. destruct m' as [|y m']; [apply inv_nil in Hm as ->; discriminate HM'|].
  cbn [app] in HM'. injection HM' as -> HM'. destruct fuel as [|fuel]; [lia|]. cbn [readFields]. rewrite trim_blank, trim_quote by auto. change (Ascii.eqb """" QT) with true. cbn iota.
  rewrite <- app_assoc in HM'. cbn [app] in HM'. destruct (inv_tail _ _ _ Hm) as [HTl _]. pose proof (sep_delim c HS) as (Hne & HN & _ & HQ & _).
  destruct (quoted_ok [c] Hne HN HQ _ v m' ls [] _ (Nat.le_refl _) (or_introl (HTl ltac:(discriminate))) HM') as (_ & _ & _ & I4).
  rewrite (I4 d _ c [] eq_refl eq_refl Hd2 Hd1 Hd3). reflexivity.
Qed.
(** ** A line end in a key *)
Lemma join_last (a sep : text) : forall l, joinT (l ++ [a]) sep = concat (map (fun f => f ++ sep) l) ++ a.
Proof.
  induction l as [|x [|y l] IH]; [reflexivity|cbn; rewrite app_nil_r, <- app_assoc; reflexivity|]. change ((x :: y :: l) ++ [a]) with (x :: y :: l ++ [a]). rewrite join_cons.
  change (y :: l ++ [a]) with ((y :: l) ++ [a]). rewrite IH. cbn [map concat]. rewrite <- !app_assoc. reflexivity.
Qed.
Theorem same_text (ks : list text) (k : text) lab v rows labs s : rows <> [] -> (forall r, In r (v :: rows) -> length r = S (length ks)) ->
  let D : DataBunch text := MkData rows (ks ++ [k ++ NL :: rowLine (sepOf s) lab v]) labs in
  CSV (Some D) s = CSV (Some (MkData (v :: rows) (ks ++ [k]) (lab :: labelsOf D))) s.
Proof.
  intros Hne HL D. destruct rows as [|r0 rows]; [congruence|]. set (D' := @MkData text (v :: r0 :: rows) (ks ++ [k]) (lab :: labelsOf D)).
  assert (HLb : @labelsOf text D' = lab :: labelsOf D).
  { unfold labelsOf at 1. cbn [Labels Data length D']. rewrite (labels_len D). cbn [Data D length]. rewrite Nat.eqb_refl. reflexivity. }
  assert (HK1 : @hasKeys text D = true) by (unfold hasKeys; cbn [Data Keys D]; rewrite app_length, (HL r0) by (right; left; auto); apply Nat.eqb_eq; simpl; lia).
  assert (HK2 : @hasKeys text D' = true) by (unfold hasKeys; cbn [Data Keys D']; rewrite app_length, (HL v) by (left; auto); apply Nat.eqb_eq; simpl; lia).
  assert (HJ : forall a b : text, forall l sep, joinT (l ++ [a ++ b]) sep = joinT (l ++ [a]) sep ++ b).
  { intros a b l sep. rewrite !join_last, <- app_assoc. reflexivity. }
  change (CSV (Some D) s = CSV (Some D') s).
  assert (E1 : @Data text D = r0 :: rows) by reflexivity. assert (E2 : @Data text D' = v :: r0 :: rows) by reflexivity.
  assert (E3 : tx "Labels" :: @Keys text D = (tx "Labels" :: ks) ++ [k ++ NL :: rowLine (sepOf s) lab v]) by reflexivity. assert (E4 : tx "Labels" :: @Keys text D' = (tx "Labels" :: ks) ++ [k]) by reflexivity.
  clearbody D'. clearbody D. rewrite !CSV_text, E1, E2. apply f_equal. unfold csvRecs. rewrite HK1, HK2, HLb, E1, E2, E3, E4, !map_app. cbn [map]. rewrite HJ.
  pose proof (labels_len D) as HX. rewrite E1 in HX. destruct (labelsOf D) as [|l0 labs'] eqn:EL; [discriminate HX|].
  unfold zipWith. set (H0 := joinT ((tx "Labels" :: ks) ++ [k]) (sepOf s)). cbn [app combine map fst snd]. rewrite !join_cons, <- !app_assoc. reflexivity.
Qed.
(** ** The bounds on the loops do not matter *)
Lemma quoted_shorter sep : forall ls line buf,
  match quotedField sep ls line buf with
  | QNext _ m ls' => (length m + length (concat ls') <= length line + length (concat ls))%nat /\ (length ls' <= length ls)%nat
  | QEnd _ ls' => (length ls' <= length ls)%nat
  | QErr => True
  end.
Proof.
  assert (HS : forall n (t : text), (length (skipn n t) <= length t)%nat) by (intros n t; rewrite skipn_length; lia).
  assert (H : forall n ls line buf, (length line + length (concat ls) + length ls <= n)%nat ->
    match quotedField sep ls line buf with
    | QNext _ m ls' => (length m + length (concat ls') <= length line + length (concat ls))%nat /\ (length ls' <= length ls)%nat
    | QEnd _ ls' => (length ls' <= length ls)%nat
    | QErr => True
    end); [|intros; eapply H; apply Nat.le_refl].
  induction n as [|n IH]; intros ls line buf Hn; rewrite quoted_eq.
  - destruct line; [|simpl in Hn; lia]. destruct ls; [exact I|simpl in Hn; lia].
  - destruct line as [|x line].
    + destruct ls as [|l ls]; [exact I|]. cbn [concat length] in *. rewrite app_length in *. specialize (IH ls l buf ltac:(lia)). destruct (quotedField sep ls l buf); auto; lia.
    + cbn [length] in Hn. destruct (Ascii.eqb x QT).
      * destruct line as [|d line]; [apply Nat.le_refl|]. cbn [length] in Hn. destruct (Ascii.eqb d QT).
        -- specialize (IH ls line (buf ++ [QT]) ltac:(lia)). cbn [length]. destruct (quotedField sep ls line (buf ++ [QT])); auto; lia.
        -- destruct (hasPrefix (d :: line) sep); [split; [|apply Nat.le_refl]; apply Nat.add_le_mono_r; etransitivity; [apply HS|cbn [length]; lia]|]. destruct (Ascii.eqb d NL && _); [apply Nat.le_refl|exact I].
      * specialize (IH ls line (buf ++ [x]) ltac:(lia)). cbn [length]. destruct (quotedField sep ls line (buf ++ [x])); auto; lia.
Qed.
Lemma fields_fuel sep : sep <> [] -> forall n m line ls acc, (length line + length (concat ls) < n)%nat -> (length line + length (concat ls) < m)%nat ->
  readFields n sep line ls acc = readFields m sep line ls acc.
Proof.
  intros Hne. induction n as [|n IH]; intros m line ls acc Hn Hm; [lia|]. destruct m as [|m]; [lia|]. cbn [readFields].
  pose proof (trim_unindented line) as (b & _ & HE & _). assert (HL : (length (trimLeft line) <= length line)%nat) by (rewrite HE at 2; rewrite app_length; lia). set (k := trimLeft line) in *.
  assert (HP : match cutAt sep k with Some (f, rest) => if hasQuote f then None else readFields n sep rest ls (acc ++ [f]) | None => let f := chopNL k in if hasQuote f then None else Some (acc ++ [f], ls) end =
    match cutAt sep k with Some (f, rest) => if hasQuote f then None else readFields m sep rest ls (acc ++ [f]) | None => let f := chopNL k in if hasQuote f then None else Some (acc ++ [f], ls) end).
  { destruct (cutAt sep k) as [[f rest]|] eqn:EC; [|reflexivity]. destruct (hasQuote f); [reflexivity|]. apply cut_parts in EC. assert (HK : length k = length (f ++ sep ++ rest)) by (rewrite EC; auto).
    rewrite !app_length in HK. destruct sep as [|z sep]; [congruence|]. cbn [length] in HK. apply IH; lia. }
  destruct k as [|x k']; [exact HP|]. destruct (Ascii.eqb x QT); [|exact HP]. pose proof (quoted_shorter sep ls k' []) as HQ. destruct (quotedField sep ls k' []) as [f r ls'| |]; try reflexivity.
  cbn [length] in HL. apply IH; lia.
Qed.
Lemma fields_lines sep : forall n line ls acc rec ls', readFields n sep line ls acc = Some (rec, ls') -> (length ls' <= length ls)%nat.
Proof.
  induction n as [|n IH]; intros line ls acc rec ls' H; [discriminate H|]. cbn [readFields] in H. set (k := trimLeft line) in *.
  assert (HP : match cutAt sep k with Some (f, rest) => if hasQuote f then None else readFields n sep rest ls (acc ++ [f]) | None => let f := chopNL k in if hasQuote f then None else Some (acc ++ [f], ls) end = Some (rec, ls') -> (length ls' <= length ls)%nat).
  { destruct (cutAt sep k) as [[f rest]|]; [destruct (hasQuote f); [discriminate|apply IH]|]. cbn zeta. destruct (hasQuote (chopNL k)); [discriminate|]. intros [= _ <-]. auto. }
  destruct k as [|x k']; [auto|]. destruct (Ascii.eqb x QT); [|auto]. pose proof (quoted_shorter sep ls k' []) as HQ. destruct (quotedField sep ls k' []) as [f r l2|f l2|]; [|injection H as _ <-; auto|discriminate H].
  apply IH in H. lia.
Qed.
Theorem records_fuel sep eof : forall n m k ls, (length ls < n)%nat -> (length ls < m)%nat -> readRecords n sep k ls eof = readRecords m sep k ls eof.
Proof.
  induction n as [|n IH]; intros m k ls Hn Hm; [lia|]. destruct m as [|m]; [lia|]. cbn [readRecords]. destruct ls as [|l ls]; [reflexivity|]. cbn [length] in Hn, Hm. destruct (emptyLine l); [apply IH; lia|].
  destruct (readFields (S (length (concat (l :: ls)))) sep l ls []) as [[rec ls']|] eqn:E; [|reflexivity]. apply fields_lines in E. rewrite (IH m (Some (length rec)) ls') by lia. reflexivity.
Qed.
