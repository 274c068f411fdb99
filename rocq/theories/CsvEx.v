(** Cases of the CSV theorems. *)
From Coq Require Import Ascii String.
From Flocq Require Import IEEE754.BinarySingleNaN.
From Verif Require Import Base F64 Env Utils Text Confu Readers CsvReader SpecReaders ReadersProofs ReadersNum ReadersMore ReadersCsv ReadersEx SpecCsv CsvProofs CsvQuote CsvKeys.
From Coq Require Import List.
Open Scope Z_scope.

Theorem quoted_file sep n recs : goodDelim sep -> Forall (fun rec => length rec = S n /\ Forall noCRLF rec) recs -> csvRead sep (csvFile sep (map (map quoteField) recs)) true = (recs, true).
Proof.
  intros HG HF. set (cs := map (map (fun f => (quoteField f, f))) recs).
  assert (H1 : map (map fst) cs = map (map quoteField) recs) by (unfold cs; rewrite map_map; apply map_ext; intros a; rewrite map_map; reflexivity).
  assert (H2 : map (map snd) cs = recs) by (unfold cs; rewrite map_map; rewrite (map_ext _ (fun x => x)); [apply map_id|]; intros a; rewrite map_map; apply map_id).
  rewrite <- H1, read_cells; auto.
  - rewrite H2. apply (same_all (S n)). eapply Forall_impl; [|exact HF]. intros a Ha. apply Ha.
  - apply Forall_forall. intros r Hr. apply in_map_iff in Hr as (rec & <- & Hrec). rewrite Forall_forall in HF. destruct (HF rec Hrec) as [HL Hc]. destruct rec as [|f fs]; [discriminate HL|].
    split; [discriminate|]. split.
    + cbn [map fst]. destruct (map fst (map (fun f => (quoteField f, f)) fs)); [discriminate|]. rewrite join_cons. discriminate.
    + apply Forall_forall. intros p Hp. apply in_map_iff in Hp as (g & <- & Hg). right. exists []. rewrite Forall_forall in Hc. repeat split; auto. constructor.
Qed.
Theorem read_same sep n recs : goodDelim sep -> Forall (fun rec => length rec = S n /\ joinT (map fst rec) sep <> [] /\ Forall (fun p => cell sep (fst p) (snd p)) rec) recs ->
  csvRead sep (csvFile sep (map (map fst) recs)) true = (map (map snd) recs, true).
Proof.
  intros HG HF. rewrite read_cells; auto.
  - apply (same_all (S n)). apply Forall_forall. intros r Hr. apply in_map_iff in Hr as (rec & <- & Hrec). rewrite map_length. rewrite Forall_forall in HF. apply (HF rec Hrec).
  - eapply Forall_impl; [|exact HF]. intros rec (H1 & H2 & H3). split; [destruct rec; [discriminate H1|discriminate]|auto].
Qed.
Lemma comma_delim : goodDelim (tx ",").
Proof. apply sep_delim, comma_sep. Qed.
Lemma no_cr f : ~ In "013"%char f -> noCRLF f.
Proof. intros H a b ->. apply H. apply in_app_iff. right. left. auto. Qed.
Ltac noIn' := cbn; intros HH; repeat destruct HH as [HH|HH]; try discriminate; try contradiction.
(** fields with separators, quotes, line ends and white space *)
Definition exFields : list (list text) := [[tx "a,b"; tx "say ""hi"""]; [tx "  x" ++ [NL] ++ tx "y"; []]].
Lemma ex_fields : goodDelim (tx ",") /\ Forall (fun rec => length rec = 2%nat /\ Forall noCRLF rec) exFields /\
  csvFile (tx ",") (map (map quoteField) exFields) = tx """a,b"",""say """"hi""""""" ++ [NL] ++ tx """  x" ++ [NL] ++ tx "y"",""""".
Proof. split; [apply comma_delim|]. split; [|reflexivity]. repeat constructor; apply no_cr; noIn'. Qed.
Definition exKeys (ks : list text) : DataBunch text := MkData [[d4 15000; d4 2]; [d4 1; d4 30000]] ks [4].
Definition readBack (D : DataBunch text) : res (option (DataBunch text)) := t <- CSV (Some D) None ;; DataBunchFromCSVFile pf0 csvRead (Some (t, true)) true true None.
Definition keysAre (ks : list text) (D : DataBunch text) : bool := Nat.eqb (length (Keys D)) (length ks) && forallb (fun p => text_eqb (fst p) (snd p)) (combine (Keys D) ks).
Definition exQ := exKeys [tx " ""a,b"""; tx "c d"].
Lemma ex_wrapped : Forall2 (cell (tx ",")) (Keys exQ) [tx "a,b"; tx "c d"] /\ hasKeys exQ = true /\ sameLengths exQ /\ Forall int64 (Labels exQ) /\
  readsAs (readBack exQ) (fun D => keysAre [tx "a,b"; tx "c d"] D && Nat.eqb (length (Data D)) 2) = true.
Proof.
  split; [|split; [reflexivity|split; [|split; [repeat constructor; unfold int64; lia|vm_compute; reflexivity]]]].
  - constructor; [|constructor; [|constructor]].
    + right. exists (tx " "). split; [apply (blank_spaces 1)|]. split; [noIn'|]. split; [noIn'|]. split; [reflexivity|]. apply no_cr. noIn'.
    + left. exists ","%char. split; [reflexivity|]. split; [reflexivity|]. split; [|exact (trim_unindented (tx "c d"))].
      repeat split; noIn'.
  - intros r r' [<-|[<-|[]]] [<-|[<-|[]]]; reflexivity.
Qed.
(** keys that make the text unreadable *)
Lemma ex_broken : readBack (exKeys [tx "a,b"; tx "c"]) = Ok None /\ readBack (exKeys [tx "a""b"; tx "c"]) = Ok None /\ readBack (exKeys [tx """a"; tx "c"]) = Ok None /\
  readBack (exKeys [tx """a""b"; tx "c"]) = Ok None.
Proof. vm_compute. auto. Qed.
Lemma ex_broken_hyps : (Forall noEscapes [tx "a,b"; tx "c"] /\ Exists (In ","%char) [tx "a,b"; tx "c"] /\ ~ In [","%char] whiteSpaces /\ csvSep ","%char) /\
  (csvKey ","%char (tx "a") /\ ~ blank (tx "a") /\ noCR (exKeys [tx "a""b"; tx "c"])) /\ (tx """a""b" = [] ++ quoteField (tx "a") ++ tx "b") /\
  hasKeys (exKeys [tx "a,b"; tx "c"]) = true.
Proof.
  split; [|split; [|split; reflexivity]].
  - split; [repeat constructor; noIn'|]. split; [left; right; left; reflexivity|]. split; [apply not_white_comma|apply comma_sep].
  - split; [repeat split; noIn'|]. split; [|repeat constructor; noIn']. intros H. apply unindent_nil in H. discriminate H.
Qed.
(** quotes that close in a later key: the keys come back cut at other places *)
Definition exShift : DataBunch text := MkData [[d4 15000; d4 2; d4 3]] [tx """a"; tx "b"""; tx "x,y"] [4].
Theorem keys_shifted : exists D D', hasKeys D = true /\ sameLengths D /\ readBack D = Ok (Some D') /\ Keys D = [tx """a"; tx "b"""; tx "x,y"] /\ Keys D' = [tx "a,b"; tx "x"; tx "y"].
Proof.
  exists exShift. assert (HX : readsAs (readBack exShift) (keysAre [tx "a,b"; tx "x"; tx "y"]) = true) by (vm_compute; reflexivity).
  destruct (readBack exShift) as [[D'|]| |]; try discriminate HX. exists D'. split; [reflexivity|]. split; [intros r r' [<-|[]] [<-|[]]; reflexivity|]. split; [reflexivity|]. split; [reflexivity|].
  cbn [readsAs] in HX. unfold keysAre in HX. apply andb_prop in HX as [H1 H2]. apply Nat.eqb_eq in H1. destruct (Keys D') as [|a [|b [|c [|d l]]]]; try discriminate H1.
  cbn [combine forallb fst snd] in H2. apply andb_prop in H2 as [Ha H2]. apply andb_prop in H2 as [Hb H2]. apply andb_prop in H2 as [Hc _].
  apply text_eqb_iff in Ha as ->. apply text_eqb_iff in Hb as ->. apply text_eqb_iff in Hc as ->. reflexivity.
Qed.
(** a line end in a key *)
Lemma ex_injected : let D := exKeys [tx "a"; tx "b" ++ [NL] ++ tx "7,1.0000,2.0000"] in
  rowLine (tx ",") 7 [fofZ 1; fofZ 2] = tx "7,1.0000,2.0000" /\ readsAs (readBack D) (fun D' => keysAre [tx "a"; tx "b"] D' && Nat.eqb (length (Data D')) 3) = true.
Proof. vm_compute. auto. Qed.
