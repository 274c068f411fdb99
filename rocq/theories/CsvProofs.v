(** The model of csv.Reader: it does what is assumed of it on texts without quotes, and it reads quoted fields. *)
From Coq Require Import Ascii String.
From Flocq Require Import IEEE754.BinarySingleNaN.
From Verif Require Import Base F64 Env Utils Text Confu Readers CsvReader SpecReaders ReadersProofs ReadersNum ReadersMore ReadersCsv SpecCsv.
From Coq Require Import List.
Open Scope Z_scope.

(** ** Texts without quotes *)
Lemma prefix_NL sep : ~ In NL sep -> forall l, hasPrefix (l ++ [NL]) sep = hasPrefix l sep.
Proof.
  induction sep as [|s sep IH]; intros H l; [destruct l; reflexivity|]. destruct l as [|x l]; cbn [app hasPrefix].
  - destruct (Ascii.eqb_spec s NL) as [->|]; [exfalso; apply H; left; auto|]. reflexivity.
  - f_equal. apply IH. intros Hin. apply H. right. auto.
Qed.
Lemma prefix_len : forall p t, hasPrefix t p = true -> (length p <= length t)%nat.
Proof. induction p as [|x p IH]; intros t H; [simpl; lia|]. destruct t as [|y t]; cbn [hasPrefix] in H; [discriminate H|]. apply andb_prop in H as [_ H]. apply IH in H. simpl. lia. Qed.
Lemma cut_NL sep : sep <> [] -> ~ In NL sep -> forall l, cutAt sep (l ++ [NL]) = match cutAt sep l with Some (a, b) => Some (a, b ++ [NL]) | None => None end.
Proof.
  intros Hne HN. assert (HE : forall t, hasPrefix t sep = true -> skipn (length sep) (t ++ [NL]) = skipn (length sep) t ++ [NL]).
  { intros t Ht. apply prefix_len in Ht. rewrite skipn_app. replace (length sep - length t)%nat with O by lia. reflexivity. }
  induction l as [|x l IH].
  - cbn [app cutAt]. pose proof (prefix_NL sep HN []) as HP. cbn [app] in HP. rewrite HP. destruct (hasPrefix [] sep) eqn:E; [destruct sep; [congruence|discriminate E]|]. reflexivity.
  - cbn [app cutAt]. change (x :: l ++ [NL]) with ((x :: l) ++ [NL]). rewrite prefix_NL by auto. destruct (hasPrefix (x :: l) sep) eqn:E.
    + rewrite HE by auto. reflexivity.
    + rewrite IH. destruct (cutAt sep l) as [[a b]|]; reflexivity.
Qed.
Lemma cut_parts sep : forall t a b, cutAt sep t = Some (a, b) -> t = a ++ sep ++ b.
Proof.
  assert (HP : forall p t, hasPrefix t p = true -> t = p ++ skipn (length p) t).
  { induction p as [|x p IH]; intros t H; [reflexivity|]. destruct t as [|y t]; cbn [hasPrefix] in H; [discriminate H|]. apply andb_prop in H as [H1 H2]. apply Ascii.eqb_eq in H1 as ->. cbn [length skipn app]. f_equal. auto. }
  induction t as [|x t IH]; intros a b; cbn [cutAt].
  - destruct (hasPrefix [] sep) eqn:E; [|discriminate]. intros [= <- <-]. apply HP in E. exact E.
  - destruct (hasPrefix (x :: t) sep) eqn:E; [intros [= <- <-]; apply HP in E; exact E|]. destruct (cutAt sep t) as [[a' b']|]; [|discriminate]. intros [= <- <-]. cbn [app]. f_equal. apply IH. reflexivity.
Qed.
Lemma trim_NL l : trimLeft (l ++ [NL]) = match trimLeft l with [] => [] | _ => trimLeft l ++ [NL] end.
Proof.
  destruct (trimLeft l) as [|x k] eqn:E.
  - apply unindent_nil in E. apply unindent_nil. clear -E. induction E as [|w t Hw _ IH]; cbn [app]; [apply (blank_cons [NL] []); [right; left; reflexivity|constructor]|].
    rewrite <- app_assoc. constructor; auto.
  - rewrite <- E. apply (trim_field NL []); [reflexivity|]. intros _ Hb. apply unindent_nil in Hb. rewrite Hb in E. discriminate E.
Qed.
Lemma chop_NL l : chopNL (l ++ [NL]) = l.
Proof. unfold chopNL. rewrite rev_app_distr. cbn [rev app]. rewrite Ascii.eqb_refl. apply rev_involutive. Qed.
Lemma chop_none l : ~ In NL l -> chopNL l = l.
Proof.
  intros H. unfold chopNL. destruct (rev l) as [|c r] eqn:E; [apply (f_equal (@rev ascii)) in E; rewrite rev_involutive in E; auto|].
  destruct (Ascii.eqb_spec c NL) as [->|]; auto. exfalso. apply H. apply in_rev. rewrite E. left. auto.
Qed.
Lemma quote_none f : ~ In """"%char f -> hasQuote f = false.
Proof.
  intros H. unfold hasQuote. apply Bool.not_true_is_false. intros HX. apply existsb_exists in HX as (c & Hc & HE). apply Ascii.eqb_eq in HE. subst c. auto.
Qed.
Lemma quote_some f : In """"%char f -> hasQuote f = true.
Proof. intros H. unfold hasQuote. apply existsb_exists. exists QT. split; [exact H|apply Ascii.eqb_refl]. Qed.
Lemma fields_plain sep : sep <> [] -> ~ In NL sep -> forall fuel l nl ls acc, (length l < fuel)%nat -> ~ In NL l -> ~ In """"%char l -> nl = [] \/ nl = [NL] ->
  readFields fuel sep (l ++ nl) ls acc = Some (acc ++ csvFields fuel sep l, ls).
Proof.
  intros Hne HN. induction fuel as [|fuel IH]; intros l nl ls acc Hf Hl Hq Hnl; [lia|]. cbn [readFields csvFields].
  pose proof (trim_unindented l) as (b & Hb & HE & _). set (k := trimLeft l) in *.
  assert (HkN : ~ In NL k) by (intros H; apply Hl; rewrite HE; apply in_app_iff; auto).
  assert (Hkq : ~ In """"%char k) by (intros H; apply Hq; rewrite HE; apply in_app_iff; auto).
  assert (Hkl : (length k <= length l)%nat) by (rewrite HE, app_length; lia).
  assert (HT : trimLeft (l ++ nl) = match k with [] => [] | _ => k ++ nl end).
  { destruct Hnl as [-> | ->]; [rewrite !app_nil_r; fold k; destruct k; reflexivity|apply trim_NL]. }
  assert (HG : match cutAt sep (match k with [] => [] | _ => k ++ nl end) with
    | Some (f, rest) => if hasQuote f then None else readFields fuel sep rest ls (acc ++ [f])
    | None => let f := chopNL (match k with [] => [] | _ => k ++ nl end) in if hasQuote f then None else Some (acc ++ [f], ls) end =
    Some (acc ++ match cutAt sep k with Some (f, rest) => f :: csvFields fuel sep rest | None => [k] end, ls)).
  { assert (HC : cutAt sep (match k with [] => [] | _ => k ++ nl end) = match cutAt sep k with Some (a, b) => Some (a, b ++ nl) | None => None end).
    { destruct k as [|x k0] eqn:Ek; [|destruct Hnl as [-> | ->]; [rewrite app_nil_r; destruct (cutAt sep (x :: k0)) as [[? ?]|]; rewrite ?app_nil_r; reflexivity|apply cut_NL; auto]].
      cbn [cutAt]. destruct (hasPrefix [] sep) eqn:E; [destruct sep; [congruence|discriminate E]|reflexivity]. }
    rewrite HC. destruct (cutAt sep k) as [[f rest]|] eqn:EC.
    - apply cut_parts in EC. rewrite quote_none by (intros H; apply Hkq; rewrite EC; apply in_app_iff; auto). rewrite IH.
      + rewrite <- app_assoc. reflexivity.
      + assert (HL : length k = length (f ++ sep ++ rest)) by (rewrite EC; auto). rewrite !app_length in HL. destruct sep; [congruence|]. simpl in HL. lia.
      + intros H. apply HkN. rewrite EC. apply in_app_iff. right. apply in_app_iff. auto.
      + intros H. apply Hkq. rewrite EC. apply in_app_iff. right. apply in_app_iff. auto.
      + auto.
    - assert (HF : chopNL (match k with [] => [] | _ => k ++ nl end) = k).
      { destruct k as [|x k0] eqn:Ek; [reflexivity|]. destruct Hnl as [-> | ->]; [rewrite app_nil_r; apply chop_none; auto|apply chop_NL]. }
      cbn zeta. rewrite HF, quote_none by auto. reflexivity. }
  rewrite HT. destruct k as [|x k0] eqn:Ek; [exact HG|]. cbn [app] in HG |- *.
  destruct (Ascii.eqb_spec x QT) as [->|Hx]; [exfalso; apply Hkq; left; auto|]. exact HG.
Qed.
Lemma fields_enough sep : sep <> [] -> forall n m l, (length l < n)%nat -> (length l < m)%nat -> csvFields n sep l = csvFields m sep l.
Proof.
  intros Hne. induction n as [|n IH]; intros m l Hn Hm; [lia|]. destruct m as [|m]; [lia|]. cbn [csvFields]. destruct (cutAt sep (trimLeft l)) as [[f rest]|] eqn:E; [|reflexivity]. f_equal.
  apply cut_parts in E. pose proof (trim_unindented l) as (b & _ & HE & _).
  assert (HL : length l = length (b ++ f ++ sep ++ rest)) by (rewrite <- E, <- HE; auto). rewrite !app_length in HL. destruct sep; [congruence|]. simpl in HL. apply IH; lia.
Qed.
(** the lines with and without their line ends *)
Lemma raw_lines : forall t cur, exists ls last, csvTextLines cur t true = ls ++ [last] /\ rawLines cur t true = map (fun l => l ++ [NL]) ls ++ match last with [] => [] | _ => [last] end \/
  csvTextLines cur t true = ls ++ [[]] /\ rawLines cur t true = map (fun l => l ++ [NL]) ls ++ [[]].
Proof.
  induction t as [|c t IH]; intros cur; cbn [csvTextLines rawLines].
  - exists [], (dropCR cur). destruct cur as [|x cur]; [left; auto|]. destruct (dropCR (x :: cur)) as [|y r]; [right; auto|left; auto].
  - destruct (Ascii.eqb c NL).
    + destruct (IH []) as (ls & last & [[H1 H2]|[H1 H2]]); exists (dropCR cur :: ls), last; [left|right]; rewrite H1, H2; auto.
    + apply IH.
Qed.
Lemma raw_lines_err : forall t cur, rawLines cur t false = map (fun l => l ++ [NL]) (csvTextLines cur t false).
Proof. induction t as [|c t IH]; intros cur; cbn [csvTextLines rawLines]; [reflexivity|]. destruct (Ascii.eqb c NL); [cbn [map]; f_equal; apply IH|apply IH]. Qed.
Lemma drop_in c l : In c (dropCR l) -> In c l.
Proof.
  unfold dropCR. destruct (rev l) as [|x r] eqn:E; [intros []|]. destruct (Ascii.eqb x "013"); [|auto]. intros H. apply in_rev in H. apply in_rev. rewrite E. right. auto.
Qed.
Lemma lines_in eof c : forall t cur l, In l (csvTextLines cur t eof) -> In c l -> In c cur \/ In c t.
Proof.
  induction t as [|x t IH]; intros cur l; cbn [csvTextLines].
  - destruct eof; [|intros []]. intros [<-|[]] H. apply drop_in in H. auto.
  - destruct (Ascii.eqb_spec x NL) as [->|Hx].
    + intros [<-|HI] H; [apply drop_in in H; auto|]. destruct (IH [] l HI H) as [[]|H']. right. right. auto.
    + intros HI H. destruct (IH _ l HI H) as [H'|H']; [|right; right; auto]. apply in_app_iff in H' as [H'|[->|[]]]; [auto|right; left; auto].
Qed.
Lemma lines_oneLine eof : forall t cur, ~ In NL cur -> forall l, In l (csvTextLines cur t eof) -> ~ In NL l.
Proof.
  induction t as [|x t IH]; intros cur Hc l; cbn [csvTextLines].
  - destruct eof; [|intros []]. intros [<-|[]] H. apply drop_in in H. auto.
  - destruct (Ascii.eqb_spec x NL) as [->|Hx].
    + intros [<-|HI]; [intros H; apply drop_in in H; auto|]. exact (IH [] (fun H => H) l HI).
    + apply IH. intros H. apply in_app_iff in H as [H|[->|[]]]; auto.
Qed.
Lemma empty_NL l : ~ In NL l -> emptyLine (l ++ [NL]) = match l with [] => true | _ => false end.
Proof. intros H. destruct l as [|x l]; [reflexivity|]. cbn [app emptyLine]. destruct l; reflexivity. Qed.
Definition nonEmpty (l : text) : bool := match l with [] => false | _ => true end.
Lemma records_plain sep eof : sep <> [] -> ~ In NL sep -> forall ls tl fuel n,
  (forall l, In l (ls ++ tl) -> ~ In NL l /\ ~ In """"%char l) -> (length (ls ++ tl) < fuel)%nat -> (length tl <= 1)%nat ->
  readRecords fuel sep n (map (fun l => l ++ [NL]) ls ++ tl) eof =
  let '(a, b) := sameFields n (map (fun l => csvFields (S (length l)) sep l) (filter nonEmpty (ls ++ tl))) in (a, b && eof).
Proof.
  intros Hne HN.
  assert (HR : forall k rest rest' l nl n x, ~ In NL l -> ~ In """"%char l -> nl = [] \/ nl = [NL] -> l <> [] ->
    (forall n, readRecords k sep n rest eof = let '(a, b) := sameFields n rest' in (a, b && eof)) -> x = l ++ nl ->
    match readFields (S (length (concat (x :: rest)))) sep x rest [] with
    | None => ([], false)
    | Some (rec, ls'') => let go := let '(a, b) := readRecords k sep (Some (length rec)) ls'' eof in (rec :: a, b) in
        match n with None => go | Some m => if Nat.eqb (length rec) m then go else ([], false) end
    end = (let '(a, b) := sameFields n (csvFields (S (length l)) sep l :: rest') in (a, b && eof))).
  { intros k rest rest' l nl n x H1 H2 H3 H4 HI ->. rewrite fields_plain; auto; [|cbn [concat]; rewrite !app_length; lia]. cbn [app].
    rewrite (fields_enough sep Hne _ (S (length l)) l); [|cbn [concat]; rewrite !app_length; lia|lia]. cbn zeta. rewrite HI. cbn [sameFields].
    set (fs := csvFields (S (length l)) sep l). destruct (sameFields (Some (length fs)) rest') as [a b]. destruct n as [m|]; [|reflexivity]. destruct (Nat.eqb (length fs) m); reflexivity. }
  induction ls as [|l ls IH]; intros tl fuel n Hin Hf Htl; (destruct fuel as [|fuel]; [lia|]).
  - cbn [map app] in *. destruct tl as [|l tl]; [reflexivity|]. destruct tl; [|simpl in Htl; lia]. cbn [readRecords]. destruct (Hin l) as [Ha Hb]; [left; auto|].
    destruct fuel as [|fuel]; [simpl in Hf; lia|].
    assert (HL : emptyLine l = negb (nonEmpty l)).
    { destruct l as [|x [|y l]]; try reflexivity. cbn. destruct (Ascii.eqb_spec x NL) as [->|]; [exfalso; apply Ha; left; auto|reflexivity]. }
    rewrite HL. cbn [filter]. destruct (nonEmpty l) eqn:E; cbn [negb map]; [|reflexivity].
    apply (HR (S fuel) [] [] l [] n l); auto.
    + destruct l; [discriminate E|discriminate].
    + rewrite app_nil_r. auto.
  - cbn [map app readRecords]. destruct (Hin l) as [Ha Hb]; [left; auto|]. rewrite (empty_NL l Ha). cbn [filter].
    assert (HI : forall n, readRecords fuel sep n (map (fun l => l ++ [NL]) ls ++ tl) eof = let '(a, b) := sameFields n (map (fun l => csvFields (S (length l)) sep l) (filter nonEmpty (ls ++ tl))) in (a, b && eof)).
    { intros n'. apply IH; [intros y Hy; apply Hin; right; auto|simpl in Hf; lia|auto]. }
    destruct l as [|x l0] eqn:El; [apply HI|]. rewrite <- El in *. replace (nonEmpty l) with true by (rewrite El; reflexivity). cbn [map].
    refine (HR fuel _ _ l [NL] n (l ++ [NL]) Ha Hb _ _ HI eq_refl); [auto|rewrite El; discriminate].
Qed.
Lemma delim_valid sep : goodDelim sep -> validDelim sep = true.
Proof.
  intros (H1 & H2 & H3 & H4 & H5 & H6). unfold validDelim. apply negb_true_iff, Bool.not_true_is_false. intros H. apply existsb_exists in H as (x & Hx & HE). apply text_eqb_iff in HE. subst x.
  destruct Hx as [<-|[<-|[<-|[<-|[<-|[]]]]]]; [congruence|apply H4; left; auto|apply H3; left; auto|apply H2; left; auto|congruence].
Qed.
Theorem reader_ok : ReaderOk csvRead.
Proof.
  intros sep t eof HG Hq. unfold csvRead, csvPlain. rewrite (delim_valid sep HG). destruct HG as (Hne & HN & _). cbn zeta.
  assert (Hin : forall l, In l (csvTextLines [] t eof) -> ~ In NL l /\ ~ In """"%char l).
  { intros l Hl. split; [exact (lines_oneLine eof t [] (fun H => H) l Hl)|]. intros H. destruct (lines_in eof _ t [] l Hl H) as [[]|H']. auto. }
  fold nonEmpty. destruct eof.
  - destruct (raw_lines t []) as (ls & last & [[H1 H2]|[H1 H2]]); rewrite H1, H2; rewrite H1 in Hin.
    + destruct last as [|x last0] eqn:El.
      * rewrite (records_plain sep true Hne HN ls [] (S _) None); [|intros l Hl; apply Hin; rewrite app_nil_r in Hl; apply in_app_iff; auto|rewrite !app_nil_r, map_length; lia|simpl; lia].
        rewrite app_nil_r, filter_app. cbn [filter nonEmpty]. rewrite app_nil_r. reflexivity.
      * rewrite <- El in *. rewrite (records_plain sep true Hne HN ls [last] (S _) None); [reflexivity|auto|rewrite !app_length, map_length; lia|simpl; lia].
    + rewrite (records_plain sep true Hne HN ls [[]] (S _) None); [reflexivity|auto|rewrite !app_length, map_length; lia|simpl; lia].
  - rewrite raw_lines_err. pose proof (records_plain sep false Hne HN (csvTextLines [] t false) [] (S (length (csvTextLines [] t false))) None) as HP.
    rewrite !app_nil_r in HP. rewrite map_length. cbn [length] in HP. apply HP; [auto|apply Nat.lt_succ_diag_r|apply Nat.le_0_l].
Qed.
