(** Lemmas on the text formats: words, lines, the LibSVM reader. *)
From Coq Require Import Ascii String Reals.
From Flocq Require Import Core IEEE754.BinarySingleNaN.
From Verif Require Import Base F64 Env F64Lemmas Utils Text Confu Readers SpecReaders.
From Coq Require Import List.
Open Scope Z_scope.

(** ** White space *)
Lemma byteOf_eq c k : byteOf c = Z.of_nat k -> c = ascii_of_nat k.
Proof. unfold byteOf. intros H. apply Nat2Z.inj in H. rewrite <- H. symmetry. apply ascii_nat_embedding. Qed.
Lemma byteOf_is c k : 0 <= k -> byteOf c = k -> c = ascii_of_nat (Z.to_nat k).
Proof. intros Hk H. apply byteOf_eq. lia. Qed.
Lemma spaceLen_pos t n : spaceLen t = S n -> exists w b, In w whiteSpaces /\ t = w ++ b /\ length w = S n.
Proof.
  assert (HIN : forall l : list nat, existsb (fun w => if list_eq_dec ascii_dec w (map ascii_of_nat l) then true else false) whiteSpaces = true ->
    In (map ascii_of_nat l) whiteSpaces).
  { intros l H. apply existsb_exists in H as (w & Hw & H). destruct (list_eq_dec _ _ _) as [->|]; [exact Hw|discriminate]. }
  unfold spaceLen. destruct t as [|c t]; [discriminate|].
  destruct (((9 <=? byteOf c) && (byteOf c <=? 13)) || (byteOf c =? 32)) eqn:E1.
  - intros [= <-].
    assert (HC : byteOf c = 9 \/ byteOf c = 10 \/ byteOf c = 11 \/ byteOf c = 12 \/ byteOf c = 13 \/ byteOf c = 32) by lia.
    exists [c], t. split; [|auto].
    destruct HC as [H|[H|[H|[H|[H|H]]]]]; apply byteOf_is in H; try lia; rewrite H; apply (HIN [_]); reflexivity.
  - destruct t as [|c2 t]; [discriminate|].
    destruct ((byteOf c =? 194) && ((byteOf c2 =? 133) || (byteOf c2 =? 160))) eqn:E2.
    + intros [= <-]. exists [c; c2], t. split; [|auto].
      assert (HC : byteOf c = 194 /\ (byteOf c2 = 133 \/ byteOf c2 = 160)) by lia.
      destruct HC as [H [H2|H2]]; apply byteOf_is in H; try lia; apply byteOf_is in H2; try lia; rewrite H, H2; apply (HIN [_; _]); reflexivity.
    + destruct t as [|c3 t]; [discriminate|].
      match goal with |- (if ?x then _ else _) = _ -> _ => destruct x eqn:E3 end; [|discriminate].
      intros [= <-]. exists [c; c2; c3], t. split; [|auto].
      assert (HC : (byteOf c = 225 /\ byteOf c2 = 154 /\ byteOf c3 = 128) \/ (byteOf c = 226 /\ byteOf c2 = 129 /\ byteOf c3 = 159) \/
        (byteOf c = 227 /\ byteOf c2 = 128 /\ byteOf c3 = 128) \/ (byteOf c = 226 /\ byteOf c2 = 128 /\ (128 <= byteOf c3 <= 138 \/ byteOf c3 = 168 \/ byteOf c3 = 169 \/ byteOf c3 = 175))) by lia.
      destruct HC as [(Ha & Hb & Hc)|[(Ha & Hb & Hc)|[(Ha & Hb & Hc)|(Ha & Hb & Hc)]]];
        apply byteOf_is in Ha; try lia; apply byteOf_is in Hb; try lia; rewrite Ha, Hb.
      1-3: apply byteOf_is in Hc; [|lia]; rewrite Hc; apply (HIN [_; _; _]); reflexivity.
      assert (HD : byteOf c3 = 128 \/ byteOf c3 = 129 \/ byteOf c3 = 130 \/ byteOf c3 = 131 \/ byteOf c3 = 132 \/ byteOf c3 = 133 \/ byteOf c3 = 134 \/
        byteOf c3 = 135 \/ byteOf c3 = 136 \/ byteOf c3 = 137 \/ byteOf c3 = 138 \/ byteOf c3 = 168 \/ byteOf c3 = 169 \/ byteOf c3 = 175) by lia.
      clear Hc. repeat destruct HD as [HD|HD]; apply byteOf_is in HD; try lia; rewrite HD; apply (HIN [_; _; _]); reflexivity.
Qed.
Lemma spaceLen_app w b : In w whiteSpaces -> spaceLen (w ++ b) = length w.
Proof. cbv [whiteSpaces map app In]. intros H. repeat destruct H as [<-|H]; [reflexivity..|destruct H]. Qed.
Lemma white_len w : In w whiteSpaces -> exists c t, w = c :: t.
Proof. cbv [whiteSpaces map app In]. intros H. repeat destruct H as [<-|H]; [eauto..|destruct H]. Qed.
(** no white space begins inside another one *)
Definition noStraddle : bool :=
  forallb (fun w => match w with [] => true | _ :: t => forallb (fun x => forallb (fun w' => match w' with y :: _ => negb (Ascii.eqb x y) | [] => true end) whiteSpaces) t end) whiteSpaces.
Lemma noStraddle_ok : noStraddle = true.
Proof. vm_compute. reflexivity. Qed.
Lemma white_inner c a x b y t : In (c :: a ++ x :: b) whiteSpaces -> In (y :: t) whiteSpaces -> x <> y.
Proof.
  intros H1 H2 ->. pose proof noStraddle_ok as H. unfold noStraddle in H. rewrite forallb_forall in H. specialize (H _ H1). cbn iota in H.
  rewrite forallb_forall in H. assert (Hy : In y (a ++ y :: b)) by (apply in_app_iff; right; simpl; auto).
  specialize (H _ Hy). cbn beta in H. rewrite forallb_forall in H. specialize (H _ H2). cbn iota beta in H. rewrite Ascii.eqb_refl in H. discriminate H.
Qed.
Lemma fields_skip k : forall cur a t, length a = k -> fieldsFrom k cur (a ++ t) = fieldsFrom 0 cur t.
Proof. induction k as [|k IH]; intros cur a t H; destruct a as [|c a]; try discriminate H; [reflexivity|]. simpl in H. cbn [app fieldsFrom]. apply IH. lia. Qed.
Lemma fields_white w t cur : In w whiteSpaces -> fieldsFrom 0 cur (w ++ t) = match cur with [] => fieldsFrom 0 [] t | _ => cur :: fieldsFrom 0 [] t end.
Proof.
  intros Hw. pose proof (spaceLen_app w t Hw) as HS. destruct (white_len w Hw) as (c & a & ->).
  cbn [app fieldsFrom]. cbn [app] in HS. rewrite HS. cbn [length]. rewrite (fields_skip (length a) [] a t eq_refl). destruct cur; reflexivity.
Qed.
Lemma fields_blank b t : blank b -> fieldsFrom 0 [] (b ++ t) = fieldsFrom 0 [] t.
Proof. induction 1 as [|w b Hw Hb IH]; [reflexivity|]. rewrite <- app_assoc, fields_white; auto. Qed.
Lemma solid_tail c f : solid (c :: f) -> solid f.
Proof. intros H a w b Hw ->. apply (H (c :: a) w b Hw). reflexivity. Qed.
Lemma app_cases {A} (w b f rest : list A) : w ++ b = f ++ rest -> (exists m, f = w ++ m) \/ (exists x m, w = f ++ x :: m /\ rest = x :: m ++ b).
Proof.
  revert f; induction w as [|c w IH]; intros f H; [left; exists f; auto|].
  destruct f as [|d f]; [right; exists c, w; simpl in H; auto|].
  injection H as -> H. apply IH in H as [(m & ->)|(x & m & -> & ->)]; [left; exists m; auto|right; exists x, m; auto].
Qed.
Lemma spaceLen_solid c f rest : solid (c :: f) -> startsBlank rest -> spaceLen (c :: f ++ rest) = O.
Proof.
  intros Hs Hr. destruct (spaceLen (c :: f ++ rest)) as [|n] eqn:E; [auto|]. exfalso. apply spaceLen_pos in E as (w & b & Hw & HE & _).
  symmetry in HE. change (c :: f ++ rest) with ((c :: f) ++ rest) in HE. apply app_cases in HE as [(m & HE)|(x & m & HE & HR)].
  - apply (Hs [] w m Hw). exact HE.
  - destruct Hr as [->|(w' & b' & Hw' & ->)]; [discriminate HR|]. destruct (white_len w' Hw') as (y & t & ->). injection HR as -> _.
    subst w. apply (white_inner c f x m x t Hw Hw'). reflexivity.
Qed.
Lemma fields_solid f : forall cur rest, solid f -> startsBlank rest -> fieldsFrom 0 cur (f ++ rest) = fieldsFrom 0 (cur ++ f) rest.
Proof.
  induction f as [|c f IH]; intros cur rest Hs Hr; [rewrite app_nil_r; reflexivity|].
  pose proof (spaceLen_solid c f rest Hs Hr) as HS. cbn [app fieldsFrom]. rewrite HS, IH; [|eapply solid_tail; eauto|auto]. rewrite <- app_assoc. reflexivity.
Qed.
Lemma fields_words t fs : wordsOf t fs -> fieldsT t = fs.
Proof.
  unfold fieldsT. induction 1 as [b Hb|b f rest fs Hb Hf Hs Hr Hw IH].
  - rewrite <- (app_nil_r b), fields_blank; auto.
  - rewrite fields_blank, fields_solid; auto. cbn [app]. destruct Hr as [->|(w & b' & Hww & ->)].
    + simpl in IH |- *. rewrite <- IH. destruct f; [congruence|reflexivity].
    + rewrite fields_white in IH by auto. rewrite fields_white by auto. rewrite IH. destruct f; [congruence|reflexivity].
Qed.
Lemma solid_prefix t : exists f rest, t = f ++ rest /\ solid f /\ startsBlank rest.
Proof.
  induction t as [|c t (f & rest & -> & Hs & Hr)].
  - exists [], []. split; [auto|]. split; [|left; auto]. intros a w b Hw H. destruct (white_len w Hw) as (x & y & ->). destruct a; discriminate H.
  - destruct (spaceLen (c :: f ++ rest)) as [|n] eqn:E.
    + exists (c :: f), rest. split; [auto|]. split; [|auto]. intros a w b Hw H. destruct a as [|x a].
      * simpl in H. change (c :: f ++ rest) with ((c :: f) ++ rest) in E. rewrite H, <- app_assoc, (spaceLen_app w (b ++ rest) Hw) in E.
        destruct (white_len w Hw) as (x & y & ->). discriminate E.
      * injection H as -> H. exact (Hs a w b Hw H).
    + apply spaceLen_pos in E as (w & b & Hw & HE & _). exists [], (c :: f ++ rest). split; [auto|]. split; [|right; eauto].
      intros a w' b' Hw' H. destruct (white_len w' Hw') as (x & y & ->). destruct a; discriminate H.
Qed.
Lemma words_white w t fs : In w whiteSpaces -> wordsOf t fs -> wordsOf (w ++ t) fs.
Proof.
  intros Hw H. destruct H as [b Hb|b f rest fs Hb Hf Hs Hr H].
  - constructor. constructor; auto.
  - rewrite app_assoc. constructor; auto. constructor; auto.
Qed.
Lemma words_exist : forall n t, (length t <= n)%nat -> exists fs, wordsOf t fs.
Proof.
  induction n as [|n IH]; intros t Hn.
  - destruct t; [|simpl in Hn; lia]. exists []. constructor. constructor.
  - destruct (solid_prefix t) as (f & rest & -> & Hs & Hr). destruct f as [|c f].
    + destruct Hr as [->|(w & b & Hw & ->)]; [exists []; constructor; constructor|].
      destruct (white_len w Hw) as (x & y & ->). cbn [app length] in Hn. rewrite app_length in Hn.
      destruct (IH b) as (fs & H); [lia|]. exists fs. apply (words_white _ _ _ Hw H).
    + destruct (IH rest) as (fs & H); [simpl in Hn; rewrite app_length in Hn; lia|].
      exists ((c :: f) :: fs). apply (words_cons [] (c :: f) rest fs); auto; [constructor|discriminate].
Qed.
Lemma words_iff t fs : wordsOf t fs <-> fieldsT t = fs.
Proof.
  split; [apply fields_words|]. intros <-. destruct (words_exist (length t) t) as (fs & H); [lia|]. rewrite (fields_words t fs H). exact H.
Qed.
Lemma white_NL : In [NL] whiteSpaces.
Proof. cbv [whiteSpaces map app In]. right. left. reflexivity. Qed.
Lemma blank_app a b : blank a -> blank b -> blank (a ++ b).
Proof. induction 1; auto. intros Hb. rewrite <- app_assoc. constructor; auto. Qed.
Lemma blank_NL : blank [NL].
Proof. apply (blank_cons [NL] []); [apply white_NL|constructor]. Qed.
Lemma words_NL t fs : wordsOf t fs -> wordsOf (t ++ [NL]) fs.
Proof.
  induction 1 as [b Hb|b f rest fs Hb Hf Hs Hr Hw IH].
  - constructor. apply blank_app; [auto|apply blank_NL].
  - rewrite <- !app_assoc. constructor; auto. destruct Hr as [->|(w & b' & Hww & ->)].
    + right. exists [NL], []. split; [apply white_NL|auto].
    + right. exists w, (b' ++ [NL]). rewrite app_assoc. auto.
Qed.
Lemma fields_NL t : fieldsT (t ++ [NL]) = fieldsT t.
Proof. apply fields_words, words_NL. apply words_iff. reflexivity. Qed.
(** a line has no words exactly when it is blank *)
Lemma words_none t : wordsOf t [] <-> blank t.
Proof. split; [intros H; inversion H; auto|constructor; auto]. Qed.

(** ** Splitting at one byte *)
Lemma split1_more c a t cur : ~ In c a -> splitFrom [c] 0 cur (a ++ c :: t) = (cur ++ a) :: splitFrom [c] 0 [] t.
Proof.
  revert cur; induction a as [|x a IH]; intros cur Hn; cbn [app splitFrom hasPrefix].
  - rewrite Ascii.eqb_refl. cbn. rewrite app_nil_r. destruct t; reflexivity.
  - destruct (Ascii.eqb_spec c x) as [->|Hne]; [exfalso; apply Hn; left; auto|]. cbn [andb].
    rewrite IH; [|intros H; apply Hn; right; auto]. rewrite <- app_assoc. reflexivity.
Qed.
Lemma split1_last c a cur : ~ In c a -> splitFrom [c] 0 cur a = [cur ++ a].
Proof.
  revert cur; induction a as [|x a IH]; intros cur Hn; cbn [splitFrom hasPrefix]; [rewrite app_nil_r; auto|].
  destruct (Ascii.eqb_spec c x) as [->|Hne]; [exfalso; apply Hn; left; auto|]. cbn [andb].
  rewrite IH; [|intros H; apply Hn; right; auto]. rewrite <- app_assoc. reflexivity.
Qed.
Lemma first_of (c : ascii) (t : text) : (exists a b, t = a ++ c :: b /\ ~ In c a) \/ ~ In c t.
Proof.
  induction t as [|x t IH]; [right; simpl; tauto|]. destruct (ascii_dec x c) as [->|Hne]; [left; exists [], t; simpl; auto|].
  destruct IH as [(a & b & -> & H)|H].
  - left. exists (x :: a), b. split; [auto|]. intros [E|E]; auto.
  - right. intros [E|E]; auto.
Qed.
Lemma split_nonempty sep : forall t skip cur, splitFrom sep skip cur t <> [].
Proof. induction t as [|c t IH]; intros skip cur; cbn [splitFrom]; [discriminate|]. destruct skip; [destruct (hasPrefix _ _); [discriminate|auto]|auto]. Qed.
Lemma split_term f a v : splitT f (tx ":") = [a; v] <-> f = a ++ tx ":" ++ v /\ ~ In ":"%char a /\ ~ In ":"%char v.
Proof.
  unfold splitT. change (tx ":") with [":"%char]. split.
  - destruct (first_of ":"%char f) as [(x & y & -> & Hx)|Hx].
    + rewrite split1_more by auto. intros [= <- H]. destruct (first_of ":"%char y) as [(x2 & y2 & -> & Hx2)|Hx2].
      * exfalso. rewrite split1_more in H by auto. injection H as _ H. exact (split_nonempty _ _ _ _ H).
      * rewrite split1_last in H by auto. injection H as <-. auto.
    + rewrite split1_last by auto. intros [=].
  - intros (-> & Ha & Hv). cbn [app]. rewrite split1_more by auto. rewrite split1_last by auto. reflexivity.
Qed.
(** joining the parts gives the text back *)
Lemma hasPrefix_skipn t p : hasPrefix t p = true -> t = p ++ skipn (length p) t.
Proof. intros H. apply hasPrefix_iff in H as (r & ->). rewrite skipn_app, skipn_all, Nat.sub_diag. reflexivity. Qed.
Lemma join_cons a b l sep : joinT (a :: b :: l) sep = a ++ sep ++ joinT (b :: l) sep.
Proof. reflexivity. Qed.
Lemma split_skip sep : forall k cur a t, length a = k -> splitFrom sep k cur (a ++ t) = splitFrom sep 0 cur t.
Proof. induction k as [|k IH]; intros cur a t H; destruct a as [|c a]; try discriminate H; [reflexivity|]. cbn [app splitFrom]. apply IH. simpl in H. lia. Qed.
Lemma split_join sep : sep <> [] -> forall n t cur, (length t <= n)%nat -> joinT (splitFrom sep 0 cur t) sep = cur ++ t.
Proof.
  intros Hsep. induction n as [|n IH]; intros t cur Hn.
  - destruct t; [|simpl in Hn; lia]. simpl. rewrite app_nil_r. auto.
  - destruct t as [|c t]; [simpl; rewrite app_nil_r; auto|]. cbn [splitFrom]. destruct (hasPrefix (c :: t) sep) eqn:E.
    + apply hasPrefix_iff in E as (r & E). destruct sep as [|s0 sep]; [congruence|]. injection E as -> E. cbn [Nat.pred length].
      subst t. rewrite (split_skip _ (length sep) [] sep r eq_refl).
      destruct (splitFrom (s0 :: sep) 0 [] r) as [|p ps] eqn:EP; [exfalso; exact (split_nonempty _ _ _ _ EP)|].
      rewrite join_cons, <- EP, IH; [reflexivity|]. simpl in Hn. rewrite app_length in Hn. lia.
    + rewrite IH; [rewrite <- app_assoc; auto|simpl in Hn; lia].
Qed.
Lemma splitT_join t sep : sep <> [] -> joinT (splitT t sep) sep = t.
Proof. intros H. exact (split_join sep H (length t) t [] (Nat.le_refl _)). Qed.

(** ** Lines *)
Lemma unlines_cons l ls last : unlines (l :: ls) last = l ++ NL :: unlines ls last.
Proof. unfold unlines. cbn [map concat]. rewrite <- !app_assoc. reflexivity. Qed.
Lemma readLine_unlines l ls last : oneLine l -> readLine (unlines (l :: ls) last) = Some (l ++ [NL], unlines ls last).
Proof. intros H. rewrite unlines_cons. apply readLine_app. exact H. Qed.
(** every text is made of lines *)
Lemma text_lines t : exists ls last, t = unlines ls last /\ Forall oneLine ls /\ oneLine last.
Proof.
  induction t as [|c t (ls & last & -> & Hls & Hl)]; [exists [], []; split; [auto|split; [auto|intros []]]|].
  destruct (ascii_dec c NL) as [->|Hc]; [exists ([] :: ls), last; rewrite unlines_cons; split; [auto|split; [constructor; [intros []|auto]|auto]]|].
  destruct ls as [|l ls].
  - exists [], (c :: last). split; [auto|]. split; [auto|]. intros [H|H]; auto.
  - exists ((c :: l) :: ls), last. rewrite !unlines_cons. split; [auto|]. split; [|auto]. inversion Hls; subst. constructor; auto. intros [H|H]; auto.
Qed.
Lemma unlines_len ls last : (length ls <= length (unlines ls last))%nat.
Proof. induction ls as [|l ls IH]; [simpl; lia|]. rewrite unlines_cons, app_length. simpl. lia. Qed.

(** ** The LibSVM reader *)
Lemma svm_fields pf hdr : forall fs rets retf, svmFields pf hdr fs rets retf = match svmFields pf hdr fs [] [] with Some (a, b) => Some (rets ++ a, retf ++ b) | None => None end.
Proof.
  induction fs as [|f fs IH]; intros rets retf; cbn [svmFields]; [rewrite !app_nil_r; auto|].
  destruct (splitT f (tx ":")) as [|a [|v [|]]]; auto. destruct hdr.
  - rewrite IH. rewrite (IH ([] ++ [v]) []). destruct (svmFields pf true fs [] []) as [[x y]|]; auto. rewrite <- app_assoc. reflexivity.
  - destruct (pf v) as [x|]; auto. rewrite IH. rewrite (IH [] ([] ++ [x])). destruct (svmFields pf false fs [] []) as [[p y]|]; auto. rewrite <- app_assoc. reflexivity.
Qed.
Lemma svm_fields_hdr pf fs ks fl : svmFields pf true fs [] [] = Some (ks, fl) <-> Forall2 term fs ks /\ fl = [].
Proof.
  revert ks fl; induction fs as [|f fs IH]; intros ks fl; cbn [svmFields].
  - split; [intros [= <- <-]; auto|]. intros (H & ->). inversion H. auto.
  - split.
    + destruct (splitT f (tx ":")) as [|a [|v [|]]] eqn:E; try discriminate. rewrite svm_fields.
      destruct (svmFields pf true fs [] []) as [[x y]|]; [|discriminate]. intros [= <- <-].
      destruct (proj1 (IH x y) eq_refl) as [H1 ->]. split; [|auto]. constructor; auto. exists a. apply split_term. auto.
    + intros (H & ->). inversion H as [|? k ? ks' (a & Ha) HF]; subst. apply split_term in Ha. rewrite Ha, svm_fields.
      rewrite (proj2 (IH ks' [])); auto.
Qed.
Lemma svm_fields_row pf fs ks fl : svmFields pf false fs [] [] = Some (ks, fl) <-> Forall2 (fun f x => exists v, term f v /\ pf v = Some x) fs fl /\ ks = [].
Proof.
  revert ks fl; induction fs as [|f fs IH]; intros ks fl; cbn [svmFields].
  - split; [intros [= <- <-]; auto|]. intros (H & ->). inversion H. auto.
  - split.
    + destruct (splitT f (tx ":")) as [|a [|v [|]]] eqn:E; try discriminate. destruct (pf v) as [z|] eqn:EP; [|discriminate]. rewrite svm_fields.
      destruct (svmFields pf false fs [] []) as [[x y]|]; [|discriminate]. intros [= <- <-].
      destruct (proj1 (IH x y) eq_refl) as [H1 ->]. split; [|auto]. constructor; auto. exists v. split; [|auto]. exists a. apply split_term. auto.
    + intros (H & ->). inversion H as [|? k ? ks' (v & (a & Ha) & HP) HF]; subst. apply split_term in Ha. rewrite Ha, HP, svm_fields.
      rewrite (proj2 (IH [] ks')); auto.
Qed.
Lemma line_panic pf l hdr : parseLibSVMLine pf (l ++ [NL]) hdr = Panic <-> blank l.
Proof.
  unfold parseLibSVMLine. rewrite fields_NL, <- words_none, words_iff. destruct (fieldsT l) as [|f fs]; [tauto|]. split; [|discriminate].
  destruct (if hdr then Some 0 else atoi f); [|discriminate]. destruct (svmFields pf hdr fs [] []) as [[x y]|]; discriminate.
Qed.
Lemma line_not_div pf l hdr : parseLibSVMLine pf l hdr <> Diverge.
Proof. unfold parseLibSVMLine. destruct (fieldsT l); [discriminate|]. destruct (if hdr then Some 0 else atoi _); [|discriminate]. destruct (svmFields _ _ _ _ _) as [[x y]|]; discriminate. Qed.
Lemma line_header pf l c ks fl : parseLibSVMLine pf (l ++ [NL]) true = Ok (Some (c, ks, fl)) <-> svmHeader l ks /\ c = 0 /\ fl = [].
Proof.
  unfold parseLibSVMLine, svmHeader. rewrite fields_NL. split.
  - destruct (fieldsT l) as [|f fs] eqn:E; [discriminate|]. destruct (svmFields pf true fs [] []) as [[x y]|] eqn:ES; [|discriminate].
    intros [= <- <- <-]. apply svm_fields_hdr in ES as [H ->]. split; [|auto]. exists f, fs. split; [apply words_iff; auto|auto].
  - intros ((f & fs & Hw & HF) & -> & ->). apply words_iff in Hw. rewrite Hw. rewrite (proj2 (svm_fields_hdr pf fs ks [])); auto.
Qed.
Lemma line_row pf l c ks fl : parseLibSVMLine pf (l ++ [NL]) false = Ok (Some (c, ks, fl)) <-> svmRow pf l c fl /\ ks = [].
Proof.
  unfold parseLibSVMLine, svmRow. rewrite fields_NL. split.
  - destruct (fieldsT l) as [|f fs] eqn:E; [discriminate|]. destruct (atoi f) as [cl|] eqn:EA; [|discriminate].
    destruct (svmFields pf false fs [] []) as [[x y]|] eqn:ES; [|discriminate].
    intros [= <- <- <-]. apply svm_fields_row in ES as [H ->]. split; [|auto]. exists f, fs. split; [apply words_iff; auto|auto].
  - intros ((f & fs & Hw & HA & HF) & ->). apply words_iff in Hw. rewrite Hw, HA. rewrite (proj2 (svm_fields_row pf fs [] fl)); auto.
Qed.
(** the rows of the lines *)
Fixpoint rowsRun (pf : parser) (ls : list text) : res (option (list Z * list (list f64))) :=
  match ls with
  | [] => Ok (Some ([], []))
  | l :: t =>
      o <- parseLibSVMLine pf (l ++ [NL]) false ;;
      match o with
      | None => Ok None
      | Some (c, _, r) => p <- rowsRun pf t ;; match p with None => Ok None | Some (cs, rs) => Ok (Some (c :: cs, r :: rs)) end
      end
  end.
Lemma loop_rows pf last eof h : oneLine last -> forall ls fuel cont hs data labels, Forall oneLine ls -> (length ls < fuel)%nat -> h && (cont =? 0) = false -> 0 <= cont ->
  svmLoop pf fuel (unlines ls last) eof h cont hs data labels =
  (p <- rowsRun pf ls ;; match p with None => Ok None | Some (cs, rs) => if eof then Ok (Some (MkData (data ++ rs) hs (labels ++ cs))) else Ok None end).
Proof.
  intros HL. induction ls as [|l ls IH]; intros fuel cont hs data labels Hls Hf Hc H0; (destruct fuel as [|fuel]; [simpl in Hf; lia|]); cbn [svmLoop rowsRun].
  - unfold unlines. simpl. rewrite (proj2 (readLine_None last)) by exact HL. rewrite !app_nil_r. reflexivity.
  - inversion Hls; subst. rewrite readLine_unlines by auto. rewrite Hc.
    destruct (parseLibSVMLine pf (l ++ [NL]) false) as [[[[c ks] r]|]| |]; cbn [bind]; auto.
    rewrite IH; [|auto|simpl in Hf; lia| |lia].
    + destruct (rowsRun pf ls) as [[[cs rs]|]| |]; cbn [bind]; auto. destruct eof; auto. rewrite <- !app_assoc. reflexivity.
    + destruct h; auto. simpl. lia.
Qed.
Lemma parse_svm pf ls last eof h : Forall oneLine ls -> oneLine last ->
  ParseLibSVM pf (unlines ls last) eof h =
  match ls with
  | l :: t => if h then
      o <- parseLibSVMLine pf (l ++ [NL]) true ;;
      match o with None => Ok None | Some (_, hs, _) =>
        p <- rowsRun pf t ;; match p with None => Ok None | Some (cs, rs) => if eof then Ok (Some (MkData rs hs cs)) else Ok None end end
      else p <- rowsRun pf ls ;; match p with None => Ok None | Some (cs, rs) => if eof then Ok (Some (MkData rs [] cs)) else Ok None end
  | [] => if eof then Ok (Some (MkData [] [] [])) else Ok None
  end.
Proof.
  intros Hls HL. unfold ParseLibSVM. pose proof (unlines_len ls last) as HN. destruct ls as [|l t].
  - unfold unlines. cbn [map concat app svmLoop]. rewrite (proj2 (readLine_None last)) by exact HL. destruct eof; reflexivity.
  - destruct h.
    + cbn [svmLoop]. inversion Hls; subst. rewrite readLine_unlines by auto. cbn [andb]. rewrite Z.eqb_refl.
      destruct (parseLibSVMLine pf (l ++ [NL]) true) as [[[[c ks] r]|]| |]; cbn [bind]; auto.
      rewrite loop_rows; auto; simpl in HN; lia.
    + rewrite loop_rows; auto; [lia|lia].
Qed.
Lemma rows_run pf : forall ls cs rs, rowsRun pf ls = Ok (Some (cs, rs)) <-> length cs = length rs /\ Forall2 (fun l p => svmRow pf l (fst p) (snd p)) ls (combine cs rs).
Proof.
  induction ls as [|l ls IH]; intros cs rs; cbn [rowsRun].
  - split; [intros [= <- <-]; split; [auto|constructor]|]. intros (HL & H). inversion H as [HC|]. destruct cs, rs; try discriminate; auto.
  - split.
    + destruct (parseLibSVMLine pf (l ++ [NL]) false) as [[[[c ks] r]|]| |] eqn:E; cbn [bind]; try discriminate.
      destruct (rowsRun pf ls) as [[[cs' rs']|]| |]; cbn [bind]; try discriminate. intros [= <- <-].
      destruct (proj1 (IH cs' rs') eq_refl) as [HL HF]. apply line_row in E as [E _]. split; [simpl; lia|]. constructor; auto.
    + intros (HL & H). destruct cs as [|c cs], rs as [|r rs]; simpl in HL; try lia; [inversion H|]. cbn [combine] in H. inversion H as [|? ? ? ? H1 H2]; subst.
      simpl in H1. rewrite (proj2 (line_row pf l c [] r)) by auto. cbn [bind]. rewrite (proj2 (IH cs rs)) by auto. reflexivity.
Qed.
Lemma rows_panic pf : forall ls, rowsRun pf ls = Panic <-> exists pre l post cs rs, ls = pre ++ l :: post /\ blank l /\ rowsRun pf pre = Ok (Some (cs, rs)).
Proof.
  induction ls as [|l ls IH]; cbn [rowsRun].
  - split; [discriminate|]. intros (pre & l & post & cs & rs & H & _). destruct pre; discriminate H.
  - split.
    + destruct (parseLibSVMLine pf (l ++ [NL]) false) as [[[[c ks] r]|]| |] eqn:E; cbn [bind]; try discriminate.
      * destruct (rowsRun pf ls) as [[[cs' rs']|]| |]; cbn [bind]; try discriminate. intros _.
        destruct (proj1 IH eq_refl) as (pre & l' & post & cs & rs & -> & Hb & HR). exists (l :: pre), l', post, (c :: cs), (r :: rs).
        split; [auto|]. split; [auto|]. cbn [rowsRun]. rewrite E. cbn [bind]. rewrite HR. reflexivity.
      * intros _. exists [], l, ls, [], []. split; [auto|]. split; [|auto]. apply line_panic in E. exact E.
    + intros (pre & l' & post & cs & rs & H & Hb & HR). destruct pre as [|x pre].
      * injection H as <- <-. rewrite (proj2 (line_panic pf l false) Hb). reflexivity.
      * injection H as <- ->. cbn [rowsRun] in HR. destruct (parseLibSVMLine pf (l ++ [NL]) false) as [[[[c ks] r]|]| |]; cbn [bind] in HR; try discriminate.
        destruct (rowsRun pf pre) as [[[cs' rs']|]| |] eqn:EP; cbn [bind] in HR; try discriminate.
        cbn [bind]. rewrite (proj2 IH); [reflexivity|]. exists pre, l', post, cs', rs'. auto.
Qed.
Lemma rows_not_div pf : forall ls, rowsRun pf ls <> Diverge.
Proof.
  induction ls as [|l ls IH]; cbn [rowsRun]; [discriminate|]. pose proof (line_not_div pf (l ++ [NL]) false).
  destruct (parseLibSVMLine pf (l ++ [NL]) false) as [[[[c ks] r]|]| |]; cbn [bind]; try congruence.
  destruct (rowsRun pf ls) as [[[cs' rs']|]| |]; cbn [bind]; congruence.
Qed.

Theorem svm_data pf ls last eof h D : Forall oneLine ls -> oneLine last ->
  ParseLibSVM pf (unlines ls last) eof h = Ok (Some D) <-> eof = true /\ svmDoc pf h ls D.
Proof.
  intros Hls HL. rewrite parse_svm by auto. unfold svmDoc, svmRows. destruct ls as [|l t].
  - destruct eof.
    + split.
      * intros [= <-]. split; auto. destruct h; auto. simpl. auto.
      * intros [_ H]. destruct h; [congruence|]. destruct H as (HK & HL2 & HF). destruct D as [d k lb]. simpl in *. inversion HF as [HC|]. destruct lb, d; try discriminate. congruence.
    + split; [discriminate|intros [? _]; discriminate].
  - destruct h.
    + split.
      * destruct (parseLibSVMLine pf (l ++ [NL]) true) as [[[[c ks] r]|]| |] eqn:E; cbn [bind]; try discriminate.
        destruct (rowsRun pf t) as [[[cs rs]|]| |] eqn:ER; cbn [bind]; try discriminate. destruct eof; [|discriminate].
        intros [= <-]. split; [auto|]. apply line_header in E as [E _]. apply rows_run in ER. simpl. auto.
      * intros (-> & HH & HR). rewrite (proj2 (line_header pf l 0 (Keys D) [])) by auto. cbn [bind].
        rewrite (proj2 (rows_run pf t (Labels D) (Data D))) by auto. cbn [bind]. destruct D; reflexivity.
    + split.
      * destruct (rowsRun pf (l :: t)) as [[[cs rs]|]| |] eqn:ER; cbn [bind]; try discriminate. destruct eof; [|discriminate].
        intros [= <-]. split; [auto|]. split; [auto|]. apply rows_run in ER. simpl. auto.
      * intros (-> & HK & HR). rewrite (proj2 (rows_run pf (l :: t) (Labels D) (Data D))) by auto. cbn [bind]. destruct D; simpl in *; congruence.
Qed.
Theorem svm_panic pf ls last eof h : Forall oneLine ls -> oneLine last ->
  ParseLibSVM pf (unlines ls last) eof h = Panic <-> exists pre l post D, ls = pre ++ l :: post /\ blank l /\ svmDoc pf h pre D.
Proof.
  intros Hls HL. rewrite parse_svm by auto. destruct ls as [|l t].
  - split; [destruct eof; discriminate|]. intros (pre & l & post & D & H & _). destruct pre; discriminate H.
  - destruct h.
    + split.
      * destruct (parseLibSVMLine pf (l ++ [NL]) true) as [[[[c ks] r]|]| |] eqn:E; cbn [bind]; try discriminate.
        -- destruct (rowsRun pf t) as [[[cs rs]|]| |] eqn:ER; cbn [bind]; try (destruct eof; discriminate); try discriminate. intros _.
           apply rows_panic in ER as (pre & l' & post & cs & rs & -> & Hb & HR). exists (l :: pre), l', post, (MkData rs ks cs).
           split; [auto|]. split; [auto|]. simpl. apply line_header in E as [E _]. split; auto. apply rows_run in HR. exact HR.
        -- intros _. apply line_panic in E. exists [], l, t, (MkData [] [] []). simpl. auto.
      * intros (pre & l' & post & D & H & Hb & HD). destruct pre as [|x pre].
        -- injection H as <- <-. rewrite (proj2 (line_panic pf l true) Hb). reflexivity.
        -- injection H as <- ->. simpl in HD. destruct HD as [HH HR]. rewrite (proj2 (line_header pf l 0 (Keys D) [])) by auto. cbn [bind].
           rewrite (proj2 (rows_panic pf (pre ++ l' :: post))); [reflexivity|]. exists pre, l', post, (Labels D), (Data D). split; [auto|]. split; [auto|]. apply rows_run. exact HR.
    + split.
      * destruct (rowsRun pf (l :: t)) as [[[cs rs]|]| |] eqn:ER; cbn [bind]; try (destruct eof; discriminate); try discriminate. intros _.
        apply rows_panic in ER as (pre & l' & post & cs & rs & -> & Hb & HR). exists pre, l', post, (MkData rs [] cs).
        split; [auto|]. split; [auto|]. simpl. split; auto. apply rows_run in HR. exact HR.
      * intros (pre & l' & post & D & H & Hb & HD). simpl in HD. destruct HD as [_ HR]. rewrite (proj2 (rows_panic pf (l :: t))); [reflexivity|].
        exists pre, l', post, (Labels D), (Data D). split; [auto|]. split; [auto|]. apply rows_run. exact HR.
Qed.
Theorem svm_terminates pf r eof h : ParseLibSVM pf r eof h <> Diverge.
Proof.
  destruct (text_lines r) as (ls & last & -> & Hls & HL). rewrite parse_svm by auto. destruct ls as [|l t]; [destruct eof; discriminate|]. destruct h.
  - pose proof (line_not_div pf (l ++ [NL]) true). destruct (parseLibSVMLine pf (l ++ [NL]) true) as [[[[c ks] r]|]| |]; cbn [bind]; try congruence.
    pose proof (rows_not_div pf t). destruct (rowsRun pf t) as [[[cs rs]|]| |]; cbn [bind]; try congruence. destruct eof; congruence.
  - pose proof (rows_not_div pf (l :: t)). destruct (rowsRun pf (l :: t)) as [[[cs rs]|]| |]; cbn [bind]; try congruence. destruct eof; congruence.
Qed.
