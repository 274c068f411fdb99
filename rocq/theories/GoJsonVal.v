(** Support for the theorems about JSON: the reader accepts exactly the texts of the grammar. *)
From Coq Require Import Ascii String Reals Lra.
From Verif Require Import Base F64 Env F64Lemmas Utils Tree Options Train Text Json Readers GoJson SpecGoJson GoJsonNum GoJsonStr.
From Coq Require Import List.
Open Scope Z_scope.

Scheme jtext_mut := Minimality for jtext Sort Prop
with jelems_mut := Minimality for jelems Sort Prop
with jmembers_mut := Minimality for jmembers Sort Prop.
Combined Scheme json_mut from jtext_mut, jelems_mut, jmembers_mut.

(** ** White space *)
Lemma isWs_iff c : isWs c = true <-> In c [" "%char; byteC 9; byteC 10; byteC 13].
Proof.
  unfold isWs. rewrite !orb_true_iff, !Z.eqb_eq, eqbT. cbn [In]. split.
  - intros [[[->|H]|H]|H]; auto; rewrite <- (byteC_byte c), H; auto.
  - intros [<-|[<-|[<-|[<-|[]]]]]; auto.
Qed.
Lemma wsT_iff w : wsT w <-> Forall (fun c => isWs c = true) w.
Proof. unfold wsT. split; intros H; (eapply Forall_impl; [|exact H]); intros c; apply isWs_iff. Qed.
Lemma skip_app w t : wsT w -> skipWs (w ++ t) = skipWs t.
Proof. intros H. apply wsT_iff in H. induction H as [|c w Hc _ IH]; cbn [app skipWs]; [auto|]. rewrite Hc. auto. Qed.
Lemma skip_here c t : isWs c = false -> skipWs (c :: t) = c :: t.
Proof. intros H. cbn. rewrite H. auto. Qed.
Lemma skip_split t : exists w, wsT w /\ t = w ++ skipWs t.
Proof.
  induction t as [|c t (w & Hw & HE)]; [exists []; split; [constructor|auto]|]. cbn [skipWs]. destruct (isWs c) eqn:E.
  - exists (c :: w). split; [apply wsT_iff; constructor; auto; apply wsT_iff; auto|]. cbn [app]. rewrite <- HE. auto.
  - exists []. split; [constructor|auto].
Qed.
Lemma skip_len t : (length (skipWs t) <= length t)%nat.
Proof. induction t as [|c t IH]; cbn [skipWs length]; [lia|]. destruct (isWs c); cbn [length]; lia. Qed.
Lemma ws_app a b : wsT a -> wsT b -> wsT (a ++ b).
Proof. intros. apply Forall_app; auto. Qed.

(** ** Literals and numbers *)
Lemma spanN_spec t : forall a b, spanN t = (a, b) -> t = a ++ b.
Proof.
  induction t as [|c t IH]; cbn [spanN]; intros a b; [intros [= <- <-]; auto|].
  destruct (numChar c); [|intros [= <- <-]; auto]. destruct (spanN t) as [x y]. intros [= <- <-]. cbn. f_equal. auto.
Qed.
Lemma spanN_app a b : (forall c, In c a -> numChar c = true) -> startsNot numChar b -> spanN (a ++ b) = (a, b).
Proof.
  induction a as [|c a IH]; intros Ha Hb.
  - destruct b as [|c b]; [reflexivity|]. cbn in *. rewrite Hb. auto.
  - cbn. rewrite (Ha c) by (left; auto). rewrite IH; auto. intros; apply Ha; right; auto.
Qed.
Lemma prefix_head c t d p : c <> d -> hasPrefix (c :: t) (d :: p) = false.
Proof. intros H. destruct (hasPrefix (c :: t) (d :: p)) eqn:E; auto. apply hasPrefix_iff in E as (r & E). injection E as E _. congruence. Qed.
Lemma litVal_sound t v r : litVal t = Some (v, r) -> exists b, jtext v b /\ t = b ++ r.
Proof.
  unfold litVal. destruct (hasPrefix t (tx "null")) eqn:E1.
  { apply hasPrefix_iff in E1 as (x & ->). intros [= <- <-]. eexists. split; [constructor|reflexivity]. }
  destruct (hasPrefix t (tx "true")) eqn:E2.
  { apply hasPrefix_iff in E2 as (x & ->). intros [= <- <-]. eexists. split; [constructor|reflexivity]. }
  destruct (hasPrefix t (tx "false")) eqn:E3.
  { apply hasPrefix_iff in E3 as (x & ->). intros [= <- <-]. eexists. split; [constructor|reflexivity]. }
  destruct (spanN t) as [n y] eqn:ES. apply spanN_spec in ES as ->. destruct (readNum n) as [p|] eqn:EN; [|discriminate]. intros [= <- <-].
  exists n. split; [|auto]. constructor. apply numText_read. congruence.
Qed.
Lemma litVal_num t r : numText t -> startsNot numChar r -> litVal (t ++ r) = Some (JNum t, r).
Proof.
  intros H Hr. destruct (numText_start _ H) as (c & x & E & Hc).
  assert (HN : forall d, numChar d = false -> c <> d).
  { intros d Hd ->. destruct Hc as [Hc| ->]; [|discriminate Hd]. rewrite (digit_num _ Hc) in Hd. discriminate Hd. }
  assert (HPr : forall d p, numChar d = false -> hasPrefix (t ++ r) (d :: p) = false) by (intros d p Hd; rewrite E; apply prefix_head, HN, Hd).
  unfold litVal. change (tx "null") with ("n"%char :: tx "ull"). change (tx "true") with ("t"%char :: tx "rue"). change (tx "false") with ("f"%char :: tx "alse").
  rewrite !HPr by reflexivity.
  rewrite spanN_app; auto; [|intros; eapply numText_chars; eauto]. destruct (readNum t) eqn:ER; auto. apply numText_read in H. congruence.
Qed.

(** ** Completeness *)
Lemma jtext_start v t : jtext v t -> exists c t', t = c :: t' /\ isWs c = false /\ c <> "]"%char /\ c <> "}"%char.
Proof.
  destruct 1; try (eexists _, _; split; [reflexivity|]; repeat split; discriminate).
  destruct (numText_start _ H) as (c & x & -> & Hc). exists c, x. split; auto.
  destruct Hc as [Hc| ->]; [|repeat split; discriminate]. repeat split; [|intros ->; discriminate Hc|intros ->; discriminate Hc].
  destruct (isWs c) eqn:E; auto. apply isWs_iff in E. cbn in E. destruct E as [<-|[<-|[<-|[<-|[]]]]]; discriminate Hc.
Qed.
Lemma jtext_len v t : jtext v t -> (1 <= length t)%nat.
Proof. intros H. apply jtext_start in H as (c & x & -> & _). cbn. lia. Qed.
Lemma skip_val v t r : jtext v t -> skipWs (t ++ r) = t ++ r.
Proof. intros H. apply jtext_start in H as (c & x & -> & Hc & _). apply skip_here; auto. Qed.
Lemma ws_startsNot w r : wsT w -> startsNot numChar r -> startsNot numChar (w ++ r).
Proof.
  intros Hw Hr. destruct w as [|c w]; [auto|]. cbn. inversion Hw as [|? ? Hc _]; subst. cbn in Hc. destruct Hc as [<-|[<-|[<-|[<-|[]]]]]; reflexivity.
Qed.
Lemma complete_all :
  (forall v t, jtext v t -> forall n r, (2 * length t <= n)%nat -> startsNot numChar r -> pVal n (t ++ r) = Some (v, r)) /\
  (forall l t, jelems l t -> forall n r, (2 * length t + 1 <= n)%nat -> pElems n (t ++ "]"%char :: r) = Some (l, r)) /\
  (forall l t, jmembers l t -> forall n r, (2 * length t + 1 <= n)%nat -> pMembers n (t ++ "}"%char :: r) = Some (l, r)).
Proof.
  apply json_mut.
  - intros n r Hn Hr. destruct n; [cbn in Hn; lia|]. reflexivity.
  - intros n r Hn Hr. destruct n; [cbn in Hn; lia|]. reflexivity.
  - intros n r Hn Hr. destruct n; [cbn in Hn; lia|]. reflexivity.
  - intros t HT n r Hn Hr. destruct (numText_start _ HT) as (c & x & E & Hc).
    destruct n; [rewrite E in Hn; cbn in Hn; lia|]. rewrite <- (litVal_num t r HT Hr). rewrite E. cbn [pVal app].
    rewrite !eqbF; auto; (destruct Hc as [Hc| ->]; [intros ->; discriminate Hc|discriminate]).
  - intros raw HB n r Hn Hr. destruct n; [cbn in Hn; lia|]. cbn [pVal app]. rewrite Ascii.eqb_refl, <- app_assoc. cbn [app].
    rewrite cutStr_complete by auto. auto.
  - intros w Hw n r Hn Hr. destruct n; [cbn in Hn; lia|]. cbn [pVal app]. rewrite <- app_assoc, skip_app by auto. reflexivity.
  - intros l t HE IH n r Hn Hr. destruct n; [cbn in Hn; lia|]. cbn [pVal app]. rewrite <- app_assoc. change (tx "]" ++ r) with ("]"%char :: r).
    assert (HS : exists d x, skipWs (t ++ "]"%char :: r) = d :: x /\ d <> "]"%char).
    { inversion HE; subst; rewrite <- !app_assoc, skip_app by auto;
        match goal with H : jtext ?v _ |- _ => rewrite (skip_val v) by auto; apply jtext_start in H as (c & x & -> & _ & H & _) end; eexists _, _; (split; [reflexivity|auto]). }
    destruct HS as (d & x & -> & Hd). change (Ascii.eqb "[" DQ) with false. change (Ascii.eqb "[" "[") with true. cbv iota. rewrite (eqbF _ _ Hd), IH; auto.
    cbn [length] in Hn. rewrite app_length in Hn. cbn in Hn. lia.
  - intros w Hw n r Hn Hr. destruct n; [cbn in Hn; lia|]. cbn [pVal app]. rewrite <- app_assoc, skip_app by auto. reflexivity.
  - intros l t HE IH n r Hn Hr. destruct n; [cbn in Hn; lia|]. cbn [pVal app]. rewrite <- app_assoc. change (tx "}" ++ r) with ("}"%char :: r).
    assert (HS : exists d x, skipWs (t ++ "}"%char :: r) = d :: x /\ d <> "}"%char).
    { inversion HE; subst; rewrite <- !app_assoc, skip_app by auto; cbn [app]; rewrite skip_here by reflexivity; eexists _, _; (split; [reflexivity|discriminate]). }
    destruct HS as (d & x & -> & Hd). change (Ascii.eqb "{" DQ) with false. change (Ascii.eqb "{" "[") with false. change (Ascii.eqb "{" "{") with true. cbv iota. rewrite (eqbF _ _ Hd), IH; auto.
    cbn [length] in Hn. rewrite app_length in Hn. cbn in Hn. lia.
  - intros v t w1 w2 H1 HT IH H2 n r Hn. destruct n; [lia|]. cbn [pElems]. rewrite <- !app_assoc, skip_app by auto. rewrite (skip_val v) by auto.
    rewrite !app_length in Hn. rewrite IH; [|lia|apply ws_startsNot; [auto|reflexivity]]. rewrite skip_app by auto. reflexivity.
  - intros v t w1 w2 l x H1 HT IH H2 HE IHl n r Hn. destruct n; [lia|]. cbn [pElems]. rewrite <- !app_assoc, skip_app by auto. rewrite (skip_val v) by auto.
    rewrite !app_length in Hn. cbn [length] in Hn. rewrite IH; [|lia|apply ws_startsNot; [auto|reflexivity]]. rewrite skip_app by auto. cbn [app]. rewrite skip_here by reflexivity.
    change (Ascii.eqb "," "]") with false. change (Ascii.eqb "," ",") with true. cbv iota. rewrite IHl by lia. auto.
  - intros raw v t w1 w2 w3 w4 H1 HB H2 H3 HT IH H4 n r Hn. destruct n; [lia|]. cbn [pMembers]. rewrite <- !app_assoc, skip_app by auto. cbn [app].
    rewrite skip_here by reflexivity. rewrite Ascii.eqb_refl. rewrite <- app_assoc. cbn [app]. rewrite cutStr_complete by auto. rewrite <- app_assoc, skip_app by auto. cbn [app].
    rewrite skip_here by reflexivity. rewrite Ascii.eqb_refl. rewrite <- !app_assoc, skip_app by auto. rewrite (skip_val v) by auto.
    repeat (rewrite app_length in Hn; cbn [length] in Hn). rewrite IH; [|lia|apply ws_startsNot; [auto|reflexivity]]. rewrite skip_app by auto. reflexivity.
  - intros raw v t w1 w2 w3 w4 l x H1 HB H2 H3 HT IH H4 HE IHl n r Hn. destruct n; [lia|]. cbn [pMembers]. rewrite <- !app_assoc, skip_app by auto. cbn [app].
    rewrite skip_here by reflexivity. rewrite Ascii.eqb_refl. rewrite <- app_assoc. cbn [app]. rewrite cutStr_complete by auto. rewrite <- app_assoc, skip_app by auto. cbn [app].
    rewrite skip_here by reflexivity. rewrite Ascii.eqb_refl. rewrite <- !app_assoc, skip_app by auto. rewrite (skip_val v) by auto.
    repeat (rewrite app_length in Hn; cbn [length] in Hn). rewrite IH; [|lia|apply ws_startsNot; [auto|reflexivity]]. rewrite skip_app by auto. cbn [app]. rewrite skip_here by reflexivity.
    change (Ascii.eqb "," "}") with false. change (Ascii.eqb "," ",") with true. cbv iota. rewrite IHl by lia. auto.
Qed.

(** ** Soundness *)
Lemma sound_all n :
  (forall t v r, pVal n t = Some (v, r) -> exists b, jtext v b /\ t = b ++ r) /\
  (forall t l r, pElems n t = Some (l, r) -> exists b, jelems l b /\ t = b ++ "]"%char :: r) /\
  (forall t l r, pMembers n t = Some (l, r) -> exists b, jmembers l b /\ t = b ++ "}"%char :: r).
Proof.
  induction n as [|n (IHV & IHE & IHM)]; [repeat split; intros; discriminate|]. split; [|split].
  - intros t v r. cbn [pVal]. destruct t as [|c t']; [discriminate|].
    destruct (Ascii.eqb_spec c DQ) as [->|H1].
    { destruct (cutStr t') as [[raw x]|] eqn:EC; [|discriminate]. intros [= <- <-]. apply cutStr_sound in EC as [HB ->].
      exists (DQ :: raw ++ [DQ]). split; [constructor; auto|]. cbn [app]. rewrite <- app_assoc. reflexivity. }
    destruct (Ascii.eqb_spec c "[") as [->|H2].
    { destruct (skip_split t') as (w & Hw & HW). destruct (skipWs t') as [|d x] eqn:ES; [discriminate|].
      destruct (Ascii.eqb_spec d "]") as [->|Hd].
      - intros [= <- <-]. exists ("["%char :: w ++ tx "]"). split; [constructor; auto|]. rewrite HW. cbn [app]. rewrite <- app_assoc. reflexivity.
      - destruct (pElems n t') as [[l y]|] eqn:EE; [|discriminate]. intros [= <- <-]. apply IHE in EE as (b & HB & ->).
        exists ("["%char :: b ++ tx "]"). split; [apply jt_arr; auto|]. cbn [app]. rewrite <- app_assoc. reflexivity. }
    destruct (Ascii.eqb_spec c "{") as [->|H3]; [|apply litVal_sound].
    destruct (skip_split t') as (w & Hw & HW). destruct (skipWs t') as [|d x] eqn:ES; [discriminate|].
    destruct (Ascii.eqb_spec d "}") as [->|Hd].
    + intros [= <- <-]. exists ("{"%char :: w ++ tx "}"). split; [constructor; auto|]. rewrite HW. cbn [app]. rewrite <- app_assoc. reflexivity.
    + destruct (pMembers n t') as [[l y]|] eqn:EE; [|discriminate]. intros [= <- <-]. apply IHM in EE as (b & HB & ->).
      exists ("{"%char :: b ++ tx "}"). split; [apply jt_obj; auto|]. cbn [app]. rewrite <- app_assoc. reflexivity.
  - intros t l r. cbn [pElems]. destruct (skip_split t) as (w & Hw & HW). destruct (pVal n (skipWs t)) as [[v x]|] eqn:EV; [|discriminate].
    apply IHV in EV as (b & HB & HE). rewrite HE in HW. destruct (skip_split x) as (w2 & Hw2 & HW2).
    destruct (skipWs x) as [|c y] eqn:ES; [discriminate|].
    destruct (Ascii.eqb_spec c "]") as [->|Hc].
    + intros [= <- <-]. exists (w ++ b ++ w2). split; [constructor; auto|]. rewrite HW, HW2, <- !app_assoc. reflexivity.
    + destruct (Ascii.eqb_spec c ",") as [->|]; [|discriminate]. destruct (pElems n y) as [[l' z]|] eqn:EE; [|discriminate]. intros [= <- <-].
      apply IHE in EE as (b2 & HB2 & ->). exists (w ++ b ++ w2 ++ ","%char :: b2). split; [constructor; auto|]. rewrite HW, HW2. rewrite <- !app_assoc. reflexivity.
  - intros t l r. cbn [pMembers]. destruct (skip_split t) as (w & Hw & HW). destruct (skipWs t) as [|q t1] eqn:ET; [discriminate|].
    destruct (Ascii.eqb_spec q DQ) as [->|]; [|discriminate]. destruct (cutStr t1) as [[raw x]|] eqn:EC; [|discriminate]. apply cutStr_sound in EC as [HB ->].
    destruct (skip_split x) as (w2 & Hw2 & HW2). destruct (skipWs x) as [|c y] eqn:EX; [discriminate|].
    destruct (Ascii.eqb_spec c ":") as [->|]; [|discriminate]. destruct (skip_split y) as (w3 & Hw3 & HW3).
    destruct (pVal n (skipWs y)) as [[v z]|] eqn:EV; [|discriminate]. apply IHV in EV as (b & HV & HE). rewrite HE in HW3.
    destruct (skip_split z) as (w4 & Hw4 & HW4). destruct (skipWs z) as [|d u] eqn:EZ; [discriminate|].
    destruct (Ascii.eqb_spec d "}") as [->|Hd].
    + intros [= <- <-]. exists (w ++ DQ :: raw ++ DQ :: w2 ++ ":"%char :: w3 ++ b ++ w4). split; [constructor; auto|].
      rewrite HW, HW2, HW3, HW4. repeat (rewrite <- !app_assoc; cbn [app]). reflexivity.
    + destruct (Ascii.eqb_spec d ",") as [->|]; [|discriminate]. destruct (pMembers n u) as [[l' u']|] eqn:EM; [|discriminate]. intros [= <- <-].
      apply IHM in EM as (b2 & HB2 & ->). exists (w ++ DQ :: raw ++ DQ :: w2 ++ ":"%char :: w3 ++ b ++ w4 ++ ","%char :: b2). split; [constructor; auto|].
      rewrite HW, HW2, HW3, HW4. repeat (rewrite <- !app_assoc; cbn [app]). reflexivity.
Qed.
Lemma parseDoc_iff t v : parseDoc t = Some v <-> jdoc v t.
Proof.
  unfold parseDoc, jdoc. split.
  - destruct (skip_split t) as (w & Hw & HW). destruct (pVal _ (skipWs t)) as [[v' r]|] eqn:EV; [|discriminate].
    apply (proj1 (sound_all _)) in EV as (b & HB & HE). destruct (skip_split r) as (w2 & Hw2 & HW2). destruct (skipWs r); [|discriminate]. intros [= <-].
    rewrite app_nil_r in HW2. subst r. exists w, b, w2. rewrite HE in HW. auto.
  - intros (w1 & b & w2 & H1 & HB & H2 & ->). rewrite skip_app by auto. rewrite (skip_val v) by auto.
    assert (HN : startsNot numChar w2) by (rewrite <- (app_nil_r w2); apply ws_startsNot; cbn; auto).
    rewrite (proj1 complete_all v b HB _ w2); auto; [|rewrite !app_length; lia].
    rewrite <- (app_nil_r w2), skip_app by auto. reflexivity.
Qed.
