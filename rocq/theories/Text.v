(** Byte strings and the functions of bufio and strings that the library calls on them. Models Go's string and
    []byte (a list of bytes) and no particular line of /repo. *)
From Coq Require Import Ascii String Decimal DecimalString DecimalZ DecimalFacts.
From Verif Require Import Base.
From Coq Require Import List.
Open Scope Z_scope.

Definition text : Type := list ascii.
(** a literal *)
Definition tx (s : string) : text := list_ascii_of_string s.
Definition NL : ascii := "010"%char.

(** [bufio.Reader.ReadString('\n')] on what is left to read: the line with its newline and the rest; [None] when no
    newline is left, in which case the call returns an error *)
Fixpoint readLine (r : text) : option (text * text) :=
  match r with
  | [] => None
  | c :: t => if Ascii.eqb c NL then Some ([c], t)
              else match readLine t with Some (l, r') => Some (c :: l, r') | None => None end
  end.

Fixpoint hasPrefix (s p : text) {struct p} : bool :=
  match p, s with
  | [], _ => true
  | a :: p', b :: s' => Ascii.eqb a b && hasPrefix s' p'
  | _ :: _, [] => false
  end.
(** [strings.Contains] *)
Fixpoint containsT (s p : text) : bool :=
  hasPrefix s p || match s with [] => false | _ :: s' => containsT s' p end.

(** [%d] of an int *)
Definition decZ (z : Z) : text := tx (NilZero.string_of_int (Z.to_int z)).

Definition text_eqb (a b : text) : bool := if list_eq_dec ascii_dec a b then true else false.

(** ** Lemmas *)
Lemma readLine_Some r l r' : readLine r = Some (l, r') <-> exists s, l = s ++ [NL] /\ ~ In NL s /\ r = s ++ NL :: r'.
Proof.
  revert l r'; induction r as [|c r IH]; intros l r'; simpl.
  - split; [intros [=]|]. intros (s & _ & _ & H). destruct s; discriminate H.
  - destruct (Ascii.eqb_spec c NL) as [->|Hne].
    + split.
      * intros [= <- <-]. exists []. simpl. auto.
      * intros (s & -> & Hn & H). destruct s as [|x s]; [injection H as ->; reflexivity|]. injection H as <- _. simpl in Hn. tauto.
    + destruct (readLine r) as [[l1 r1]|] eqn:E.
      * split.
        -- intros [= <- <-]. destruct (proj1 (IH l1 r1) eq_refl) as (s & -> & Hn & ->). exists (c :: s). simpl. split; [auto|].
           split; [|auto]. intros [H|H]; [congruence|auto].
        -- intros (s & -> & Hn & H). destruct s as [|x s]; [injection H as -> _; congruence|]. injection H as <- H.
           assert (HH : Some (l1, r1) = Some (s ++ [NL], r')) by (apply IH; exists s; simpl in Hn; tauto). injection HH as -> ->. reflexivity.
      * split; [intros [=]|]. intros (s & -> & Hn & H). destruct s as [|x s]; [injection H as -> _; congruence|]. injection H as <- H.
        assert (HH : None = Some (s ++ [NL], r')) by (apply IH; exists s; simpl in Hn; tauto). discriminate HH.
Qed.
Lemma readLine_app s r : ~ In NL s -> readLine (s ++ NL :: r) = Some (s ++ [NL], r).
Proof. intros H. apply readLine_Some. exists s. auto. Qed.
Lemma readLine_None r : readLine r = None <-> ~ In NL r.
Proof.
  induction r as [|c r IH]; simpl; [tauto|]. destruct (Ascii.eqb_spec c NL) as [->|Hne].
  - split; [intros [=]|tauto].
  - destruct (readLine r) as [[l r']|].
    + split; [intros [=]|]. intros H. assert (HH : Some (l, r') = None) by (apply IH; tauto). discriminate HH.
    + split; auto. intros _ [H|H]; [congruence|]. apply (proj1 IH eq_refl). auto.
Qed.
Lemma readLine_shorter r l r' : readLine r = Some (l, r') -> (length r' < length r)%nat.
Proof. intros H. apply readLine_Some in H as (s & _ & _ & ->). rewrite app_length. simpl. lia. Qed.

Lemma hasPrefix_iff s p : hasPrefix s p = true <-> exists r, s = p ++ r.
Proof.
  revert s; induction p as [|a p IH]; intros s; simpl.
  - split; [eauto|auto].
  - destruct s as [|b s]; [split; [discriminate|intros (r & H); discriminate H]|].
    rewrite andb_true_iff, IH. split.
    + intros [Ha (r & ->)]. apply Ascii.eqb_eq in Ha as ->. eauto.
    + intros (r & [= -> ->]). split; [apply Ascii.eqb_refl|eauto].
Qed.
Lemma containsT_iff s p : containsT s p = true <-> exists a b, s = a ++ p ++ b.
Proof.
  induction s as [|c s IH]; cbn [containsT].
  - rewrite orb_false_r, hasPrefix_iff. split.
    + intros (r & H). exists [], r. auto.
    + intros (a & b & H). destruct a; [eauto|discriminate H].
  - rewrite orb_true_iff, hasPrefix_iff, IH. split.
    + intros [(r & ->)|(a & b & ->)]; [exists [], r; auto|exists (c :: a), b; auto].
    + intros (a & b & H). destruct a as [|x a]; [left; eauto|]. injection H as -> ->. right; eauto.
Qed.
(** a text that lacks the first byte of [p] does not contain [p] *)
Lemma containsT_no s c p : ~ In c s -> containsT s (c :: p) = false.
Proof.
  intros H. destruct (containsT s (c :: p)) eqn:E; auto. apply containsT_iff in E as (a & b & ->). exfalso. apply H.
  apply in_app_iff. right. simpl. auto.
Qed.
Lemma containsT_snoc s c p : ~ In c p -> p <> [] -> containsT (s ++ [c]) p = containsT s p.
Proof.
  intros Hc Hp. destruct (containsT s p) eqn:E.
  - apply containsT_iff in E as (a & b & ->). apply containsT_iff. exists a, (b ++ [c]). rewrite <- !app_assoc. auto.
  - destruct (containsT (s ++ [c]) p) eqn:E2; auto. apply containsT_iff in E2 as (a & b & H).
    destruct b as [|x b] using rev_ind.
    + rewrite app_nil_r in H. destruct p as [|y p] using rev_ind; [congruence|]. clear IHp. rewrite app_assoc in H.
      apply app_inj_tail in H as [_ ->]. exfalso. apply Hc. apply in_app_iff. simpl. auto.
    + clear IHb. rewrite !app_assoc in H. apply app_inj_tail in H as [-> _].
      assert (HT : containsT ((a ++ p) ++ b) p = true) by (apply containsT_iff; exists a, b; rewrite <- app_assoc; auto). congruence.
Qed.

Definition isDigit (c : ascii) : bool := (48 <=? Z.of_nat (nat_of_ascii c)) && (Z.of_nat (nat_of_ascii c) <=? 57).
Lemma tx_app a b : tx (a ++ b)%string = tx a ++ tx b.
Proof. unfold tx. induction a as [|c a IH]; simpl; congruence. Qed.
Lemma string_of_uint_digits d c : In c (tx (NilEmpty.string_of_uint d)) -> isDigit c = true.
Proof. induction d; simpl; [tauto|..]; intros [<-|H]; auto; reflexivity. Qed.
Lemma decZ_chars z c : In c (decZ z) -> isDigit c = true \/ c = "-"%char.
Proof.
  assert (HU : forall d c, In c (tx (NilZero.string_of_uint d)) -> isDigit c = true).
  { intros d x. unfold NilZero.string_of_uint. destruct d; try apply string_of_uint_digits. intros [<-|[]]. reflexivity. }
  unfold decZ, NilZero.string_of_int. destruct (Z.to_int z) as [d|d].
  - intros H. left. eauto.
  - intros [<-|H]; eauto.
Qed.
Lemma text_eqb_iff a b : text_eqb a b = true <-> a = b.
Proof. unfold text_eqb. destruct (list_eq_dec ascii_dec a b); split; auto; discriminate. Qed.

(** reading an int back *)
Definition parseZ (t : text) : option Z :=
  match NilZero.int_of_string (string_of_list_ascii t) with Some i => Some (Z.of_int i) | None => None end.
Lemma parse_dec z : parseZ (decZ z) = Some z.
Proof.
  unfold parseZ, decZ, tx. rewrite string_of_list_ascii_of_string.
  assert (H : NilZero.int_of_string (NilZero.string_of_int (Z.to_int z)) = Some (Z.to_int z)).
  { assert (HP : forall p, Pos.to_uint p <> Nil) by apply DecimalPos.Unsigned.to_uint_nonnil.
    apply NilZero.isi; destruct z as [|p|p]; simpl; try discriminate; intros [= HN]; exact (HP p HN). }
  rewrite H, DecimalZ.of_to. auto.
Qed.
Lemma decZ_nonempty z : decZ z <> [].
Proof.
  unfold decZ, NilZero.string_of_int. destruct (Z.to_int z) as [d|d]; [|discriminate]. destruct d; discriminate.
Qed.
