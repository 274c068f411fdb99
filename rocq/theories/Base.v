(** Go-level basics: results of code that can panic, slice indexing, monadic loops.
    These are the conventions used by every other model file; they model the
    semantics of the Go language itself, not a particular line of /repo. *)
From Coq Require Export List ZArith Lia Bool Permutation.
Export ListNotations.
Open Scope Z_scope.
#[global] Set Default Goal Selector "!".

(** Result of running Go code: a value, a run-time panic, or (only for loops whose
    termination is not structural) fuel exhaustion. *)
Inductive res (A : Type) : Type :=
| Ok (a : A)
| Panic
| Diverge.
Arguments Ok {A} a.
Arguments Panic {A}.
Arguments Diverge {A}.

Definition bind {A B} (m : res A) (k : A -> res B) : res B :=
  match m with Ok a => k a | Panic => Panic | Diverge => Diverge end.
Notation "x <- m ;; k" := (bind m (fun x => k))
  (at level 61, m at next level, right associativity).
Notation "' p <- m ;; k" := (bind m (fun x => match x with p => k end))
  (at level 61, p pattern, m at next level, right associativity).

(** [s[i]] of a Go slice: panics when [i] is out of range. *)
Definition idx {A} (s : list A) (i : Z) : res A :=
  if i <? 0 then Panic
  else match nth_error s (Z.to_nat i) with Some a => Ok a | None => Panic end.

(** list update at a natural position; no effect out of range *)
Fixpoint upd_nat {A} (s : list A) (n : nat) (a : A) : list A :=
  match s, n with
  | [], _ => []
  | _ :: t, O => a :: t
  | x :: t, S m => x :: upd_nat t m a
  end.

(** [s[i] = a] of a Go slice: panics when [i] is out of range. *)
Definition upd {A} (s : list A) (i : Z) (a : A) : res (list A) :=
  if (i <? 0) || (Z.of_nat (length s) <=? i) then Panic
  else Ok (upd_nat s (Z.to_nat i) a).

(** [for _, v := range l { ret = append(ret, f(v)) }] *)
Fixpoint mapM {A B} (f : A -> res B) (l : list A) : res (list B) :=
  match l with
  | [] => Ok []
  | a :: t => b <- f a ;; bs <- mapM f t ;; Ok (b :: bs)
  end.

(** [for _, v := range l { st = f(st, v) }] *)
Fixpoint foldM {A S} (f : S -> A -> res S) (st : S) (l : list A) : res S :=
  match l with
  | [] => Ok st
  | a :: t => st' <- f st a ;; foldM f st' t
  end.

(** the slice [0, 1, ..., n-1] of Go ints *)
Definition iota (n : nat) : list Z := map Z.of_nat (seq 0 n).

Definition is_ok {A} (r : res A) : bool := match r with Ok _ => true | _ => false end.

(** ** Lemmas *)
Lemma bind_Ok {A B} (m : res A) (k : A -> res B) b :
  bind m k = Ok b <-> exists a, m = Ok a /\ k a = Ok b.
Proof.
  destruct m as [a| |]; simpl; split.
  - intros H; exists a; auto.
  - intros (a' & [= ->] & H); exact H.
  - intros [=].
  - intros (a' & [=] & _).
  - intros [=].
  - intros (a' & [=] & _).
Qed.

Ltac binv H :=
  match type of H with
  | bind _ _ = Ok _ =>
      let a := fresh "v" in let H1 := fresh "Hb" in
      apply bind_Ok in H; destruct H as (a & H1 & H)
  end.

Lemma idx_Ok {A} (s : list A) i a :
  idx s i = Ok a <-> 0 <= i /\ nth_error s (Z.to_nat i) = Some a.
Proof.
  unfold idx. destruct (Z.ltb_spec i 0) as [H|H].
  - split; [intros [=]|]. intros [H1 _]; lia.
  - destruct (nth_error s (Z.to_nat i)) as [x|]; split.
    + intros [= ->]; auto.
    + intros [_ [= ->]]; auto.
    + intros [=].
    + intros [_ [=]].
Qed.

Lemma idx_of_nat {A} (s : list A) n a :
  idx s (Z.of_nat n) = Ok a <-> nth_error s n = Some a.
Proof. rewrite idx_Ok, Nat2Z.id. split; [tauto|]. intros H; split; [lia|exact H]. Qed.

Lemma idx_range {A} (s : list A) i :
  (exists a, idx s i = Ok a) <-> 0 <= i < Z.of_nat (length s).
Proof.
  split.
  - intros [a H]. apply idx_Ok in H as [H1 H2].
    assert (Z.to_nat i < length s)%nat by (apply nth_error_Some; congruence). lia.
  - intros [H1 H2]. destruct (nth_error s (Z.to_nat i)) as [a|] eqn:E.
    + exists a. apply idx_Ok. auto.
    + apply nth_error_None in E. lia.
Qed.

Lemma idx_not_Diverge {A} (s : list A) i : idx s i <> Diverge.
Proof. unfold idx. destruct (i <? 0); [congruence|]. destruct (nth_error _ _); congruence. Qed.

Lemma idx_Panic {A} (s : list A) i :
  idx s i = Panic <-> ~ (0 <= i < Z.of_nat (length s)).
Proof.
  rewrite <- idx_range. split.
  - intros H [a Ha]; congruence.
  - intros H. destruct (idx s i) as [a| |] eqn:E; [|reflexivity|].
    + exfalso; apply H; eauto.
    + exfalso; eapply idx_not_Diverge; eauto.
Qed.

Lemma upd_nat_length {A} (s : list A) n a : length (upd_nat s n a) = length s.
Proof. revert n; induction s as [|x t IH]; intros [|m]; simpl; auto. Qed.

Lemma upd_nat_nth {A} (s : list A) n a m :
  nth_error (upd_nat s n a) m =
  if Nat.eqb m n then (if Nat.ltb n (length s) then Some a else None) else nth_error s m.
Proof.
  revert n m; induction s as [|x t IH]; intros [|n] [|m]; simpl; auto.
  - destruct (Nat.eqb_spec m n); reflexivity.
  - rewrite IH. destruct (Nat.eqb_spec m n); auto.
Qed.

Lemma upd_Ok {A} (s : list A) i a s' :
  upd s i a = Ok s' <-> 0 <= i < Z.of_nat (length s) /\ s' = upd_nat s (Z.to_nat i) a.
Proof.
  unfold upd. destruct (Z.ltb_spec i 0), (Z.leb_spec (Z.of_nat (length s)) i); simpl; split;
    try (intros [=]; fail); try (intros [H1 _]; lia).
  - intros [= <-]; split; [lia|auto].
  - intros [_ ->]; auto.
Qed.

Lemma mapM_Ok {A B} (f : A -> res B) l bs :
  mapM f l = Ok bs <-> Forall2 (fun a b => f a = Ok b) l bs.
Proof.
  revert bs; induction l as [|a t IH]; intros bs; simpl; split.
  - intros [= <-]; constructor.
  - intros H; inversion H; auto.
  - intros H. binv H. binv H. injection H as <-. constructor; auto. apply IH; auto.
  - intros H; inversion H as [|? b ? bs' H1 H2]; subst. rewrite H1; simpl.
    apply IH in H2. rewrite H2; auto.
Qed.

Lemma mapM_length {A B} (f : A -> res B) l bs : mapM f l = Ok bs -> length bs = length l.
Proof. rewrite mapM_Ok. induction 1; simpl; auto. Qed.

Lemma mapM_all_Ok {A B} (f : A -> res B) l :
  (forall a, In a l -> exists b, f a = Ok b) -> exists bs, mapM f l = Ok bs.
Proof.
  induction l as [|a t IH]; intros H; simpl.
  - eauto.
  - destruct (H a) as [b Hb]; [left; auto|]. rewrite Hb; simpl.
    destruct IH as [bs Hbs]; [intros; apply H; right; auto|]. rewrite Hbs; simpl; eauto.
Qed.

Lemma mapM_pure {A B} (f : A -> res B) (g : A -> B) l :
  (forall a, In a l -> f a = Ok (g a)) -> mapM f l = Ok (map g l).
Proof.
  induction l as [|a t IH]; intros H; simpl; auto.
  rewrite H by (left; auto). simpl. rewrite IH; [auto|]. intros; apply H; right; auto.
Qed.

Lemma mapM_nth {A B} (f : A -> res B) l bs n a :
  mapM f l = Ok bs -> nth_error l n = Some a -> exists b, nth_error bs n = Some b /\ f a = Ok b.
Proof.
  rewrite mapM_Ok. intros H; revert n; induction H as [|x y l bs Hxy H IH]; intros [|n] Hn; simpl in *.
  - discriminate.
  - discriminate.
  - injection Hn as <-; eauto.
  - eauto.
Qed.

Lemma mapM_Panic_ex {A B} (f : A -> res B) l :
  (forall a, In a l -> f a <> Diverge) ->
  (exists a, In a l /\ f a = Panic) -> mapM f l = Panic.
Proof.
  induction l as [|a t IH]; intros Hd [x [Hx Hp]]; simpl in *; [tauto|].
  destruct (f a) as [b| |] eqn:E; simpl; [|reflexivity|].
  - rewrite IH; [reflexivity| |].
    + intros; apply Hd; auto.
    + destruct Hx as [->|Hx]; [congruence|eauto].
  - exfalso; eapply Hd; [left; reflexivity|exact E].
Qed.

Lemma iota_length n : length (iota n) = n.
Proof. unfold iota. rewrite map_length, seq_length; auto. Qed.

Lemma iota_nth n i : (i < n)%nat -> nth_error (iota n) i = Some (Z.of_nat i).
Proof.
  intros H. unfold iota. rewrite nth_error_map.
  rewrite nth_error_nth' with (d := O) by (rewrite seq_length; lia).
  rewrite seq_nth by lia. reflexivity.
Qed.

Lemma iota_In n z : In z (iota n) <-> 0 <= z < Z.of_nat n.
Proof.
  unfold iota. rewrite in_map_iff. split.
  - intros (x & <- & H). apply in_seq in H. lia.
  - intros H. exists (Z.to_nat z). split; [lia|]. apply in_seq. lia.
Qed.

Lemma iota_NoDup n : NoDup (iota n).
Proof.
  unfold iota. apply FinFun.Injective_map_NoDup; [|apply seq_NoDup].
  intros a b H; lia.
Qed.

Lemma iota_S n : iota (S n) = iota n ++ [Z.of_nat n].
Proof. unfold iota. rewrite seq_S, map_app. reflexivity. Qed.
