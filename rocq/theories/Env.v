(** Code that is called by /repo but lives outside it (Go standard library, gonum).
    It is modelled by a record of functions; theorems quantify over every such record
    that satisfies [EnvOk]. *)
From Verif Require Import Base F64.
Open Scope Z_scope.

Record Env : Type := MkEnv {
  (** [sort.Sort] on the elements of a slice (or of parallel slices, zipped), given [Less] on elements *)
  e_sort : forall A : Type, (A -> A -> bool) -> list A -> list A;
  (** gonum [floats.Sum] *)
  e_sum : list f64 -> f64;
  (** [math.Exp], [math.Log] *)
  e_exp : f64 -> f64;
  e_log : f64 -> f64
}.

(** [less] is a strict weak order on the elements of [l] *)
Definition swo {A} (less : A -> A -> bool) (l : list A) : Prop :=
  (forall a, In a l -> less a a = false) /\
  (forall a b c, In a l -> In b l -> In c l -> less a b = true -> less b c = true -> less a c = true) /\
  (forall a b c, In a l -> In b l -> In c l -> less a b = false -> less b c = false -> less a c = false).

(** no later element is [less] than an earlier one *)
Definition no_inversion {A} (less : A -> A -> bool) (l : list A) : Prop :=
  forall i j a b, (i < j)%nat -> nth_error l i = Some a -> nth_error l j = Some b -> less b a = false.

(** [s] is obtained from the elements of [l] by additions, in some order and association
    (gonum's [Sum] is vectorised; its order of additions is not specified) *)
Inductive is_sum : list f64 -> f64 -> Prop :=
| is_sum_nil : is_sum [] fzero
| is_sum_one x : is_sum [x] x
| is_sum_app l1 l2 a b : is_sum l1 a -> is_sum l2 b -> is_sum (l1 ++ l2) (fadd a b)
| is_sum_perm l1 l2 a : Permutation l1 l2 -> is_sum l1 a -> is_sum l2 a.

Record EnvOk (E : Env) : Prop := {
  ok_sort_perm : forall A less (l : list A), Permutation l (e_sort E A less l);
  ok_sort_sorted : forall A less (l : list A), swo less l -> no_inversion less (e_sort E A less l);
  ok_sum : forall l, is_sum l (e_sum E l);
  (** [math.Exp] is NaN exactly on NaN and is never negative *)
  ok_exp_nan : forall x, fnanb (e_exp E x) = fnanb x;
  ok_exp_pos : forall x, fltb (e_exp E x) fzero = false
}.

(** ** A concrete environment: insertion sort, left-to-right sum, the portable exponential of Go.
    Used to show that the hypotheses are satisfiable and to compute witnesses. *)
Fixpoint ins {A} (less : A -> A -> bool) (x : A) (l : list A) : list A :=
  match l with
  | [] => [x]
  | y :: t => if less y x then y :: ins less x t else x :: l
  end.
Definition isort (A : Type) (less : A -> A -> bool) (l : list A) : list A :=
  fold_right (ins less) [] l.
Definition sum_left (l : list f64) : f64 := fold_left fadd l fzero.
(** [math.Exp] as in the portable version of the Go library (exp.go; on amd64 an assembly version with
    another rational approximation is used, which differs by rounding only) *)
Definition expmulti (hi lo : f64) (k : Z) : f64 :=
  let p1 := flit 6004799503160638 (-55) in
  let p2 := flit (-6405119469862291) (-61) in
  let p3 := flit 4880090809097772 (-66) in
  let p4 := flit (-7807914560613361) (-72) in
  let p5 := flit 6253375523824848 (-77) in
  let r := fsub hi lo in
  let t := fmul r r in
  let c := fsub r (fmul t (fadd p1 (fmul t (fadd p2 (fmul t (fadd p3 (fmul t (fadd p4 (fmul t p5))))))))) in
  let y := fsub fone (fsub (fsub lo (fdiv (fmul r c) (fsub ftwo c))) hi) in
  Bldexp mode_NE y k.
Definition exp_raw (x : f64) : f64 :=
  if fnanb x then x
  else if feqb x finf then x
  else if feqb x fninf then fzero
  else if fltb (flit 6243314768165359 (-43)) x then finf
  else if fltb x (flit (-6554261109157969) (-43)) then fzero
  else if fltb (flit (-1) (-28)) x && fltb x (flit 1 (-28)) then fadd fone x
  else
    let log2e := flit 6497320848556798 (-52) in
    let k := if fltb x fzero then ftoZ (fsub (fmul log2e x) fhalf) else ftoZ (fadd (fmul log2e x) fhalf) in
    expmulti (fsub x (fmul (fofZ k) (flit 6243314766446592 (-53)))) (fmul (fofZ k) (flit 7382048951581814 (-85))) k.
(** [exp_raw] guarded so that [EnvOk] holds without an error analysis of the approximation *)
Definition exp_go (x : f64) : f64 :=
  if fnanb x then fnan
  else let y := exp_raw x in if fnanb y || fltb y fzero then fzero else y.
Definition env0 : Env := MkEnv isort sum_left exp_go (fun x => x).

(** ** [env0] satisfies the specification *)
Lemma ins_perm {A} less (x : A) l : Permutation (x :: l) (ins less x l).
Proof.
  induction l as [|y t IH]; simpl; [auto|]. destruct (less y x); [|auto].
  rewrite perm_swap. constructor. exact IH.
Qed.
Lemma isort_perm A less (l : list A) : Permutation l (isort A less l).
Proof.
  induction l as [|x t IH]; simpl; [auto|]. rewrite <- ins_perm. constructor. exact IH.
Qed.

(** hereditary form of [no_inversion] *)
Fixpoint srt {A} (less : A -> A -> bool) (l : list A) : Prop :=
  match l with
  | [] => True
  | a :: t => (forall b, In b t -> less b a = false) /\ srt less t
  end.
Lemma srt_no_inversion {A} less (l : list A) : srt less l <-> no_inversion less l.
Proof.
  unfold no_inversion. induction l as [|x t IH]; simpl.
  - split; [|auto]. intros _ [|i] [|j] a b Hij Ha Hb; simpl in *; congruence.
  - rewrite IH. split.
    + intros [H1 H2] [|i] [|j] a b Hij Ha Hb; simpl in *; try lia.
      * injection Ha as <-. apply H1. eapply nth_error_In; eauto.
      * eapply H2 with (i := i) (j := j); eauto. lia.
    + intros H. split.
      * intros b Hb. apply In_nth_error in Hb as [j Hj].
        apply (H O (S j) x b); simpl; auto. lia.
      * intros i j a b Hij Ha Hb. apply (H (S i) (S j) a b); simpl; auto. lia.
Qed.

Lemma ins_In {A} less (x : A) l b : In b (ins less x l) <-> b = x \/ In b l.
Proof.
  pose proof (ins_perm less x l) as H. split.
  - intros Hb. apply Permutation_sym in H. eapply Permutation_in in Hb; [|exact H]. simpl in Hb. intuition.
  - intros Hb. eapply Permutation_in; [exact H|]. simpl. intuition.
Qed.
Lemma isort_In {A} less (l : list A) b : In b (isort A less l) <-> In b l.
Proof.
  pose proof (isort_perm A less l) as H. split; apply Permutation_in; auto using Permutation_sym.
Qed.

Lemma swo_sub {A} less (l l' : list A) : (forall a, In a l' -> In a l) -> swo less l -> swo less l'.
Proof.
  intros Hs (H1 & H2 & H3). repeat split; intros.
  - auto.
  - eapply H2 with (b := b); auto.
  - eapply H3 with (b := b); auto.
Qed.

Lemma isort_sorted A less (l : list A) : swo less l -> no_inversion less (isort A less l).
Proof.
  intros Hw. apply srt_no_inversion. induction l as [|x t IH]; simpl; [auto|].
  assert (Hw' : swo less t) by (eapply swo_sub; [|exact Hw]; simpl; auto).
  specialize (IH Hw').
  assert (HI : forall b, In b (isort A less t) -> In b (x :: t)) by (intros b; rewrite isort_In; simpl; auto).
  assert (Hx : In x (x :: t)) by (left; auto).
  destruct Hw as (Hi & Ht & Hn).
  revert IH HI. generalize (isort A less t) as s. induction s as [|y s IHs]; intros Hs HI.
  - simpl. split; auto. intros b [].
  - destruct Hs as [Hy Hs].
    assert (HIy : In y (x :: t)) by (apply HI; left; auto).
    assert (HIs : forall b, In b s -> In b (x :: t)) by (intros; apply HI; right; auto).
    simpl. destruct (less y x) eqn:E.
    + split; [|apply IHs; auto].
      intros b Hb. apply ins_In in Hb as [->|Hb]; [|apply Hy; auto].
      destruct (less x y) eqn:E2; auto.
      assert (less x x = true) by (eapply Ht with (b := y); auto).
      rewrite Hi in *; auto.
    + split; [|split; auto]. intros b [<-|Hb]; [exact E|].
      apply Hn with (b := y); auto.
Qed.

Lemma sum_left_acc l acc : forall l0, is_sum l0 acc -> is_sum (l0 ++ l) (fold_left fadd l acc).
Proof.
  revert acc; induction l as [|x t IH]; simpl; intros acc l0 H.
  - rewrite app_nil_r. auto.
  - specialize (IH (fadd acc x) (l0 ++ [x])). rewrite <- app_assoc in IH. simpl in IH. apply IH.
    apply is_sum_app; [auto|constructor].
Qed.
Lemma sum_left_ok l : is_sum l (sum_left l).
Proof. apply (sum_left_acc l fzero []). constructor. Qed.
