(** Proofs about the grid search (C55, C56, C58, C85). *)
From Coq Require Import Reals Lra.
From Verif Require Import Base F64 F64Lemmas Env EnvLemmas Utils Tree Options Train Spec SpecTrain CV SpecCV CVProofs Grid SpecGrid.
Open Scope Z_scope.

Section FoldE.
Context {X St R : Type}.
(** run the body over a list until it returns *)
Fixpoint foldE (body : X -> St -> res (St + R)) (l : list X) (s : St) : res (St + R) :=
  match l with
  | [] => Ok (inl s)
  | x :: rest => r <- body x s ;; match r with inl s' => foldE body rest s' | inr e => Ok (inr e) end
  end.
End FoldE.

Lemma foldE_impl {X St R} (b b' : X -> St -> res (St + R)) : (forall x s r, b x s = Ok r -> b' x s = Ok r) ->
  forall l s r, foldE b l s = Ok r -> foldE b' l s = Ok r.
Proof.
  intros HB l; induction l as [|x l IH]; intros s r H; simpl in *; auto.
  apply bind_Ok in H as (q & Hq & H). rewrite (HB _ _ _ Hq). cbn [bind]. destruct q; auto.
Qed.
Lemma foldE_ext {X St R} (b b' : X -> St -> res (St + R)) : (forall x s, b x s = b' x s) -> forall l s, foldE b l s = foldE b' l s.
Proof. intros HB l; induction l as [|x l IH]; intros s; simpl; auto. rewrite HB. destruct (b' x s) as [[s'|e]| |]; simpl; auto. Qed.
Lemma foldE_map {X Y St R} (b : X -> St -> res (St + R)) (f : Y -> X) : forall l s, foldE b (map f l) s = foldE (fun y => b (f y)) l s.
Proof. induction l as [|x l IH]; intros s; simpl; auto. destruct (b (f x) s) as [[s'|e]| |]; simpl; auto. Qed.
Lemma foldE_app {X St R} (b : X -> St -> res (St + R)) : forall l1 l2 s, foldE b (l1 ++ l2) s =
  (r <- foldE b l1 s ;; match r with inl s' => foldE b l2 s' | inr e => Ok (inr e) end).
Proof. induction l1 as [|x l IH]; intros l2 s; simpl; auto. destruct (b x s) as [[s'|e]| |]; simpl; auto. Qed.
Lemma foldE_flat {X Y St R} (b : X -> St -> res (St + R)) (h : Y -> list X) : forall l s, foldE b (flat_map h l) s = foldE (fun y => foldE b (h y)) l s.
Proof.
  induction l as [|y l IH]; intros s; simpl; auto. rewrite foldE_app. destruct (foldE b (h y) s) as [[s'|e]| |]; simpl; auto.
Qed.
Lemma foldE_inv {X St R} (b : X -> St -> res (St + R)) (I : St -> Prop) (Q : R -> Prop) : (forall x s r, I s -> b x s = Ok r -> match r with inl s' => I s' | inr e => Q e end) ->
  forall l s r, I s -> foldE b l s = Ok r -> match r with inl s' => I s' | inr e => Q e end.
Proof.
  intros HB l; induction l as [|x l IH]; intros s r HI H; simpl in H.
  - injection H as <-. auto.
  - apply bind_Ok in H as (q & Hq & H). apply HB in Hq; auto. destruct q as [s'|e]; [eapply IH; eauto|]. injection H as <-. auto.
Qed.

Section For.
Context {A St R : Type} (le : A -> A -> bool) (add : A -> A -> A).
Lemma forLoop_Ok hi st (b b' : A -> St -> res (St + R)) : (forall x s r, b x s = Ok r -> b' x s = Ok r) ->
  forall fuel x l s r, progression le add hi st x l -> forLoop le add fuel x hi st b s = Ok r -> foldE b' l s = Ok r.
Proof.
  intros HB fuel; induction fuel as [|f IH]; intros x l s r HP H; [discriminate H|]. cbn [forLoop] in H. inversion HP as [y Hy|y l' Hy HP']; subst; rewrite Hy in H.
  - exact H.
  - cbn [foldE]. apply bind_Ok in H as (q & Hq & H). rewrite (HB _ _ _ Hq). cbn [bind]. destruct q; eauto.
Qed.
Lemma forLoop_enough hi st (b b' : A -> St -> res (St + R)) l :  forall fuel x s, progression le add hi st x l ->
  (forall x s, In x l -> b x s = b' x s) -> (length l < fuel)%nat -> forLoop le add fuel x hi st b s = foldE b' l s.
Proof.
  induction l as [|y l IH]; intros [|f] x s HP HB HL; simpl in HL; try lia; cbn [forLoop]; inversion HP as [z Hz|z l' Hz HP']; subst; rewrite Hz; auto.
  cbn [foldE]. rewrite HB by (left; auto). destruct (b' y s) as [[s'|e]| |]; cbn [bind]; auto. apply IH; auto; [|lia]. intros; apply HB; right; auto.
Qed.
End For.

Lemma mapM_nthE {A B} (f : A -> res B) : forall l out, mapM f l = Ok out -> length out = length l /\
  forall i b, nth_error out i = Some b -> exists a, nth_error l i = Some a /\ f a = Ok b.
Proof.
  induction l as [|a l IH]; intros out H; simpl in H.
  - injection H as <-. split; [auto|]. intros [|i] b Hb; discriminate Hb.
  - apply bind_Ok in H as (b & Hb & H). apply bind_Ok in H as (bs & Hbs & H). injection H as <-. apply IH in Hbs as [H1 H2].
    split; [simpl; lia|]. intros [|i] c Hc; simpl in Hc; [injection Hc as <-; exists a; auto|]. apply H2 in Hc as (d & Hd & He). exists d. auto.
Qed.
Lemma nth_error_map_inv {A B} (f : A -> B) l i b : nth_error (map f l) i = Some b -> exists a, nth_error l i = Some a /\ f a = b.
Proof. rewrite nth_error_map. destruct (nth_error l i); simpl; [intros [= <-]; eauto|discriminate]. Qed.
Lemma F2_nth {A B} (P : A -> B -> Prop) l1 l2 : Forall2 P l1 l2 -> forall i b, nth_error l2 i = Some b -> exists a, nth_error l1 i = Some a /\ P a b.
Proof. induction 1; intros [|i] z Hz; try discriminate Hz; simpl in *; [injection Hz as <-; eauto|eauto]. Qed.

Section Grid.
Context (id : Z) (eval : nat -> Options -> res cvRet) (o : GridOptions).
Let N := g_ncpus o.
Definition pointOf (c : Z * f64 * Z * f64 * f64 * f64 * f64 * f64) : Options :=
  let '(rounds, cw, md, css, lr, lam, gam, ss) := c in gridPoint id o rounds cw md css lr lam gam ss.
Definition gs0 : gstate := MkGS [] fzero None [].
Definition finish (r : gstate + gridRet) : gridRet :=
  match r with inl s => MkGR (gs_best s) [] (gs_final s) false (gs_spawned s) | inr e => e end.
Definition points (a : axes) : list Options := map pointOf (combinations a).

Lemma points_fold a s : foldE (gridBody N eval) (points a) s =
  foldE (fun rounds => foldE (fun cw => foldE (fun md => foldE (fun css => foldE (fun lr => foldE (fun lam => foldE (fun gam => foldE (fun ss =>
    gridBody N eval (gridPoint id o rounds cw md css lr lam gam ss)) (x_ss a)) (x_gam a)) (x_lam a)) (x_lr a)) (x_css a)) (x_md a)) (x_mcw a)) (x_rounds a) s.
Proof.
  unfold points. rewrite foldE_map. unfold combinations. rewrite foldE_flat.
  apply foldE_ext; intros rounds s1; rewrite foldE_flat. apply foldE_ext; intros cw s2; rewrite foldE_flat.
  apply foldE_ext; intros md s3; rewrite foldE_flat. apply foldE_ext; intros css s4; rewrite foldE_flat.
  apply foldE_ext; intros lr s5; rewrite foldE_flat. apply foldE_ext; intros lam s6; rewrite foldE_flat.
  apply foldE_ext; intros gam s7; rewrite foldE_map. reflexivity.
Qed.

Lemma GridWith_fold fuel a r : axesOf o a -> GridWith fuel id eval o = Ok r -> 0 <= N /\
  exists q, foldE (gridBody N eval) (points a) gs0 = Ok q /\ r = finish q.
Proof.
  intros (H1 & H2 & H3 & H4 & H5 & H6 & H7 & H8) H. unfold GridWith in H. destruct (Z.ltb_spec (g_ncpus o) 0) as [|HN]; [discriminate H|].
  split; [exact HN|]. apply bind_Ok in H as (q & Hq & H). exists q. split; [|destruct q; injection H as <-; reflexivity].
  rewrite points_fold.
  revert Hq. apply forLoop_Ok; auto. intros rounds s1 r1. apply forLoop_Ok; auto. intros cw s2 r2. apply forLoop_Ok; auto. intros md s3 r3.
  apply forLoop_Ok; auto. intros css s4 r4. apply forLoop_Ok; auto. intros lr s5 r5. apply forLoop_Ok; auto. intros lam s6 r6.
  apply forLoop_Ok; auto. intros gam s7 r7. apply forLoop_Ok; auto.
Qed.
Lemma GridWith_enough fuel a : axesOf o a -> 0 <= N ->
  (length (x_rounds a) < fuel /\ length (x_mcw a) < fuel /\ length (x_md a) < fuel /\ length (x_css a) < fuel /\
   length (x_lr a) < fuel /\ length (x_lam a) < fuel /\ length (x_gam a) < fuel /\ length (x_ss a) < fuel)%nat ->
  GridWith fuel id eval o = (q <- foldE (gridBody N eval) (points a) gs0 ;; Ok (finish q)).
Proof.
  intros (H1 & H2 & H3 & H4 & H5 & H6 & H7 & H8) HN (L1 & L2 & L3 & L4 & L5 & L6 & L7 & L8). unfold GridWith.
  destruct (Z.ltb_spec (g_ncpus o) 0) as [|_]; [unfold N in HN; lia|]. rewrite points_fold. fold gs0. fold N.
  match goal with |- bind ?x _ = bind ?y _ => assert (HX : x = y) end.
  { apply (forLoop_enough Z.leb Z.add); auto. intros rounds s1 _. apply (forLoop_enough fleb fadd); auto. intros cw s2 _.
    apply (forLoop_enough Z.leb Z.add); auto. intros md s3 _. apply (forLoop_enough fleb fadd); auto. intros css s4 _.
    apply (forLoop_enough fleb fadd); auto. intros lr s5 _. apply (forLoop_enough fleb fadd); auto. intros lam s6 _.
    apply (forLoop_enough fleb fadd); auto. intros gam s7 _. apply (forLoop_enough fleb fadd); auto. }
  rewrite HX. match goal with |- bind ?x _ = _ => destruct x as [[s|e]| |] end; reflexivity.
Qed.

(** *** what is handed to workers *)
Lemma body_spawned t s r : gridBody N eval t s = Ok r -> match r with inl s' => gs_spawned s' | inr e => gr_spawned e end = gs_spawned s ++ [t] /\
  match r with inl _ => True | inr e => gr_err e = true end.
Proof.
  unfold gridBody. destruct (N <=? _); [discriminate|]. destruct (_ =? _).
  - intros H. apply bind_Ok in H as (rets & _ & H). apply bind_Ok in H as (q & _ & H). destruct q as [[b f]|u]; injection H as <-; auto.
  - intros [= <-]. auto.
Qed.
Lemma fold_spawned l : forall s q, foldE (gridBody N eval) l s = Ok q ->
  match q with inl s' => gs_spawned s' = gs_spawned s ++ l
  | inr e => gr_err e = true /\ exists l1 l2, l = l1 ++ l2 /\ gr_spawned e = gs_spawned s ++ l1 end.
Proof.
  induction l as [|t l IH]; intros s q H; cbn [foldE] in H.
  - injection H as <-. rewrite app_nil_r. auto.
  - apply bind_Ok in H as (r & Hr & H). apply body_spawned in Hr as [Hs He]. destruct r as [s'|e].
    + apply IH in H. rewrite Hs in H. destruct q as [s2|e]; [rewrite H, <- app_assoc; auto|]. destruct H as (H1 & l1 & l2 & -> & H2).
      split; auto. exists (t :: l1), l2. rewrite H2, <- app_assoc. auto.
    + injection H as <-. split; auto. exists [t], l. auto.
Qed.

(** *** bests *)
Fixpoint collect (best : f64) (fin : option Options) (outs : list (f64 * option Options)) : f64 * option Options :=
  match outs with
  | [] => (best, fin)
  | (a, op) :: rest => if fltb best a then collect a op rest else collect best fin rest
  end.
Lemma collect_app outs1 : forall b f outs2, collect b f (outs1 ++ outs2) = collect (fst (collect b f outs1)) (snd (collect b f outs1)) outs2.
Proof. induction outs1 as [|[a op] l IH]; intros b f outs2; simpl; auto. destruct (fltb b a); auto. Qed.

Lemma fltb_fleb_false a b : fltb a b = true -> fleb b a = false.
Proof.
  intros H. apply fltb_true in H as (H1 & H2 & H3). destruct (fleb b a) eqn:E; auto. apply fleb_true in E as (_ & _ & E). exfalso. lra.
Qed.
Lemma fltb_up b c a : fltb b c = true -> fltb b a = false -> fleb c a = false.
Proof.
  intros H1 H2. apply fltb_true in H1 as (N1 & N2 & H1). destruct (fleb c a) eqn:E; auto. apply fleb_true in E as (_ & N3 & E).
  assert (fltb b a = true); [|congruence]. apply fltb_true. repeat split; auto. lra.
Qed.
Lemma collect_spec outs : firstBest outs (fst (collect fzero None outs)) (snd (collect fzero None outs)).
Proof.
  assert (HG : forall outs done b f, firstBest done b f -> firstBest (done ++ outs) (fst (collect b f outs)) (snd (collect b f outs))).
  { clear outs. intros outs. induction outs as [|[a op] l IH]; intros done b f HF; cbn [collect fst snd].
    - rewrite app_nil_r. auto.
    - replace (done ++ (a, op) :: l) with ((done ++ [(a, op)]) ++ l) by (rewrite <- app_assoc; auto).
      destruct (fltb b a) eqn:Eb; apply IH.
      + right. exists (length done). split; [rewrite nth_error_app2, Nat.sub_diag by lia; auto|].
        assert (H0 : fltb fzero a = true /\ (forall x ox, In (x, ox) done -> fleb a x = false)).
        { destruct HF as [(-> & -> & HF)|(k & Hk & Hp & HF & _)].
          - split; auto. intros x ox Hx. eapply fltb_up; eauto.
          - split; [eapply fltb_trans; eauto|]. intros x ox Hx. eapply fltb_up; eauto. }
        destruct H0 as [H0 HX]. split; [auto|].
        assert (HI : forall x, fltb a x = true -> fleb a x = true).
        { intros x Hx. apply fltb_true in Hx as (N1 & N2 & Hx). apply fleb_true. repeat split; auto. lra. }
        split.
        * intros x ox Hx. apply in_app_iff in Hx as [Hx|[Hx|[]]].
          -- destruct (fltb a x) eqn:E; auto. apply HI in E. rewrite (HX x ox Hx) in E. discriminate E.
          -- injection Hx as <- <-. destruct (fltb a a) eqn:E; auto. pose proof (fltb_fleb_false _ _ E). apply HI in E. congruence.
        * intros j x ox Hj Hx. rewrite nth_error_app1 in Hx by auto. apply nth_error_In in Hx. eauto.
      + destruct HF as [(-> & -> & HF)|(k & Hk & Hp & HF & HJ)].
        * left. split; [auto|]. split; [auto|]. intros x ox Hx. apply in_app_iff in Hx as [Hx|[Hx|[]]]; [eauto|]. injection Hx as <- <-. auto.
        * right. exists k. assert (Hlt : (k < length done)%nat) by (apply nth_error_Some; congruence).
          split; [rewrite nth_error_app1; auto|]. split; [auto|]. split.
          -- intros x ox Hx. apply in_app_iff in Hx as [Hx|[Hx|[]]]; [eauto|]. injection Hx as <- <-. auto.
          -- intros j x ox Hj Hx. rewrite nth_error_app1 in Hx by lia. eauto. }
  specialize (HG outs [] fzero None). simpl in HG. apply HG. left. split; [auto|]. split; [auto|]. intros a op [].
Qed.

(** *** batches *)
Lemma rescue_spec rets : forall b f q, Forall sentShape rets -> rescueConcValues (map cv_sent rets) b f = Ok q ->
  match q with
  | inl bf => exists outs, Forall2 (fun r out => outcomeIs r (Some out)) rets outs /\ bf = collect b f outs
  | inr _ => exists r, In r rets /\ outcomeIs r None
  end.
Proof.
  induction rets as [|r rets IH]; intros b f q HS H; cbn [map rescueConcValues] in H.
  - injection H as <-. exists []. split; [constructor|auto].
  - inversion HS as [|x y Hr HS']; subst. unfold sentShape in Hr. rewrite Hr in H. destruct (cv_err r) eqn:Ee.
    + injection H as <-. exists r. split; [left; auto|]. left. auto.
    + destruct (fltb (cv_acc r) fzero) eqn:En.
      * injection H as <-. exists r. split; [left; auto|]. right. auto.
      * assert (HO : outcomeIs r (Some (cv_acc r, cv_opts r))) by (simpl; auto).
        destruct (fltb b (cv_acc r)) eqn:Eb; apply IH in H; auto; destruct q as [bf|u].
        -- destruct H as (outs & H1 & H2). exists ((cv_acc r, cv_opts r) :: outs). split; [constructor; auto|]. cbn [collect]. rewrite Eb. auto.
        -- destruct H as (r' & H1 & H2). exists r'. split; [right|]; auto.
        -- destruct H as (outs & H1 & H2). exists ((cv_acc r, cv_opts r) :: outs). split; [constructor; auto|]. cbn [collect]. rewrite Eb. auto.
        -- destruct H as (r' & H1 & H2). exists r'. split; [right|]; auto.
Qed.

Definition ginv (s : gstate) : Prop := exists q outs done,
  gs_spawned s = done ++ map snd (gs_pending s) /\ map fst (gs_pending s) = seq (length done) (length (gs_pending s)) /\
  Z.of_nat (length done) = N * Z.of_nat q /\ Z.of_nat (length (gs_pending s)) < N /\ length outs = length done /\
  (forall k out, nth_error outs k = Some out -> outcomeAt eval (gs_spawned s) k (Some out)) /\
  (gs_best s, gs_final s) = collect fzero None outs.
Definition gerr (e : gridRet) : Prop := gr_err e = true /\ gr_acc e = fofZ (-1) /\ gr_accuracies e = [] /\ gr_opts e = None /\
  (Z.of_nat (length (gr_spawned e)) mod N = 0) /\ exists k, (k < length (gr_spawned e))%nat /\ (Z.of_nat (length (gr_spawned e)) - N <= Z.of_nat k) /\ outcomeAt eval (gr_spawned e) k None.

Lemma outAt_app pts more k out : outcomeAt eval pts k out -> outcomeAt eval (pts ++ more) k out.
Proof.
  intros (t & r & H1 & H2 & H3). exists t, r. split; [|auto]. rewrite nth_error_app1; auto. apply nth_error_Some. congruence.
Qed.
Lemma body_inv : evalShape eval -> forall t s r, ginv s -> gridBody N eval t s = Ok r -> match r with inl s' => ginv s' | inr e => gerr e end.
Proof.
  intros HE t s r (q & outs & done & I1 & I2 & I3 & I4 & I5 & I6 & I7) H. unfold gridBody in H.
  destruct (Z.leb_spec N (Z.of_nat (length (gs_pending s)))) as [|_]; [discriminate H|].
  set (pending := gs_pending s ++ [(length (gs_spawned s), t)]) in *. set (spawned := gs_spawned s ++ [t]) in *.
  assert (P1 : spawned = done ++ map snd pending) by (unfold spawned, pending; rewrite I1, map_app, app_assoc; auto).
  assert (P2 : map fst pending = seq (length done) (length pending)).
  { unfold pending. rewrite map_app, I2, app_length. simpl length. rewrite seq_app. simpl. rewrite I1, app_length, map_length. auto. }
  assert (P3 : length pending = S (length (gs_pending s))) by (unfold pending; rewrite app_length; simpl; lia).
  assert (P4 : forall i p, nth_error pending i = Some p -> fst p = (length done + i)%nat /\ nth_error spawned (length done + i) = Some (snd p)).
  { intros i p Hp. split.
    - assert (HX : nth_error (map fst pending) i = Some (fst p)) by (rewrite nth_error_map, Hp; auto). rewrite P2 in HX.
      assert (i < length pending)%nat by (apply nth_error_Some; congruence).
      rewrite (nth_error_nth' _ 0%nat) in HX by (rewrite seq_length; auto). rewrite seq_nth in HX by auto. congruence.
    - rewrite P1, nth_error_app2 by lia. replace (length done + i - length done)%nat with i by lia. rewrite nth_error_map, Hp. auto. }
  destruct (Z.eqb_spec (Z.of_nat (length (gs_pending s)) + 1) N) as [HN|HN].
  - apply bind_Ok in H as (rets & Hm & H). apply bind_Ok in H as (rr & Hr & H). apply mapM_nthE in Hm as [M1 M2].
    apply rescue_spec in Hr.
    + destruct rr as [[b f]|u]; injection H as <-.
      * destruct Hr as (outs2 & F & Hc).
        exists (S q), (outs ++ outs2), spawned. cbn [gs_spawned gs_pending gs_best gs_final map length]. rewrite app_nil_r.
        assert (HL2 : length outs2 = length pending) by (rewrite <- M1; symmetry; clear -F; induction F; simpl; auto).
        assert (HLs : length spawned = (length done + length pending)%nat) by (rewrite P1, app_length, map_length; auto).
        split; [auto|]. split; [auto|]. split; [lia|]. split; [lia|]. split; [rewrite app_length; lia|]. split.
        -- intros k out Hk. destruct (Nat.lt_ge_cases k (length outs)) as [Hlt|Hge].
           ++ rewrite nth_error_app1 in Hk by auto. unfold spawned. apply outAt_app. auto.
           ++ rewrite nth_error_app2 in Hk by auto. destruct (F2_nth _ _ _ F _ _ Hk) as (r & Hr & HO). apply M2 in Hr as (p & Hp & He).
              apply P4 in Hp as [Hp1 Hp2]. exists (snd p), r. rewrite Hp1 in He. replace k with (length done + (k - length outs))%nat by lia. auto.
        -- rewrite collect_app, <- I7. cbn [fst snd]. auto.
      * destruct Hr as (r & HI & HO). apply In_nth_error in HI as (i & Hi). assert (Hlt : (i < length rets)%nat) by (apply nth_error_Some; congruence).
        apply M2 in Hi as (p & Hp & He). apply P4 in Hp as [Hp1 Hp2].
        assert (HLs : length spawned = (length done + length pending)%nat) by (rewrite P1, app_length, map_length; auto).
        unfold gerr. cbn [gr_err gr_acc gr_accuracies gr_opts gr_spawned]. repeat (split; [auto; fail|]). split.
        -- rewrite HLs. replace (Z.of_nat (length done + length pending)) with ((Z.of_nat q + 1) * N) by lia. apply Z_mod_mult.
        -- exists (length done + i)%nat. split; [lia|]. split; [lia|]. exists (snd p), r. rewrite Hp1 in He. auto.
    + apply Forall_forall. intros r9 Hr'. apply In_nth_error in Hr' as (i & Hi). apply M2 in Hi as (p & _ & He). eapply HE; eauto.
  - injection H as <-. exists q, outs, done. cbn [gs_spawned gs_pending gs_best gs_final]. repeat (split; [auto; fail|]). split; [lia|]. split; [auto|]. split; [|auto].
    intros k out Hk. apply outAt_app. auto.
Qed.

Lemma GridWith_result fuel a r : evalShape eval -> 1 <= N -> axesOf o a -> GridWith fuel id eval o = Ok r -> gr_accuracies r = [] /\
  let n := length (gr_spawned r) in
  if gr_err r then gerr r
  else gr_spawned r = points a /\ exists outs, length outs = (Z.to_nat N * (n / Z.to_nat N))%nat /\
    (forall k out, nth_error outs k = Some out -> outcomeAt eval (gr_spawned r) k (Some out)) /\ firstBest outs (gr_acc r) (gr_opts r).
Proof.
  intros HE HN HA H. destruct (GridWith_fold fuel a r HA H) as (_ & q & Hq & ->).
  assert (H0 : ginv gs0).
  { exists 0%nat, [], []. simpl. repeat (split; [auto; fail|]). split; [lia|]. split; [lia|]. split; [auto|]. split; [|auto]. intros [|k] out Hk; discriminate Hk. }
  pose proof (foldE_inv _ ginv gerr (body_inv HE) _ _ _ H0 Hq) as HI. apply fold_spawned in Hq. destruct q as [s|e]; cbn [finish].
  - cbn [gr_accuracies gr_err gr_spawned gr_acc gr_opts]. split; [auto|]. split; [auto|]. destruct HI as (q & outs & done & I1 & I2 & I3 & I4 & I5 & I6 & I7).
    exists outs. split; [|split; [auto|]].
    + rewrite I1, app_length, map_length, I5. set (d := length done) in *. set (p := length (gs_pending s)) in *.
      assert (HQ : d = (Z.to_nat N * q)%nat) by nia. rewrite HQ. f_equal. symmetry. rewrite (Nat.mul_comm (Z.to_nat N)), Nat.div_add_l by lia. rewrite (Nat.div_small p) by lia. lia.
    + pose proof (collect_spec outs) as HC. rewrite <- I7 in HC. auto.
  - pose proof HI as (I1 & I2 & I3 & _). rewrite I1. split; auto.
Qed.
Lemma GridWith_prefix fuel a r : axesOf o a -> GridWith fuel id eval o = Ok r -> exists l2, points a = gr_spawned r ++ l2 /\ (gr_err r = false -> l2 = []).
Proof.
  intros HA H. destruct (GridWith_fold fuel a r HA H) as (_ & q & Hq & ->). apply fold_spawned in Hq. destruct q as [s|e]; cbn [finish].
  - exists []. cbn [gr_spawned]. rewrite Hq, app_nil_r. auto.
  - destruct Hq as (He & l1 & l2 & -> & ->). exists l2. split; auto. congruence.
Qed.

(** *** termination and failures *)
Lemma fold_total l : forall s, evalShape eval -> (forall k t, In t l \/ In t (map snd (gs_pending s)) -> exists r, eval k t = Ok r) -> Z.of_nat (length (gs_pending s)) < N -> exists q, foldE (gridBody N eval) l s = Ok q.
Proof.
  intros s HE. revert s. induction l as [|t l IH]; intros s HT HP; cbn [foldE]; [eauto|].
  assert (HB : exists r, gridBody N eval t s = Ok r /\ match r with inl s' => Z.of_nat (length (gs_pending s')) < N /\
     (forall t', In t' (map snd (gs_pending s')) -> In t' (t :: l) \/ In t' (map snd (gs_pending s))) | inr _ => True end).
  { unfold gridBody. destruct (Z.leb_spec N (Z.of_nat (length (gs_pending s)))); [lia|]. destruct (Z.eqb_spec (Z.of_nat (length (gs_pending s)) + 1) N).
    - assert (HM : forall l0, (forall p, In p l0 -> In (snd p) (t :: l) \/ In (snd p) (map snd (gs_pending s))) -> exists rets, mapM (fun p => eval (fst p) (snd p)) l0 = Ok rets /\ Forall sentShape rets).
      { clear -HE HT. induction l0 as [|p l0 IH]; intros HI; simpl; [eauto|]. destruct IH as (rets & IH & IF); [intros; apply HI; right; auto|].
        destruct (HT (fst p) (snd p)) as (r & Hr); [apply HI; left; auto|]. rewrite Hr, IH. simpl. eexists. split; [reflexivity|]. constructor; auto. eapply HE; eauto. }
      destruct (HM (gs_pending s ++ [(length (gs_spawned s), t)])) as (rets & -> & HF).
      { intros p Hp. apply in_app_iff in Hp as [Hp|[<-|[]]]; [right; apply in_map; auto|left; left; auto]. }
      cbn [bind].
      assert (HR : forall rets b f, Forall sentShape rets -> exists q, rescueConcValues (map cv_sent rets) b f = Ok q).
      { clear. induction rets as [|r rets IH]; intros b f HF; cbn [map rescueConcValues]; [eauto|]. inversion HF as [|x y Hr HS']; subst. unfold sentShape in Hr. rewrite Hr.
        destruct (cv_err r); [eauto|]. destruct (fltb (cv_acc r) fzero); [eauto|]. destruct (fltb b (cv_acc r)); auto. }
      destruct (HR rets (gs_best s) (gs_final s) HF) as ([[b f]|u] & ->); cbn [bind]; eexists; (split; [reflexivity|]); simpl; auto. split; [lia|tauto].
    - eexists. split; [reflexivity|]. cbn [gs_pending]. rewrite app_length. simpl. split; [lia|]. intros t' Ht. rewrite map_app in Ht. apply in_app_iff in Ht as [Ht|[<-|[]]]; auto. }
  destruct HB as ([s'|e] & -> & HB); cbn [bind]; eauto. destruct HB as [HB1 HB2]. apply IH; auto. intros k t' [Ht|Ht]; apply HT; [left; right; auto|auto].
Qed.
Lemma GridWith_total a : evalShape eval -> (forall k t, In t (points a) -> exists r, eval k t = Ok r) -> 1 <= N -> axesOf o a -> exists fuel r, GridWith fuel id eval o = Ok r.
Proof.
  intros HE HT HN HA. destruct (fold_total (points a) gs0 HE) as (q & Hq); [intros k t [H|[]]; auto|simpl; lia|].
  exists (S (length (x_rounds a) + length (x_mcw a) + length (x_md a) + length (x_css a) + length (x_lr a) + length (x_lam a) + length (x_gam a) + length (x_ss a)))%nat, (finish q).
  rewrite (GridWith_enough _ a HA); [rewrite Hq; reflexivity|lia|repeat split; lia].
Qed.
End Grid.

(** *** bounds *)
Lemma fadd_ge x st : fnanb x = false -> fleb fzero st = true -> fnanb (fadd x st) = false -> (ext x <= ext (fadd x st))%R.
Proof.
  intros Nx Hst Ns. apply fleb_true in Hst as (_ & Nst & Hst). rewrite ext_fzero in Hst. pose proof Mx_pos as HM.
  destruct (ffinite x) eqn:Fx, (ffinite st) eqn:Fs.
  - destruct (fadd_ext x st Fx Fs) as [_ E]. rewrite E. rewrite (ext_finite x Fx), (ext_finite st Fs) in *. pose proof (B2R_bounds x).
    apply Rle_trans with (clamp (B2R x)); [rewrite clamp_id; lra|apply clamp_mono]. rewrite <- (rnd_B2R x) at 1. apply rnd_mono. lra.
  - destruct st as [s|[|]| |s m e H]; try discriminate; simpl in Hst; try lra. pose proof (ext_bounds x) as B1.
    destruct x as [s1|s1| |s1 m1 e1 H1]; try discriminate; simpl in *; lra.
  - pose proof (ext_bounds (fadd x st)) as B1. pose proof (ext_bounds st) as B2. destruct x as [s|[|]| |s m e H]; try discriminate; [cbn [ext] in *; lra|].
    destruct st as [s1|s1| |s1 m1 e1 H1]; try discriminate; simpl in *; lra.
  - pose proof (ext_bounds (fadd x st)) as B1. destruct x as [s|[|]| |s m e H]; try discriminate; [cbn [ext] in *; lra|].
    destruct st as [s1|[|]| |s1 m1 e1 H1]; try discriminate; simpl in *; lra.
Qed.
Lemma progF_bounds hi st x l : progression fleb fadd hi st x l -> forall y, In y l -> fleb y hi = true /\ (fleb fzero st = true -> fleb x y = true).
Proof.
  induction 1 as [x Hx|x l Hx HP IH]; intros y Hy; [destruct Hy|]. destruct Hy as [<-|Hy].
  - split; auto. intros _. apply fleb_true in Hx as (N1 & _ & _). apply fleb_true. repeat split; auto. lra.
  - destruct (IH y Hy) as [H1 H2]. split; auto. intros H0. specialize (H2 H0). apply fleb_true in H2 as (N1 & N2 & H2).
    apply fleb_true in Hx as (N3 & _ & _). apply fleb_true. repeat split; auto. pose proof (fadd_ge x st N3 H0 N1). lra.
Qed.
Lemma progZ_bounds hi st x l : progression Z.leb Z.add hi st x l -> forall y, In y l -> y <= hi /\ (0 <= st -> x <= y).
Proof.
  induction 1 as [x Hx|x l Hx HP IH]; intros y Hy; [destruct Hy|]. apply Z.leb_le in Hx. destruct Hy as [<-|Hy]; [lia|].
  destruct (IH y Hy) as [H1 H2]. split; auto. intros H0. specialize (H2 H0). lia.
Qed.
Lemma combinations_In a c : In c (combinations a) <-> let '(rounds, cw, md, css, lr, lam, gam, ss) := c in
  In rounds (x_rounds a) /\ In cw (x_mcw a) /\ In md (x_md a) /\ In css (x_css a) /\ In lr (x_lr a) /\ In lam (x_lam a) /\ In gam (x_gam a) /\ In ss (x_ss a).
Proof.
  destruct c as [[[[[[[rounds cw] md] css] lr] lam] gam] ss]. unfold combinations. repeat setoid_rewrite in_flat_map. setoid_rewrite in_map_iff. split.
  - intros (r & H1 & c & H2 & m & H3 & cs & H4 & l & H5 & la & H6 & g & H7 & s & E & H8). injection E as <- <- <- <- <- <- <- <-. auto 10.
  - intros (H1 & H2 & H3 & H4 & H5 & H6 & H7 & H8). repeat (eexists; split; [eassumption|]). eexists; split; [reflexivity|auto].
Qed.
Lemma points_bounds id o a t : axesOf o a -> In t (points id o a) -> inBounds o t.
Proof.
  intros (A1 & A2 & A3 & A4 & A5 & A6 & A7 & A8) H. unfold points in H. apply in_map_iff in H as (c & <- & H). apply combinations_In in H.
  destruct c as [[[[[[[rounds cw] md] css] lr] lam] gam] ss]. destruct H as (H1 & H2 & H3 & H4 & H5 & H6 & H7 & H8).
  unfold inBounds, pointOf, gridPoint. cbn [o_rounds o_maxdepth o_mcw o_css o_lr o_lambda o_gamma o_ss].
  pose proof (progZ_bounds _ _ _ _ A1 _ H1) as [? ?]. pose proof (progF_bounds _ _ _ _ A2 _ H2) as [? ?]. pose proof (progZ_bounds _ _ _ _ A3 _ H3) as [? ?].
  pose proof (progF_bounds _ _ _ _ A4 _ H4) as [? ?]. pose proof (progF_bounds _ _ _ _ A5 _ H5) as [? ?]. pose proof (progF_bounds _ _ _ _ A6 _ H6) as [? ?].
  pose proof (progF_bounds _ _ _ _ A7 _ H7) as [? ?]. pose proof (progF_bounds _ _ _ _ A8 _ H8) as [? ?].
  repeat (split; [assumption|]). assumption.
Qed.
Lemma points_isPoint id o a : Forall2 (isPoint id o) (combinations a) (points id o a).
Proof.
  unfold points. induction (combinations a) as [|c l IH]; constructor; auto.
  destruct c as [[[[[[[rounds cw] md] css] lr] lam] gam] ss]. repeat split; reflexivity.
Qed.

Lemma isPoint_unique id o c t t' : isPoint id o c t -> isPoint id o c t' -> t = t'.
Proof.
  unfold isPoint. intros (E1 & E2 & E3 & E4) (F1 & F2 & F3 & F4). destruct t, t'. cbn in *. rewrite E1 in F1. rewrite <- E4 in F4. rewrite <- E2 in F2. rewrite <- E3 in F3.
  injection F1. injection F4. intros. subst. reflexivity.
Qed.
Lemma isPoints_unique id o cs : forall l l', Forall2 (isPoint id o) cs l -> Forall2 (isPoint id o) cs l' -> l = l'.
Proof.
  induction cs as [|c cs IH]; intros l l' H H'; inversion H; inversion H'; subst; auto. f_equal; auto. eapply isPoint_unique; eauto.
Qed.

(** *** endless axes *)
Lemma forLoop_prog {A St R} (le : A -> A -> bool) add hi st (b : A -> St -> res (St + R)) : forall fuel x s s',
  forLoop le add fuel x hi st b s = Ok (inl s') -> (exists l, progression le add hi st x l) /\ (le x hi = true -> exists s1, b x s = Ok (inl s1)).
Proof.
  induction fuel as [|f IH]; intros x s s' H; [discriminate H|]. cbn [forLoop] in H. destruct (le x hi) eqn:E.
  - apply bind_Ok in H as (q & Hq & H). destruct q as [s1|e]; [|discriminate H]. split; [|eauto]. apply IH in H as [(l & Hl) _].
    exists (x :: l). constructor; auto.
  - split; [|discriminate]. exists []. constructor. auto.
Qed.
Lemma GridWith_axes fuel id eval o r : nonemptyGrid o -> GridWith fuel id eval o = Ok r -> gr_err r = false -> exists a, axesOf o a.
Proof.
  intros (N1 & N2 & N3 & N4 & N5 & N6 & N7 & N8) H He. apply Z.leb_le in N1, N3. unfold GridWith in H. destruct (g_ncpus o <? 0); [discriminate H|].
  apply bind_Ok in H as (q & Hq & H). destruct q as [s|e].
  - apply forLoop_prog in Hq as [(l1 & P1) HB]. destruct (HB N1) as (s1 & Hq1). clear HB.
    apply forLoop_prog in Hq1 as [(l2 & P2) HB]. destruct (HB N2) as (s2 & Hq2). clear HB.
    apply forLoop_prog in Hq2 as [(l3 & P3) HB]. destruct (HB N3) as (s3 & Hq3). clear HB.
    apply forLoop_prog in Hq3 as [(l4 & P4) HB]. destruct (HB N4) as (s4 & Hq4). clear HB.
    apply forLoop_prog in Hq4 as [(l5 & P5) HB]. destruct (HB N5) as (s5 & Hq5). clear HB.
    apply forLoop_prog in Hq5 as [(l6 & P6) HB]. destruct (HB N6) as (s6 & Hq6). clear HB.
    apply forLoop_prog in Hq6 as [(l7 & P7) HB]. destruct (HB N7) as (s7 & Hq7). clear HB.
    apply forLoop_prog in Hq7 as [(l8 & P8) _].
    exists (MkAxes l1 l2 l3 l4 l5 l6 l7 l8). repeat split; assumption.
  - exfalso. injection H as <-.
    assert (HQ : forall A (le : A -> A -> bool) add hi st (b : A -> gstate -> res (gstate + gridRet)),
      (forall x s e, b x s = Ok (inr e) -> gr_err e = true) -> forall fuel x s e, forLoop le add fuel x hi st b s = Ok (inr e) -> gr_err e = true).
    { clear. intros A le add hi st b HB fuel. induction fuel as [|f IH]; intros x s e H; [discriminate H|]. cbn [forLoop] in H. destruct (le x hi); [|discriminate H].
      apply bind_Ok in H as (q & Hq & H). destruct q as [s1|e1]; [eauto|]. injection H as <-. eauto. }
    assert (gr_err e = true); [|congruence]. revert Hq.
    apply HQ. intros x1 s1 e1. apply HQ. intros x2 s2 e2. apply HQ. intros x3 s3 e3. apply HQ. intros x4 s4 e4. apply HQ. intros x5 s5 e5. apply HQ. intros x6 s6 e6.
    apply HQ. intros x7 s7 e7. apply HQ. intros x8 s8 e8 H8. apply body_spawned in H8 as [_ H8]. exact H8.
Qed.
Lemma progZ_stuck hi st x l : st <= 0 -> x <= hi -> ~ progression Z.leb Z.add hi st x l.
Proof.
  intros Hs Hx HP. revert Hx. induction HP as [x Hn|x l Hn HP IH]; intros Hx.
  - apply Z.leb_gt in Hn. lia.
  - apply IH. lia.
Qed.
Lemma progF_stuck hi st x l : fadd x st = x -> fleb x hi = true -> ~ progression fleb fadd hi st x l.
Proof.
  intros Hs Hx HP. revert Hs Hx. induction HP as [x Hn|x l Hn HP IH]; intros Hs Hx; [congruence|]. apply IH; rewrite Hs; auto.
Qed.

(** *** too few processors *)
Lemma GridWith_negative fuel id eval o : g_ncpus o < 0 -> GridWith fuel id eval o = Panic.
Proof. intros H. unfold GridWith. destruct (Z.ltb_spec (g_ncpus o) 0); [auto|lia]. Qed.
Lemma forLoop_first {A St R} (le : A -> A -> bool) add hi st (b : A -> St -> res (St + R)) fuel x s : (1 <= fuel)%nat -> le x hi = true -> b x s = Panic ->
  forLoop le add fuel x hi st b s = Panic.
Proof. intros Hf Hx Hb. destruct fuel as [|f]; [lia|]. cbn [forLoop]. rewrite Hx, Hb. reflexivity. Qed.
Lemma GridWith_zero fuel id eval o : (1 <= fuel)%nat -> g_ncpus o = 0 -> nonemptyGrid o -> GridWith fuel id eval o = Panic.
Proof.
  intros Hf HN (N1 & N2 & N3 & N4 & N5 & N6 & N7 & N8). apply Z.leb_le in N1, N3. unfold GridWith. rewrite HN. change (0 <? 0) with false. cbv iota.
  match goal with |- bind ?x _ = _ => assert (HX : x = Panic) end; [|rewrite HX; reflexivity].
  repeat (apply forLoop_first; auto).
Qed.

Lemma MCCV_shape {K} E fuel ints rndf id (D : DataBunch K) nfold O r :
  MultiClassCrossValidation E fuel ints rndf id D nfold O true = Ok r -> sentShape r.
Proof.
  unfold MultiClassCrossValidation. intros H. apply bind_Ok in H as ([[n so] err] & _ & H). destruct (err && _)%bool.
  - injection H as <-. reflexivity.
  - destruct so as [s|]; [|discriminate H]. apply bind_Ok in H as ([accus O'] & _ & H). injection H as <-. reflexivity.
Qed.

(** *** the statements *)
Lemma c55_lemma fuel id eval o a r : axesOf o a -> GridWith fuel id eval o = Ok r ->
  exists pts rest, Forall2 (isPoint id o) (combinations a) pts /\ pts = gr_spawned r ++ rest /\ (gr_err r = false -> rest = []) /\
    forall t, In t (gr_spawned r) -> inBounds o t.
Proof.
  intros HA H. destruct (GridWith_prefix id eval o fuel a r HA H) as (rest & HP & HR). exists (points id o a), rest. split; [apply points_isPoint|]. split; [auto|]. split; [auto|].
  intros t Ht. eapply points_bounds; eauto. rewrite HP. apply in_app_iff. auto.
Qed.
Lemma c56_lemma fuel id eval o r : evalShape eval -> 1 <= g_ncpus o -> (exists a, axesOf o a) -> GridWith fuel id eval o = Ok r -> gr_accuracies r = [] /\
  let n := length (gr_spawned r) in let N := Z.to_nat (g_ncpus o) in
  if gr_err r then gr_acc r = fofZ (-1) /\ gr_opts r = None /\ (n mod N = 0)%nat /\ exists k, (k < n)%nat /\ (n <= k + N)%nat /\ outcomeAt eval (gr_spawned r) k None
  else exists outs, length outs = (N * (n / N))%nat /\ (forall k out, nth_error outs k = Some out -> outcomeAt eval (gr_spawned r) k (Some out)) /\
         firstBest outs (gr_acc r) (gr_opts r).
Proof.
  intros HE HN [a HA] H. destruct (GridWith_result id eval o fuel a r HE HN HA H) as [H1 H2]. split; [auto|]. cbv zeta in *. destruct (gr_err r).
  - destruct H2 as (_ & I1 & _ & I2 & I3 & k & K1 & K2 & K3). split; [auto|]. split; [auto|]. split.
    + apply Nat2Z.inj. rewrite Nat2Z.inj_mod, Z2Nat.id by lia. exact I3.
    + exists k. split; [auto|]. split; [lia|auto].
  - destruct H2 as (_ & H2). exact H2.
Qed.
Lemma c85_lemma fuel id eval o r : nonemptyGrid o -> stepStuck o -> GridWith fuel id eval o = Ok r -> gr_err r = true.
Proof.
  intros HN HS H. destruct (gr_err r) eqn:E; auto. exfalso. pose proof HN as (N1 & N2 & N3 & N4 & N5 & N6 & N7 & N8).
  destruct (GridWith_axes fuel id eval o r HN H E) as (a & A1 & A2 & A3 & A4 & A5 & A6 & A7 & A8).
  destruct HS as [S1|[S1|[S1|[S1|[S1|[S1|[S1|S1]]]]]]].
  - exact (progZ_stuck _ _ _ _ S1 N1 A1).
  - exact (progF_stuck _ _ _ _ S1 N2 A2).
  - exact (progZ_stuck _ _ _ _ S1 N3 A3).
  - exact (progF_stuck _ _ _ _ S1 N4 A4).
  - exact (progF_stuck _ _ _ _ S1 N5 A5).
  - exact (progF_stuck _ _ _ _ S1 N6 A6).
  - exact (progF_stuck _ _ _ _ S1 N7 A7).
  - exact (progF_stuck _ _ _ _ S1 N8 A8).
Qed.
Lemma c55_total id eval o a pts : evalShape eval -> 1 <= g_ncpus o -> axesOf o a -> Forall2 (isPoint id o) (combinations a) pts ->
  (forall k t, In t pts -> exists r, eval k t = Ok r) -> exists fuel r, GridWith fuel id eval o = Ok r.
Proof.
  intros HE HN HA HP HT. rewrite (isPoints_unique id o _ _ _ HP (points_isPoint id o a)) in HT. exact (GridWith_total id eval o a HE HT HN HA).
Qed.
