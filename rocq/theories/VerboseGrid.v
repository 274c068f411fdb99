(** Proofs about what the searches print (C159, C160). *)
From Verif Require Import Base F64 F64Lemmas Env Utils Tree Options Train Spec SpecTrain Text CV SpecCV CVProofs Grid SpecGrid GridProofs Grad SpecGrad Verbose SpecVerbose VerboseProofs.
From Coq Require Import List.
Open Scope Z_scope.

(** ** Loops *)
Section ForW.
Context {A St R : Type} (le : A -> A -> bool) (add : A -> A -> A).
Lemma snd_forLoopW hi st (b : A -> St -> wr (St + R)) (b' : A -> St -> res (St + R)) : (forall x s, snd (b x s) = b' x s) ->
  forall fuel x s, snd (forLoopW le add fuel x hi st b s) = forLoop le add fuel x hi st b' s.
Proof.
  intros HB. induction fuel as [|f IH]; intros x s; cbn [forLoopW forLoop]; [reflexivity|]. destruct (le x hi); [|reflexivity].
  rewrite snd_wbind, HB. apply bind_ext. intros [s'|e] _; [apply IH|reflexivity].
Qed.
(** an invariant of the values done, of the output so far and of the state *)
Lemma forW_inv hi st (b : A -> St -> wr (St + R)) (I : list A -> list line -> St -> Prop) (Q : list line -> R -> Prop) full :
  (forall done x rest acc s r, full = done ++ x :: rest -> I done acc s -> snd (b x s) = Ok r ->
     match r with inl s' => I (done ++ [x]) (acc ++ fst (b x s)) s' | inr e => Q (acc ++ fst (b x s)) e end) ->
  forall fuel x l done acc s r, progression le add hi st x l -> full = done ++ l -> I done acc s -> snd (forLoopW le add fuel x hi st b s) = Ok r ->
  match r with inl s' => I full (acc ++ fst (forLoopW le add fuel x hi st b s)) s' | inr e => Q (acc ++ fst (forLoopW le add fuel x hi st b s)) e end.
Proof.
  intros HB. induction fuel as [|f IH]; intros x l done acc s r HP HF HI H; cbn [forLoopW] in *; [discriminate H|].
  inversion HP as [y Hy|y l' Hy HP']; subst y; rewrite Hy in *.
  - injection H as <-. cbn [lift fst]. rewrite app_nil_r. subst l. rewrite app_nil_r in HF. subst. auto.
  - apply wbind_Ok in H as (q & Hq & H & HO). rewrite HO. clear HO. subst l. pose proof (HB done x l' acc s q HF HI Hq) as HS. destruct q as [s'|e].
    + rewrite app_assoc. apply (IH _ l' (done ++ [x])); auto. rewrite <- app_assoc. auto.
    + injection H as <-. cbn [lift fst]. rewrite app_nil_r. auto.
Qed.
(** an invariant that does not depend on the values *)
Lemma forW_keep hi st (b : A -> St -> wr (St + R)) (I : list line -> St -> Prop) (Q : list line -> R -> Prop) :
  (forall x acc s r, I acc s -> snd (b x s) = Ok r -> match r with inl s' => I (acc ++ fst (b x s)) s' | inr e => Q (acc ++ fst (b x s)) e end) ->
  forall fuel x acc s r, I acc s -> snd (forLoopW le add fuel x hi st b s) = Ok r ->
  match r with inl s' => I (acc ++ fst (forLoopW le add fuel x hi st b s)) s' | inr e => Q (acc ++ fst (forLoopW le add fuel x hi st b s)) e end.
Proof.
  intros HB. induction fuel as [|f IH]; intros x acc s r HI H; cbn [forLoopW] in *; [discriminate H|]. destruct (le x hi).
  - apply wbind_Ok in H as (q & Hq & H & HO). rewrite HO. clear HO. pose proof (HB x acc s q HI Hq) as HS. destruct q as [s'|e].
    + rewrite app_assoc. apply IH; auto.
    + injection H as <-. cbn [lift fst]. rewrite app_nil_r. auto.
  - injection H as <-. cbn [lift fst]. rewrite app_nil_r. auto.
Qed.
Lemma forW_quiet hi st (b : A -> St -> wr (St + R)) : (forall x s, fst (b x s) = []) -> forall fuel x s, fst (forLoopW le add fuel x hi st b s) = [].
Proof.
  intros HB. induction fuel as [|f IH]; intros x s; cbn [forLoopW]; [reflexivity|]. destruct (le x hi); [|reflexivity].
  unfold wbind. destruct (snd (b x s)) as [[s'|e]| |]; cbn [fst lift]; rewrite ?HB, ?IH; reflexivity.
Qed.
End ForW.

(** headings of two nested loops *)
Section Heads.
Context {St R : Type}.
Lemma heads_app a b : heads (a ++ b) = heads a ++ heads b.
Proof. apply flat_map_app. Qed.
Lemma list_prod_app {A B} (l1 l2 : list A) (l : list B) : list_prod (l1 ++ l2) l = list_prod l1 l ++ list_prod l2 l.
Proof. induction l1 as [|a l1 IH]; simpl; auto. rewrite IH, app_assoc. auto. Qed.
(** [I] holds of output and state and is kept by the inner body, which prints no heading *)
Lemma two_loops (rr : range Z) (rc : range f64) (inner : Z -> f64 -> St -> wr (St + R)) (I : list line -> St -> Prop) (Q : list line -> R -> Prop) xr xc fuel acc s r :
  (forall x c acc s, I acc s -> I (acc ++ [LHead x c]) s) ->
  (forall x c acc s r, I acc s -> snd (inner x c s) = Ok r -> heads (fst (inner x c s)) = [] /\ match r with inl s' => I (acc ++ fst (inner x c s)) s' | inr e => Q (acc ++ fst (inner x c s)) e end) ->
  rangeZ rr xr -> rangeF rc xc -> I acc s -> heads acc = [] ->
  let m := forZW fuel rr (fun x => forFW fuel rc (fun c s => _ <~ say [LHead x c] ;; inner x c s)) s in
  snd m = Ok r ->
  match r with inl s' => I (acc ++ fst m) s' /\ heads (acc ++ fst m) = list_prod xr xc
  | inr e => Q (acc ++ fst m) e /\ exists rest, list_prod xr xc = heads (acc ++ fst m) ++ rest end.
Proof.
  intros HH HB HR HC HI H0. cbv zeta. intros H. unfold forZW in *.
  pose proof (forW_inv Z.leb Z.add (r_hi rr) (r_step rr) (fun x => forFW fuel rc (fun c s => _ <~ say [LHead x c] ;; inner x c s))
    (fun done acc s => I acc s /\ heads acc = list_prod done xc) (fun acc e => Q acc e /\ exists rest, list_prod xr xc = heads acc ++ rest) xr) as HW.
  assert (HS : forall done x rest acc s r, xr = done ++ x :: rest -> I acc s /\ heads acc = list_prod done xc -> snd (forFW fuel rc (fun c s => _ <~ say [LHead x c] ;; inner x c s) s) = Ok r ->
    match r with inl s' => I (acc ++ fst (forFW fuel rc (fun c s => _ <~ say [LHead x c] ;; inner x c s) s)) s' /\ heads (acc ++ fst (forFW fuel rc (fun c s => _ <~ say [LHead x c] ;; inner x c s) s)) = list_prod (done ++ [x]) xc
    | inr e => Q (acc ++ fst (forFW fuel rc (fun c s => _ <~ say [LHead x c] ;; inner x c s) s)) e /\ exists rest, list_prod xr xc = heads (acc ++ fst (forFW fuel rc (fun c s => _ <~ say [LHead x c] ;; inner x c s) s)) ++ rest end).
  { clear acc s r HI H0 H HW. intros done x rest acc s r Hx [HI HHd] H. unfold forFW in *.
    pose proof (forW_inv fleb fadd (r_hi rc) (r_step rc) (fun c s => _ <~ say [LHead x c] ;; inner x c s)
      (fun dc acc s => I acc s /\ heads acc = list_prod done xc ++ map (pair x) dc) (fun acc e => Q acc e /\ exists rest, list_prod xr xc = heads acc ++ rest) xc) as HW.
    assert (HP : list_prod (done ++ [x]) xc = list_prod done xc ++ map (pair x) xc) by (rewrite list_prod_app; simpl; rewrite app_nil_r; auto).
    rewrite HP. assert (HI0 : I acc s /\ heads acc = list_prod done xc ++ map (pair x) []) by (split; auto; simpl; rewrite app_nil_r; auto).
    refine (HW _ fuel _ xc [] acc s r HC eq_refl HI0 H).
    clear HW acc s r HI HHd H HI0. intros dc c rest' acc s r Hc [HI HHd] H. rewrite say_eq in *. cbn [fst snd] in *.
    specialize (HB x c (acc ++ [LHead x c]) s r (HH _ _ _ _ HI) H) as [B1 B2]. rewrite <- app_assoc in B2.
    assert (HHs : heads (acc ++ [LHead x c] ++ fst (inner x c s)) = list_prod done xc ++ map (pair x) (dc ++ [c])).
    { rewrite !heads_app, HHd, B1, map_app. simpl. rewrite <- app_assoc. auto. }
    destruct r as [s'|e]; (split; [exact B2|]); [exact HHs|]. rewrite HHs.
    exists (map (pair x) rest' ++ list_prod rest xc). rewrite Hx, list_prod_app. change (list_prod (x :: rest) xc) with (map (pair x) xc ++ list_prod rest xc).
    rewrite (f_equal (map (pair x)) Hc), !map_app. simpl. rewrite <- !app_assoc. reflexivity. }
  apply (HW HS fuel _ xr [] acc s r); auto.
Qed.
End Heads.
Lemma two_quiet {St R} fuel (rr : range Z) (rc : range f64) (inner : Z -> f64 -> St -> wr (St + R)) s : (forall x c s, fst (inner x c s) = []) ->
  fst (forZW fuel rr (fun x => forFW fuel rc (fun c s => _ <~ say [] ;; inner x c s)) s) = [].
Proof. intros H. apply forW_quiet. intros x s1. apply forW_quiet. intros c s2. rewrite say_eq. cbn [fst app]. auto. Qed.

(** ** Grid *)
Definition tellsOptions (r : cvRet) : Prop := match cv_sent r with SErr false :: SAcc _ :: SOpt None :: _ => False | _ => True end.
Lemma snd_rescueV verbose rets : forall b f, Forall tellsOptions rets -> snd (rescueV verbose (map cv_sent rets) b f) = rescueConcValues (map cv_sent rets) b f.
Proof.
  induction rets as [|r rets IH]; intros b f HF; cbn [map rescueV rescueConcValues]; [reflexivity|]. inversion HF as [|x y Hr HF']; subst. unfold tellsOptions in Hr.
  destruct (cv_sent r) as [|[[|]|a|op] [|[e|a'|op'] [|[e2|a2|[op2|]] more]]]; try reflexivity; destruct (fltb a' fzero); try reflexivity; try contradiction.
  destruct (fltb b a'); [|apply IH; auto]. destruct verbose; rewrite say_eq; cbn [snd]; apply IH; auto.
Qed.
Lemma rescueV_Ok verbose sent : forall b f q, snd (rescueV verbose sent b f) = Ok q -> rescueConcValues sent b f = Ok q.
Proof.
  induction sent as [|s sent IH]; intros b f q H; cbn [rescueV rescueConcValues] in *; [exact H|].
  destruct s as [|[[|]|a|op] [|[e|a'|op'] more]]; try exact H. destruct (fltb a' fzero); [exact H|]. destruct more as [|[e2|a2|op2] more]; try exact H.
  destruct (fltb b a'); [|apply IH; auto]. apply wbind_Ok in H as (u & _ & H & _). apply IH; auto.
Qed.

Lemma snd_gridBodyV verbose N eval t s : (forall k t r, eval k t = Ok r -> tellsOptions r) -> snd (gridBodyV verbose N eval t s) = gridBody N eval t s.
Proof.
  intros HT. unfold gridBodyV, gridBody. destruct (N <=? _); [reflexivity|]. destruct (_ =? N); [|reflexivity]. rewrite snd_wbind. cbn [lift snd]. apply bind_ext. intros rets Hm.
  rewrite snd_wbind, snd_rescueV.
  - apply bind_ext. intros [[b f]|u] _; reflexivity.
  - apply Forall_forall. intros r Hr. apply In_nth_error in Hr as (i & Hi). apply mapM_nthE in Hm as [_ Hm]. apply Hm in Hi as (p & _ & Hp). eauto.
Qed.
Lemma snd_GridWithV fuel id eval o : (forall k t r, eval k t = Ok r -> tellsOptions r) -> snd (GridWithV fuel id eval o) = GridWith fuel id eval o.
Proof.
  intros HT. unfold GridWithV, GridWith. destruct (g_ncpus o <? 0); [reflexivity|]. rewrite snd_wbind. unfold forZW, forFW, forZ, forF.
  erewrite snd_forLoopW; [apply bind_ext; intros [s|e] _; reflexivity|]. intros rounds s1.
  erewrite snd_forLoopW; [reflexivity|]. intros cw s2. rewrite say_eq. cbn [snd].
  erewrite snd_forLoopW; [reflexivity|]. intros md s3. erewrite snd_forLoopW; [reflexivity|]. intros css s4.
  erewrite snd_forLoopW; [reflexivity|]. intros lr s5. erewrite snd_forLoopW; [reflexivity|]. intros lam s6.
  erewrite snd_forLoopW; [reflexivity|]. intros gam s7. erewrite snd_forLoopW; [reflexivity|]. intros ss s8.
  apply snd_gridBodyV. exact HT.
Qed.
Lemma cvLoop_some {K} E rndf id : forall n (s : sampler K) O i a q, cvLoop E rndf id s (Some O) i n a = Ok q -> snd q <> None.
Proof.
  induction n as [|n IH]; intros s O i a q H; cbn [cvLoop] in H; [injection H as <-; discriminate|].
  apply bind_Ok in H as ([[[tr te]|] s'] & _ & H); [|discriminate]. apply bind_Ok in H as (t & _ & H). apply bind_Ok in H as (r & _ & H).
  destruct (r <=? 0); [eauto|]. apply bind_Ok in H as (x & _ & H). eauto.
Qed.
Lemma MCCV_tells {K} E fuel ints rndf id (D : DataBunch K) nfold t r : MultiClassCrossValidation E fuel ints rndf id D nfold (Some t) true = Ok r -> tellsOptions r.
Proof.
  intros H. unfold MultiClassCrossValidation in H. apply bind_Ok in H as ([[n so] err] & _ & H). destruct (err && _).
  - injection H as <-. exact I.
  - destruct so as [s|]; [|discriminate]. apply bind_Ok in H as ([accus O'] & HL & H). injection H as <-. apply cvLoop_some in HL. unfold tellsOptions. cbn [cv_sent snd] in *. destruct O'; auto.
Qed.

Lemma gridBests_app a b : gridBests (a ++ b) = gridBests a ++ gridBests b.
Proof. apply flat_map_app. Qed.
Lemma records_app l1 : forall b f l2, records b (l1 ++ l2) = records b l1 ++ records (fst (collect b f l1)) l2.
Proof.
  induction l1 as [|[a op] l1 IH]; intros b f l2; cbn [app records collect fst]; auto. destruct (fltb b a).
  - rewrite (IH a op). reflexivity.
  - apply IH.
Qed.
Lemma rescueV_bests rets : forall b f bf, Forall sentShape rets -> snd (rescueV true (map cv_sent rets) b f) = Ok (inl bf) ->
  exists outs, Forall2 (fun r out => outcomeIs r (Some out)) rets outs /\ bf = collect b f outs /\ gridBests (fst (rescueV true (map cv_sent rets) b f)) = records b outs.
Proof.
  induction rets as [|r rets IH]; intros b f bf HS H; cbn [map rescueV] in *.
  - injection H as <-. exists []. split; [constructor|auto].
  - inversion HS as [|x y Hr HS']; subst. unfold sentShape in Hr. rewrite Hr in *. destruct (cv_err r) eqn:Ee; [discriminate H|].
    destruct (fltb (cv_acc r) fzero) eqn:En; [discriminate H|].
    assert (HO : outcomeIs r (Some (cv_acc r, cv_opts r))) by (simpl; auto).
    destruct (fltb b (cv_acc r)) eqn:Eb.
    + destruct (cv_opts r) as [op|] eqn:Eo; [|discriminate H]. rewrite say_eq in *. cbn [fst snd] in *. destruct (IH _ _ _ HS' H) as (outs & H1 & H2 & H3).
      exists ((cv_acc r, Some op) :: outs). split; [constructor; auto|]. cbn [collect records]. rewrite Eb. split; [auto|]. rewrite gridBests_app, H3. reflexivity.
    + destruct (IH _ _ _ HS' H) as (outs & H1 & H2 & H3). exists ((cv_acc r, cv_opts r) :: outs). split; [constructor; auto|]. cbn [collect records]. rewrite Eb. auto.
Qed.
Lemma rescueV_noheads verbose sent : forall b f, heads (fst (rescueV verbose sent b f)) = [].
Proof.
  induction sent as [|s sent IH]; intros b f; cbn [rescueV]; [reflexivity|].
  destruct s as [|[[|]|a|op] [|[e|a'|op'] more]]; try reflexivity. destruct (fltb a' fzero); [reflexivity|]. destruct more as [|[e2|a2|op2] more]; try reflexivity.
  destruct (fltb b a'); [|apply IH]. destruct verbose; [destruct op2; [|reflexivity]|]; rewrite say_eq; cbn [fst]; rewrite heads_app, IH; reflexivity.
Qed.
Lemma rescueV_quiet sent : forall b f, fst (rescueV false sent b f) = [].
Proof.
  induction sent as [|s sent IH]; intros b f; cbn [rescueV]; [reflexivity|].
  destruct s as [|[[|]|a|op] [|[e|a'|op'] more]]; try reflexivity. destruct (fltb a' fzero); [reflexivity|]. destruct more as [|[e2|a2|op2] more]; try reflexivity.
  destruct (fltb b a'); [|apply IH]. rewrite say_eq. cbn [fst app]. apply IH.
Qed.
Lemma gridBodyV_quiet N eval t s : fst (gridBodyV false N eval t s) = [].
Proof.
  unfold gridBodyV. destruct (N <=? _); [reflexivity|]. destruct (_ =? N); [|reflexivity]. apply quiet_lift. intros rets. unfold wbind.
  pose proof (rescueV_quiet (map cv_sent rets) (gs_best s) (gs_final s)) as HQ. destruct (snd _) as [[[b f]|u]| |]; cbn [fst lift]; rewrite HQ; reflexivity.
Qed.
Lemma gridBodyV_noheads v N eval t s : heads (fst (gridBodyV v N eval t s)) = [].
Proof.
  unfold gridBodyV. destruct (N <=? _); [reflexivity|]. destruct (_ =? N); [|reflexivity]. unfold wbind at 1. cbn [lift fst snd]. destruct (mapM _ _) as [rets| |]; try reflexivity.
  cbn [app fst]. unfold wbind. pose proof (rescueV_noheads v (map cv_sent rets) (gs_best s) (gs_final s)) as HQ.
  destruct (snd _) as [[[b f]|u]| |]; cbn [fst lift]; rewrite ?app_nil_r; exact HQ.
Qed.

(** what the records of a list of outcomes are *)
Lemma records_last outs : forall b f, (records b outs = [] /\ collect b f outs = (b, f)) \/ exists pre, records b outs = pre ++ [collect b f outs].
Proof.
  induction outs as [|[a op] outs IH]; intros b f; cbn [records collect]; [left; auto|]. destruct (fltb b a); [|apply IH].
  right. destruct (IH a op) as [[-> ->]|(pre & ->)]; [exists []; auto|exists ((a, op) :: pre); auto].
Qed.

Section GridV.
Context (id : Z) (eval : nat -> Options -> res cvRet) (o : GridOptions).
Let N := g_ncpus o.
Definition ginvV (acc : list line) (s : gstate) : Prop := exists q outs done,
  gs_spawned s = done ++ map snd (gs_pending s) /\ map fst (gs_pending s) = seq (length done) (length (gs_pending s)) /\
  Z.of_nat (length done) = N * Z.of_nat q /\ Z.of_nat (length (gs_pending s)) < N /\ length outs = length done /\
  (forall k out, nth_error outs k = Some out -> outcomeAt eval (gs_spawned s) k (Some out)) /\
  (gs_best s, gs_final s) = collect fzero None outs /\ gridBests acc = records fzero outs.
Lemma bodyV_inv : evalShape eval -> forall t acc s r, ginvV acc s -> snd (gridBodyV true N eval t s) = Ok r ->
  match r with inl s' => ginvV (acc ++ fst (gridBodyV true N eval t s)) s' | inr e => gr_err e = true end.
Proof.
  intros HE t acc s r (q & outs & done & I1 & I2 & I3 & I4 & I5 & I6 & I7 & I8) H. unfold gridBodyV in *.
  destruct (Z.leb_spec N (Z.of_nat (length (gs_pending s)))) as [|_]; [discriminate H|].
  set (pending := gs_pending s ++ [(length (gs_spawned s), t)]) in *. set (spawned := gs_spawned s ++ [t]) in *.
  assert (P1 : spawned = done ++ map snd pending) by (unfold spawned, pending; rewrite I1, map_app, app_assoc; auto).
  assert (P2 : map fst pending = seq (length done) (length pending)).
  { unfold pending. rewrite map_app, I2, app_length. simpl length. rewrite seq_app. simpl. rewrite I1, app_length, map_length. auto. }
  assert (P3 : length pending = S (length (gs_pending s))) by (unfold pending; rewrite app_length; simpl; lia).
  assert (P4 : forall i p, nth_error pending i = Some p -> fst p = (length done + i)%nat /\ nth_error spawned (length done + i) = Some (snd p)).
  { intros i p Hp. split.
    - assert (HX : nth_error (map fst pending) i = Some (fst p)) by (rewrite nth_error_map, Hp; auto). rewrite P2 in HX.
      assert (i < length pending)%nat by (apply nth_error_Some; congruence).
      rewrite (nth_error_nth' _ 0%nat) in HX by (rewrite seq_length; auto). rewrite seq_nth in HX by auto. congruence.
    - rewrite P1, nth_error_app2 by lia. replace (length done + i - length done)%nat with i by lia. rewrite nth_error_map, Hp. auto. }
  destruct (Z.eqb_spec (Z.of_nat (length (gs_pending s)) + 1) N) as [HN|HN].
  - apply lift_Ok in H as (rets & Hm & H & HF). rewrite HF. clear HF. apply wbind_Ok in H as (rr & Hr & H & HF). rewrite HF. clear HF. apply mapM_nthE in Hm as [M1 M2].
    destruct rr as [[b f]|u]; injection H as <-; [|reflexivity]. cbn [lift fst]. rewrite app_nil_r.
    destruct (rescueV_bests rets (gs_best s) (gs_final s) (b, f)) as (outs2 & F & Hc & Hb); auto.
    { apply Forall_forall. intros r9 Hr'. apply In_nth_error in Hr' as (i & Hi). apply M2 in Hi as (p & _ & He). eapply HE; eauto. }
    exists (S q), (outs ++ outs2), spawned. cbn [gs_spawned gs_pending gs_best gs_final map length]. rewrite app_nil_r.
    assert (HL2 : length outs2 = length pending) by (rewrite <- M1; symmetry; clear -F; induction F; simpl; auto).
    assert (HLs : length spawned = (length done + length pending)%nat) by (rewrite P1, app_length, map_length; auto).
    split; [auto|]. split; [auto|]. split; [lia|]. split; [lia|]. split; [rewrite app_length; lia|]. split; [|split].
    + intros k out Hk. destruct (Nat.lt_ge_cases k (length outs)) as [Hlt|Hge].
      * rewrite nth_error_app1 in Hk by auto. unfold spawned. apply outAt_app. auto.
      * rewrite nth_error_app2 in Hk by auto. destruct (F2_nth _ _ _ F _ _ Hk) as (r & Hr' & HO). apply M2 in Hr' as (p & Hp & He).
        apply P4 in Hp as [Hp1 Hp2]. exists (snd p), r. rewrite Hp1 in He. replace k with (length done + (k - length outs))%nat by lia. auto.
    + rewrite collect_app, <- I7. cbn [fst snd]. auto.
    + rewrite gridBests_app, I8, Hb, (records_app outs fzero None), <- I7. reflexivity.
  - injection H as <-. cbn [lift fst]. rewrite app_nil_r. exists q, outs, done. cbn [gs_spawned gs_pending gs_best gs_final]. repeat (split; [auto; fail|]). split; [lia|]. split; [auto|]. split; [|auto].
    intros k out Hk. apply outAt_app. auto.
Qed.

(** the six inner loops *)
Definition inner (fuel : nat) (v : bool) (rounds : Z) (cw : f64) (s : gstate) : wr (gstate + gridRet) :=
  forZW fuel (g_maxdepth o) (fun md => forFW fuel (g_css o) (fun css => forFW fuel (g_lr o) (fun lr => forFW fuel (g_lambda o) (fun lam =>
  forFW fuel (g_gamma o) (fun gam => forFW fuel (g_ss o) (fun ss => gridBodyV v N eval (gridPoint id o rounds cw md css lr lam gam ss)))))) ) s.
Lemma inner_keep (I : list line -> gstate -> Prop) (Q : list line -> gridRet -> Prop) v :
  (forall t acc s r, I acc s -> snd (gridBodyV v N eval t s) = Ok r -> match r with inl s' => I (acc ++ fst (gridBodyV v N eval t s)) s' | inr e => Q (acc ++ fst (gridBodyV v N eval t s)) e end) ->
  forall fuel rounds cw acc s r, I acc s -> snd (inner fuel v rounds cw s) = Ok r -> match r with inl s' => I (acc ++ fst (inner fuel v rounds cw s)) s' | inr e => Q (acc ++ fst (inner fuel v rounds cw s)) e end.
Proof.
  intros HB fuel rounds cw acc s r HI H. unfold inner, forZW, forFW in *. revert acc s r HI H.
  intros acc s r; apply forW_keep; intros md acc1 s1 r1; apply forW_keep; intros css acc2 s2 r2; apply forW_keep; intros lr acc3 s3 r3;
  apply forW_keep; intros lam acc4 s4 r4; apply forW_keep; intros gam acc5 s5 r5; apply forW_keep; intros ss acc6 s6 r6. apply HB.
Qed.
Lemma inner_quiet fuel rounds cw s : fst (inner fuel false rounds cw s) = [].
Proof. unfold inner. do 6 (apply forW_quiet; intros ? ?). apply gridBodyV_quiet. Qed.

Lemma GridWithV_result fuel a r : evalShape eval -> 1 <= N -> axesOf o a -> g_verbose o = true -> snd (GridWithV fuel id eval o) = Ok r ->
  let out := fst (GridWithV fuel id eval o) in let n := length (gr_spawned r) in
  (exists rest, list_prod (x_rounds a) (x_mcw a) = heads out ++ rest /\ (gr_err r = false -> rest = [])) /\
  (gr_err r = false -> exists outs, length outs = (Z.to_nat N * (n / Z.to_nat N))%nat /\
    (forall k out, nth_error outs k = Some out -> outcomeAt eval (gr_spawned r) k (Some out)) /\ firstBest outs (gr_acc r) (gr_opts r) /\
    gridBests out = records fzero outs /\
    match rev (gridBests out) with [] => gr_acc r = fzero /\ gr_opts r = None | last :: _ => last = (gr_acc r, gr_opts r) end).
Proof.
  intros HE HN HA HV H. cbv zeta. unfold GridWithV in *. destruct (g_ncpus o <? 0); [discriminate H|].
  apply wbind_Ok in H as (q & Hq & H & HF). rewrite HF. clear HF. rewrite HV in *. fold N in Hq.
  assert (H0 : ginvV [] gs0).
  { exists 0%nat, [], []. simpl. repeat (split; [auto; fail|]). split; [lia|]. split; [lia|]. split; [auto|]. split; [|split; auto]. intros [|k] out Hk; discriminate Hk. }
  pose proof (two_loops (g_rounds o) (g_mcw o) (inner fuel true) ginvV (fun _ e => gr_err e = true) (x_rounds a) (x_mcw a) fuel [] gs0 q) as HT.
  cbv zeta in HT.
  destruct HA as (A1 & A2 & _). cbn [app] in HT.
  match type of HT with ?P2 -> ?P3 -> _ => assert (X2 : P2); [|assert (X3 : P3)] end.
  { intros x c acc s (q0 & outs & done & J). exists q0, outs, done. rewrite gridBests_app. simpl. rewrite app_nil_r. exact J. }
  { intros x c acc s r0 HI Hr. pose proof (inner_keep (fun acc0 s0 => heads acc0 = heads acc /\ ginvV acc0 s0) (fun acc0 e => heads acc0 = heads acc /\ gr_err e = true) true) as HK.
    assert (HKB : forall t acc0 s0 r1, heads acc0 = heads acc /\ ginvV acc0 s0 -> snd (gridBodyV true N eval t s0) = Ok r1 ->
       match r1 with inl s' => heads (acc0 ++ fst (gridBodyV true N eval t s0)) = heads acc /\ ginvV (acc0 ++ fst (gridBodyV true N eval t s0)) s' | inr e => heads (acc0 ++ fst (gridBodyV true N eval t s0)) = heads acc /\ gr_err e = true end).
    { intros t acc0 s0 r1 [Hh Hi] Hs. pose proof (bodyV_inv HE t acc0 s0 r1 Hi Hs) as HX. destruct r1; (split; [rewrite heads_app, gridBodyV_noheads, app_nil_r; auto|auto]). }
    specialize (HK HKB fuel x c acc s r0 (conj eq_refl HI) Hr).
    assert (HHd : heads (acc ++ fst (inner fuel true x c s)) = heads acc) by (destruct r0; apply HK).
    split; [rewrite heads_app in HHd; rewrite <- (app_nil_r (heads acc)) in HHd at 2; apply app_inv_head in HHd; auto|destruct r0; apply HK]. }
  specialize (HT X2 X3 A1 A2 H0 eq_refl Hq).
  destruct q as [s|e]; injection H as <-; cbn [lift fst gr_err gr_spawned gr_acc gr_opts]; rewrite app_nil_r.
  - destruct HT as [(q & outs & done & I1 & I2 & I3 & I4 & I5 & I6 & I7 & I8) HT2]. split; [exists []; rewrite app_nil_r; split; [symmetry; exact HT2|auto]|]. intros _.
    exists outs. split; [|split; [auto|]].
    + rewrite I1, app_length, map_length, I5. set (d := length done) in *. set (p := length (gs_pending s)) in *.
      assert (HQ : d = (Z.to_nat N * q)%nat) by nia. rewrite HQ. f_equal. symmetry. rewrite (Nat.mul_comm (Z.to_nat N)), Nat.div_add_l by lia. rewrite (Nat.div_small p) by lia. lia.
    + pose proof (collect_spec o outs) as HC. rewrite <- I7 in HC. split; [exact HC|]. split; [exact I8|].
      destruct (records_last outs fzero None) as [[R1 R2]|(pre & R1)].
      * rewrite R2 in I7. pose proof (f_equal fst I7) as E1. pose proof (f_equal snd I7) as E2. cbn [fst snd] in E1, E2.
        match goal with |- match rev ?l with _ => _ end => assert (HL : l = []) by (etransitivity; [exact I8|exact R1]); rewrite HL end. cbn [rev gr_acc gr_opts]. split; [exact E1|exact E2].
      * rewrite <- I7 in R1. match goal with |- match rev ?l with _ => _ end => assert (HL : l = pre ++ [(gs_best s, gs_final s)]) by (etransitivity; [exact I8|exact R1]); rewrite HL end.
        rewrite rev_app_distr. reflexivity.
  - destruct HT as [HT1 (rest & HT2)]. split; [exists rest; split; [exact HT2|congruence]|congruence].
Qed.
Lemma GridWithV_quiet fuel : g_verbose o = false -> fst (GridWithV fuel id eval o) = [].
Proof.
  intros HV. unfold GridWithV. destruct (g_ncpus o <? 0); [reflexivity|]. rewrite HV. unfold wbind at 1.
  match goal with |- fst (match snd ?m with _ => _ end) = [] => assert (HQ : fst m = []) by (apply (two_quiet fuel (g_rounds o) (g_mcw o) (inner fuel false)); apply inner_quiet) end.
  destruct (snd _) as [[s|e]| |]; cbn [fst lift]; rewrite HQ; reflexivity.
Qed.
End GridV.

