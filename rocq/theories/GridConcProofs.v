(** Every interleaving of the grid search gives the sequential result (C57, C86). *)
From Verif Require Import Base F64 F64Lemmas Env Utils Tree Options Train Spec CV SpecCV Grid SpecGrid GridProofs GridConc.
Open Scope Z_scope.

Lemma cons_split {A} (fin : list A) : forall pw act l1 w l2, l1 ++ w :: l2 = fin ++ pw :: act ->
  (exists x, fin = l1 ++ w :: x) \/ (l1 = fin /\ w = pw /\ l2 = act) \/ (exists y, act = y ++ w :: l2 /\ l1 = fin ++ pw :: y).
Proof.
  induction fin as [|a fin IH]; intros pw act [|b l1] w l2 H; simpl in H; injection H as E H.
  - subst. right. left. auto.
  - subst. right. right. exists l1. auto.
  - left. exists fin. simpl. congruence.
  - subst b. apply IH in H as [(x & ->)|[(-> & -> & ->)|(y & -> & ->)]].
    + left. exists x. auto.
    + right. left. auto.
    + right. right. exists y. auto.
Qed.
Lemma app_split {A} (fin : list A) : forall act l1 w l2, l1 ++ w :: l2 = fin ++ act ->
  (exists x, fin = l1 ++ w :: x) \/ (exists y, act = y ++ w :: l2 /\ l1 = fin ++ y).
Proof.
  induction fin as [|a fin IH]; intros act l1 w l2 H; simpl in H.
  - right. exists l1. auto.
  - destruct l1 as [|b l1]; simpl in H; injection H as E H.
    + left. exists fin. simpl. congruence.
    + subst b. apply IH in H as [(x & ->)|(y & -> & ->)]; [left; exists x; auto|right; exists y; auto].
Qed.

Section Proofs.
Context (N : nat) (eval : nat -> Options -> res cvRet) (pts : list Options).
Hypothesis HN : (1 <= N)%nat.
Hypothesis HE : evalShape eval.
Hypothesis HT : forall k t, nth_error pts k = Some t -> exists r, eval k t = Ok r.

Definition finished (w : worker) : Prop := w_prog w = WSend [].
Definition fresh (w : worker) (j : nat) (p : nat * Options) : Prop :=
  w_chan w = j /\ (w_prog w = WJob (fst p) (snd p) \/ exists r, eval (fst p) (snd p) = Ok r /\ w_prog w = WSend (cv_sent r)).
Fixpoint acts (j : nat) (ps : list (nat * Options)) (ws : list worker) {struct ps} : Prop :=
  match ps, ws with
  | [], [] => True
  | p :: ps', w :: ws' => fresh w j p /\ acts (S j) ps' ws'
  | _, _ => False
  end.
Lemma acts_length ps : forall j ws, acts j ps ws -> length ws = length ps.
Proof. induction ps as [|p ps IH]; intros j [|w ws] H; simpl in *; try tauto. destruct H as [_ H]. rewrite (IH _ _ H). auto. Qed.
Lemma acts_snoc ps : forall j ws p w, acts j ps ws -> fresh w (j + length ps) p -> acts j (ps ++ [p]) (ws ++ [w]).
Proof.
  induction ps as [|q ps IH]; intros j [|v ws] p w H HF; simpl in *; try tauto.
  - rewrite Nat.add_0_r in HF. auto.
  - destruct H as [H1 H2]. split; auto. apply IH; auto. replace (S j + length ps)%nat with (j + S (length ps))%nat by lia. auto.
Qed.
Lemma acts_chan ps : forall j ws w, acts j ps ws -> In w ws -> (j <= w_chan w)%nat.
Proof.
  induction ps as [|q ps IH]; intros j [|v ws] w H HI; simpl in *; try tauto. destruct H as [[H1 _] H2]. destruct HI as [<-|HI]; [lia|].
  apply (IH (S j)) in HI; auto. lia.
Qed.
Lemma acts_work ps : forall j l1 c k t r l2, acts j ps (l1 ++ MkW c (WJob k t) :: l2) -> eval k t = Ok r ->
  acts j ps (l1 ++ MkW c (WSend (cv_sent r)) :: l2).
Proof.
  induction ps as [|q ps IH]; intros j [|v l1] c k t r l2 H Hr; simpl in *; try tauto.
  - destruct H as [[H1 H2] H3]. split; auto. split; auto. simpl in *. right. destruct H2 as [H2|(r' & _ & H2)]; [|discriminate H2].
    injection H2 as -> ->. eauto.
  - destruct H as [H1 H2]. split; auto. eapply IH; eauto.
Qed.
Lemma acts_unfinished ps : forall j ws w, acts j ps ws -> In w ws -> w_prog w <> WSend [].
Proof.
  induction ps as [|q ps IH]; intros j [|v ws] w H HI; simpl in *; try tauto. destruct H as [[H1 H2] H3]. destruct HI as [<-|HI]; [|eauto].
  destruct H2 as [->|(r & Hr & ->)]; [discriminate|]. apply HE in Hr. unfold sentShape in Hr. rewrite Hr. destruct (cv_err r); discriminate.
Qed.
Lemma fin_work fin l1 c k t l2 : Forall finished fin -> fin <> l1 ++ MkW c (WJob k t) :: l2.
Proof. intros HF ->. apply Forall_app in HF as [_ HF]. inversion HF as [|x y Hx]. discriminate Hx. Qed.
Lemma fin_send fin l1 c s l l2 : Forall finished fin -> fin <> l1 ++ MkW c (WSend (s :: l)) :: l2.
Proof. intros HF ->. apply Forall_app in HF as [_ HF]. inversion HF as [|x y Hx]. discriminate Hx. Qed.

Definition seqRun (l : list Options) : res (gstate + gridRet) := foldE (gridBody (Z.of_nat N) eval) l gs0.

(** the state of the worker on channel [i] during its collection; [r] is what its cross-validation returned *)
Definition midway (i : nat) (st : stage) (p : nat * Options) (r : cvRet) (w : worker) : Prop :=
  match st with
  | StErr => fresh w i p
  | StAcc => cv_err r = false /\ w = MkW i (WSend [SAcc (cv_acc r); SOpt (cv_opts r)])
  | StOpt a => cv_err r = false /\ a = cv_acc r /\ fltb a fzero = false /\ w = MkW i (WSend [SOpt (cv_opts r)])
  end.
Definition cinv (s : cstate) : Prop :=
  match c_main s with
  | MRun todo cpus k b f => exists dn g fin act, pts = dn ++ todo /\ seqRun dn = Ok (inl g) /\ gs_best g = b /\ gs_final g = f /\
      cpus = length (gs_pending g) /\ (cpus < N)%nat /\ k = length (gs_spawned g) /\ c_workers s = fin ++ act /\ Forall finished fin /\ acts 0 (gs_pending g) act
  | MCollect i st todo k b f => exists dn t g fin w act r rest p ps, pts = dn ++ t :: todo /\ seqRun dn = Ok (inl g) /\ length (gs_pending g) = (N - 1)%nat /\
      k = S (length (gs_spawned g)) /\ (i + S (length ps) = N)%nat /\
      (exists before, gs_pending g ++ [(length (gs_spawned g), t)] = before ++ p :: ps /\
        exists rbefore, mapM (fun p => eval (fst p) (snd p)) (gs_pending g ++ [(length (gs_spawned g), t)]) = Ok (rbefore ++ r :: rest) /\ length rbefore = length before /\
        rescueConcValues (map cv_sent (rbefore ++ r :: rest)) (gs_best g) (gs_final g) = rescueConcValues (map cv_sent (r :: rest)) b f) /\
      eval (fst p) (snd p) = Ok r /\
      c_workers s = fin ++ w :: act /\ Forall finished fin /\ midway i st p r w /\ acts (S i) ps act
  | MDone acc opts err => exists dn todo q, pts = dn ++ todo /\ seqRun dn = Ok q /\ (acc, opts, err) = (gr_acc (finish q), gr_opts (finish q), gr_err (finish q)) /\
      match q with
      | inl g => todo = [] /\ exists fin act, c_workers s = fin ++ act /\ Forall finished fin /\ acts 0 (gs_pending g) act /\ (length (gs_pending g) < N)%nat
      | inr _ => unfinished (c_workers s) <> []
      end
  end.

Lemma seqRun_snoc dn t g : seqRun dn = Ok (inl g) -> seqRun (dn ++ [t]) = gridBody (Z.of_nat N) eval t g.
Proof.
  unfold seqRun. intros H. rewrite foldE_app, H. cbn [bind foldE]. destruct (gridBody _ _ _ _) as [[s|e]| |]; reflexivity.
Qed.
Definition o0 : GridOptions := MkGO false 0 (MkRange 0 0 0) (MkRange 0 0 0) (MkRange fzero fzero fzero) (MkRange fzero fzero fzero) (MkRange fzero fzero fzero) (MkRange fzero fzero fzero) (MkRange fzero fzero fzero) (MkRange fzero fzero fzero) fzero fzero false 0 false (Z.of_nat N) false.
Lemma seqRun_spawned dn g : seqRun dn = Ok (inl g) -> gs_spawned g = dn.
Proof. intros H. apply (fold_spawned eval o0) in H. exact H. Qed.

Lemma seqRun_ginv dn g : seqRun dn = Ok (inl g) -> ginv eval o0 g.
Proof.
  intros H. pose proof (foldE_inv _ (ginv eval o0) (gerr eval o0) (body_inv eval o0 HE) dn gs0 (inl g)) as HX. apply HX; auto.
  exists 0%nat, [], []. simpl. repeat (split; [auto; fail|]). split; [lia|]. split; [lia|]. split; [auto|]. split; [|auto]. intros [|k] out Hk; discriminate Hk.
Qed.
Lemma pending_points dn g p : seqRun dn = Ok (inl g) -> In p (gs_pending g) -> nth_error dn (fst p) = Some (snd p).
Proof.
  intros H HI. pose proof (seqRun_spawned dn g H) as <-. apply seqRun_ginv in H as (q & outs & done & I1 & I2 & _).
  apply In_nth_error in HI as (i & Hi). assert (HL : (i < length (gs_pending g))%nat) by (apply nth_error_Some; congruence).
  assert (HX : nth_error (map fst (gs_pending g)) i = Some (fst p)) by (rewrite nth_error_map, Hi; auto). rewrite I2 in HX.
  rewrite (nth_error_nth' _ 0%nat) in HX by (rewrite seq_length; auto). rewrite seq_nth in HX by auto. injection HX as <-.
  rewrite I1, nth_error_app2 by lia. replace (length done + i - length done)%nat with i by lia. rewrite nth_error_map, Hi. auto.
Qed.
Lemma body_wait t g : (S (length (gs_pending g)) < N)%nat ->
  gridBody (Z.of_nat N) eval t g = Ok (inl (MkGS (gs_pending g ++ [(length (gs_spawned g), t)]) (gs_best g) (gs_final g) (gs_spawned g ++ [t]))).
Proof.
  intros H. unfold gridBody. destruct (Z.leb_spec (Z.of_nat N) (Z.of_nat (length (gs_pending g)))); [lia|].
  destruct (Z.eqb_spec (Z.of_nat (length (gs_pending g)) + 1) (Z.of_nat N)); [lia|auto].
Qed.
Lemma body_full t g rets : S (length (gs_pending g)) = N -> mapM (fun p => eval (fst p) (snd p)) (gs_pending g ++ [(length (gs_spawned g), t)]) = Ok rets ->
  gridBody (Z.of_nat N) eval t g = (r <- rescueConcValues (map cv_sent rets) (gs_best g) (gs_final g) ;;
      match r with
      | inl (b, f) => Ok (inl (MkGS [] b f (gs_spawned g ++ [t])))
      | inr _ => Ok (inr (MkGR (fofZ (-1)) [] None true (gs_spawned g ++ [t])))
      end).
Proof.
  intros H HM. unfold gridBody. destruct (Z.leb_spec (Z.of_nat N) (Z.of_nat (length (gs_pending g)))); [lia|].
  destruct (Z.eqb_spec (Z.of_nat (length (gs_pending g)) + 1) (Z.of_nat N)); [|lia]. rewrite HM. reflexivity.
Qed.
Lemma mapM_total l : (forall p, In p l -> nth_error pts (fst p) = Some (snd p)) -> exists rets, mapM (fun p => eval (fst p) (snd p)) l = Ok rets /\ length rets = length l.
Proof.
  induction l as [|p l IH]; intros HI; simpl; [eauto|]. destruct IH as (rets & IH & IL); [intros; apply HI; right; auto|].
  destruct (HT (fst p) (snd p)) as (r & Hr); [apply HI; left; auto|]. rewrite Hr, IH. simpl. eexists. split; [reflexivity|]. simpl; lia.
Qed.

Lemma unf_in ws w : In w ws -> w_prog w <> WSend [] -> unfinished ws <> [].
Proof.
  intros HI Hw HU. assert (HX : In w (unfinished ws)).
  { apply filter_In. split; auto. destruct (w_prog w) as [|[|]]; congruence. }
  rewrite HU in HX. destruct HX.
Qed.

Lemma fresh_send w i p r s more : fresh w i p -> eval (fst p) (snd p) = Ok r -> w_prog w = WSend (s :: more) -> s :: more = cv_sent r.
Proof. intros [_ [H|(r' & Hr & H)]] Hp Hw; rewrite Hw in H; [discriminate H|]. congruence. Qed.

(** the worker that answers on channel [i] is the one being collected *)
Lemma who fin w act l1 i s more l2 ps j : Forall finished fin -> acts (S i) ps act -> l1 ++ MkW i (WSend (s :: more)) :: l2 = fin ++ w :: act -> j = i ->
  l1 = fin /\ w = MkW i (WSend (s :: more)) /\ l2 = act.
Proof.
  intros HF HA H _. apply cons_split in H as [(x & H)|[(-> & <- & ->)|(y & H & ->)]]; auto.
  - exfalso. eapply fin_send; eauto.
  - exfalso. subst act. apply (acts_chan ps (S i) _ (MkW i (WSend (s :: more)))) in HA; [simpl in HA; lia|]. apply in_app_iff. right. left. auto.
Qed.

Lemma cinv_step s s' : cinv s -> cstep N eval s s' -> cinv s'.
Proof.
  intros HI HS. destruct HS as [t todo cpus k b f ws Hc|cpus k b f ws|m l1 c k t r l2 Hr|i todo k b f l1 e more l2|i todo k b f l1 a more l2|i a todo k b f l1 op more l2].
  - (* spawn *)
    cbn [cinv c_main c_workers] in HI. destruct HI as (dn & g & fin & act & I1 & I2 & I3 & I4 & I5 & I6 & I7 & I8 & I9 & I10).
    pose proof (acts_snoc _ 0%nat act (k, t) (MkW cpus (WJob k t)) I10) as HA. rewrite <- I5 in HA. specialize (HA (conj eq_refl (or_introl eq_refl))).
    rewrite I8, <- app_assoc. destruct (Nat.eqb_spec (S cpus) N) as [HNN|HNN].
    + cbn [cinv c_main c_workers]. destruct (mapM_total (gs_pending g ++ [(length (gs_spawned g), t)])) as (rets & HM & HL).
      { intros p Hp. rewrite I1. apply in_app_iff in Hp as [Hp|[<-|[]]].
        - apply (pending_points dn g) in Hp; auto. rewrite nth_error_app1; auto. apply nth_error_Some. congruence.
        - cbn [fst snd]. rewrite (seqRun_spawned dn g I2), nth_error_app2, Nat.sub_diag by lia. reflexivity. }
      destruct (gs_pending g ++ [(length (gs_spawned g), t)]) as [|p ps] eqn:Ep; [destruct (gs_pending g); discriminate Ep|].
      destruct rets as [|r rest]; [discriminate HL|]. subst k. rewrite Ep in HA.
      destruct (act ++ [MkW cpus (WJob (length (gs_spawned g)) t)]) as [|w act'] eqn:Ea; [destruct act; discriminate Ea|].
      cbn [acts] in HA. destruct HA as [HA1 HA2].
      exists dn, t, g, fin, w, act', r, rest, p, ps. split; [auto|]. split; [auto|]. split; [lia|]. split; [auto|]. split.
      * assert (HLp : length (gs_pending g ++ [(length (gs_spawned g), t)]) = length (p :: ps)) by (rewrite Ep; auto). rewrite app_length in HLp. simpl in HLp. lia.
      * split; [|split; [|auto]].
        -- exists []. rewrite Ep. split; [auto|]. exists []. split; [auto|]. split; [auto|]. rewrite I3, I4. reflexivity.
        -- simpl in HM. apply bind_Ok in HM as (r1 & Hr1 & HM). apply bind_Ok in HM as (bs & _ & HM). congruence.
    + cbn [cinv c_main c_workers]. exists (dn ++ [t]). eexists. exists fin, (act ++ [MkW cpus (WJob k t)]). split; [rewrite <- app_assoc; auto|].
      split; [rewrite (seqRun_snoc dn t g I2); apply body_wait; lia|]. cbn [gs_best gs_final gs_pending gs_spawned]. split; [auto|]. split; [auto|].
      split; [rewrite app_length; simpl; lia|]. split; [lia|]. split; [rewrite app_length; simpl; lia|]. split; [auto|]. split; [auto|]. rewrite <- I7. auto.
  - (* return *)
    cbn [cinv c_main c_workers] in *. destruct HI as (dn & g & fin & act & I1 & I2 & I3 & I4 & I5 & I6 & I7 & I8 & I9 & I10).
    exists dn, [], (inl g). split; [auto|]. split; [auto|]. cbn [finish gr_acc gr_opts gr_err]. split; [congruence|]. split; [auto|]. exists fin, act. split; [auto|]. split; [auto|]. split; [auto|]. lia.
  - (* work *)
    cbn [cinv c_main c_workers] in *. destruct m as [todo cpus k0 b f|i st todo k0 b f|acc opts err].
    + destruct HI as (dn & g & fin & act & I1 & I2 & I3 & I4 & I5 & I6 & I7 & I8 & I9 & I10).
      apply app_split in I8 as [(x & H)|(y & -> & ->)]; [exfalso; eapply fin_work; eauto|].
      exists dn, g, fin, (y ++ MkW c (WSend (cv_sent r)) :: l2). repeat (split; [auto; fail|]). split; [rewrite <- app_assoc; auto|]. split; [auto|]. eapply acts_work; eauto.
    + destruct HI as (dn & t0 & g & fin & w & act & r0 & rest & p & ps & I1 & I2 & I3 & I4 & I5 & I6 & I7 & I8 & I9 & I10 & I11).
      apply cons_split in I8 as [(x & H)|[(-> & <- & ->)|(y & -> & ->)]]; [exfalso; eapply fin_work; eauto| |].
      * exists dn, t0, g, fin, (MkW c (WSend (cv_sent r))), act, r0, rest, p, ps. repeat (split; [auto; fail|]). split; [|auto].
        destruct st as [| |a0]; cbn [midway] in *.
        -- destruct I10 as [Hc [Hp|(r1 & _ & Hp)]]; [|discriminate Hp]. injection Hp as -> ->. split; [auto|]. right. exists r. auto.
        -- destruct I10 as [_ I10]. discriminate I10.
        -- destruct I10 as (_ & _ & _ & I10). discriminate I10.
      * exists dn, t0, g, fin, w, (y ++ MkW c (WSend (cv_sent r)) :: l2), r0, rest, p, ps. repeat (split; [auto; fail|]). split; [rewrite <- app_assoc; auto|]. split; [auto|]. split; [auto|]. eapply acts_work; eauto.
    + destruct HI as (dn & todo & q & I1 & I2 & I3 & I4). exists dn, todo, q. repeat (split; [auto; fail|]). destruct q as [g|e].
      * destruct I4 as (I4 & fin & act & I5 & I6 & I7 & I8). split; [auto|].
        apply app_split in I5 as [(x & H)|(y & -> & ->)]; [exfalso; eapply fin_work; eauto|].
        exists fin, (y ++ MkW c (WSend (cv_sent r)) :: l2). split; [rewrite <- app_assoc; auto|]. split; [auto|]. split; [|auto]. eapply acts_work; eauto.
      * apply (unf_in _ (MkW c (WSend (cv_sent r)))); [apply in_app_iff; right; left; auto|]. simpl. apply HE in Hr. unfold sentShape in Hr. rewrite Hr. destruct (cv_err r); discriminate.
  - (* error *)
    cbn [cinv c_main c_workers] in HI. destruct HI as (dn & t0 & g & fin & w & act & r & rest & p & ps & I1 & I2 & I3 & I4 & I5 & I6 & I7 & I8 & I9 & I10 & I11).
    destruct (who fin w act l1 i (SErr e) more l2 ps i I9 I11 I8 eq_refl) as (-> & -> & ->). cbn [midway] in I10.
    pose proof (fresh_send _ _ _ _ _ _ I10 I7 eq_refl) as HSend. pose proof (HE _ _ _ I7) as Hsh. unfold sentShape in Hsh. rewrite Hsh in HSend.
    destruct (cv_err r) eqn:Er.
    + injection HSend as -> ->. cbn [cinv c_main c_workers]. destruct I6 as (before & J1 & rbefore & J2 & J3 & J4).
      exists (dn ++ [t0]), todo. eexists. split; [rewrite <- app_assoc; auto|]. split.
      { rewrite (seqRun_snoc dn t0 g I2), (body_full t0 g _ (ltac:(lia) : S (length (gs_pending g)) = N) J2), J4. cbn [map rescueConcValues]. rewrite Hsh. cbn [bind]. reflexivity. }
      split; [reflexivity|]. cbv iota. eapply unf_in; [apply in_app_iff; right; left; reflexivity|]. discriminate.
    + injection HSend as -> ->. cbn [cinv c_main c_workers]. exists dn, t0, g, fin, (MkW i (WSend [SAcc (cv_acc r); SOpt (cv_opts r)])), act, r, rest, p, ps.
      repeat (split; [auto; fail|]). split; [|auto]. cbn [midway]. auto.
  - (* accuracy *)
    cbn [cinv c_main c_workers] in HI. destruct HI as (dn & t0 & g & fin & w & act & r & rest & p & ps & I1 & I2 & I3 & I4 & I5 & I6 & I7 & I8 & I9 & I10 & I11).
    destruct (who fin w act l1 i (SAcc a) more l2 ps i I9 I11 I8 eq_refl) as (-> & -> & ->). cbn [midway] in I10. destruct I10 as [Er I10]. injection I10 as -> ->.
    pose proof (HE _ _ _ I7) as Hsh. unfold sentShape in Hsh. rewrite Er in Hsh.
    destruct (fltb (cv_acc r) fzero) eqn:Ea.
    + cbn [cinv c_main c_workers]. destruct I6 as (before & J1 & rbefore & J2 & J3 & J4).
      exists (dn ++ [t0]), todo. eexists. split; [rewrite <- app_assoc; auto|]. split.
      { rewrite (seqRun_snoc dn t0 g I2), (body_full t0 g _ (ltac:(lia) : S (length (gs_pending g)) = N) J2), J4. cbn [map rescueConcValues]. rewrite Hsh, Ea. cbn [bind]. reflexivity. }
      split; [reflexivity|]. cbv iota. eapply unf_in; [apply in_app_iff; right; left; reflexivity|]. discriminate.
    + cbn [cinv c_main c_workers]. exists dn, t0, g, fin, (MkW i (WSend [SOpt (cv_opts r)])), act, r, rest, p, ps.
      repeat (split; [auto; fail|]). split; [|auto]. cbn [midway]. auto.
  - (* options *)
    cbn [cinv c_main c_workers] in HI. destruct HI as (dn & t0 & g & fin & w & act & r & rest & p & ps & I1 & I2 & I3 & I4 & I5 & I6 & I7 & I8 & I9 & I10 & I11).
    destruct (who fin w act l1 i (SOpt op) more l2 ps i I9 I11 I8 eq_refl) as (-> & -> & ->). cbn [midway] in I10. destruct I10 as (Er & -> & Ea & I10). injection I10 as -> ->.
    pose proof (HE _ _ _ I7) as Hsh. unfold sentShape in Hsh. rewrite Er in Hsh. destruct I6 as (before & J1 & rbefore & J2 & J3 & J4).
    assert (HFin : Forall finished (fin ++ [MkW i (WSend [])])) by (apply Forall_app; split; auto; constructor; [reflexivity|constructor]).
    assert (J5 : rescueConcValues (map cv_sent (rbefore ++ r :: rest)) (gs_best g) (gs_final g) =
                 rescueConcValues (map cv_sent rest) (if fltb b (cv_acc r) then cv_acc r else b) (if fltb b (cv_acc r) then cv_opts r else f)).
    { rewrite J4. cbn [map rescueConcValues]. rewrite Hsh, Ea. destruct (fltb b (cv_acc r)); auto. }
    set (b2 := if fltb b (cv_acc r) then cv_acc r else b) in *. set (f2 := if fltb b (cv_acc r) then cv_opts r else f) in *.
    destruct (mapM_nthE _ _ _ J2) as [HLm HMm]. rewrite J1, !app_length in HLm. simpl in HLm.
    destruct ps as [|p2 ps].
    + destruct (Nat.eqb_spec (S i) N) as [HNN|HNN]; [|simpl in I5; lia]. cbn [cinv c_main c_workers].
      destruct rest as [|r2 rest]; [|simpl in HLm; lia]. destruct act as [|w2 act]; [|destruct I11].
      exists (dn ++ [t0]). eexists. exists (fin ++ [MkW i (WSend [])]), []. split; [rewrite <- app_assoc; auto|]. split.
      { rewrite (seqRun_snoc dn t0 g I2), (body_full t0 g _ (ltac:(lia) : S (length (gs_pending g)) = N) J2), J5. cbn [map rescueConcValues bind]. reflexivity. }
      cbn [gs_best gs_final gs_pending gs_spawned]. split; [auto|]. split; [auto|]. split; [auto|]. split; [lia|].
      split; [rewrite app_length; simpl; lia|]. rewrite app_nil_r. repeat (split; [auto; fail|]). exact I.
    + destruct (Nat.eqb_spec (S i) N) as [HNN|HNN]; [simpl in I5; lia|]. cbn [cinv c_main c_workers].
      destruct rest as [|r2 rest]; [simpl in HLm; lia|]. destruct act as [|w2 act]; [destruct I11|]. cbn [acts] in I11. destruct I11 as [I11 I12].
      exists dn, t0, g, (fin ++ [MkW i (WSend [])]), w2, act, r2, rest, p2, ps. repeat (split; [auto; fail|]). split; [simpl in *; lia|]. split; [|split; [|split; [|split; [|split]]]]; auto.
      * exists (before ++ [p]). split; [rewrite J1, <- app_assoc; auto|]. exists (rbefore ++ [r]). replace ((rbefore ++ [r]) ++ r2 :: rest) with (rbefore ++ r :: r2 :: rest) by (rewrite <- app_assoc; auto).
        split; [auto|]. split; [rewrite !app_length; simpl; lia|]. exact J5.
      * assert (Hn : nth_error (rbefore ++ r :: r2 :: rest) (S (length rbefore)) = Some r2).
        { rewrite nth_error_app2 by lia. replace (S (length rbefore) - length rbefore)%nat with 1%nat by lia. reflexivity. }
        apply HMm in Hn as (p9 & Hp9 & He9). rewrite J1, J3, nth_error_app2 in Hp9 by lia. replace (S (length before) - length before)%nat with 1%nat in Hp9 by lia.
        change (nth_error (p :: p2 :: ps) 1) with (Some p2) in Hp9. congruence.
      * rewrite <- app_assoc. reflexivity.
Qed.
Lemma cinv_init : cinv (cinit pts).
Proof.
  cbn [cinv cinit c_main c_workers]. exists [], gs0, [], []. split; [auto|]. split; [reflexivity|]. cbn. repeat (split; [auto; fail|]). exact I.
Qed.
Lemma cinv_steps n s : csteps N eval n (cinit pts) s -> cinv s.
Proof.
  intros H. remember (cinit pts) as s0 eqn:E0. induction H as [s|n s s1 s2 H IH HS].
  - subst. apply cinv_init.
  - eapply cinv_step; eauto.
Qed.

(** no deadlock *)
Lemma progress s : cinv s -> (exists a o e, c_main s = MDone a o e) \/ exists s', cstep N eval s s'.
Proof.
  destruct s as [m ws]. intros HI. destruct m as [todo cpus k b f|i st todo k b f|acc opts err]; [right| |left; cbn; eauto].
  - cbn [cinv c_main c_workers] in HI. destruct HI as (dn & g & fin & act & I1 & I2 & I3 & I4 & I5 & I6 & I7 & I8 & I9 & I10).
    destruct todo as [|t todo]; [eexists; apply cs_return|eexists; apply cs_spawn; lia].
  - right. cbn [cinv c_main c_workers] in HI. destruct HI as (dn & t0 & g & fin & w & act & r & rest & p & ps & I1 & I2 & I3 & I4 & I5 & I6 & I7 & -> & I9 & I10 & I11).
    pose proof (HE _ _ _ I7) as Hsh. unfold sentShape in Hsh.
    destruct st as [| |a]; cbn [midway] in I10.
    + destruct w as [c wp]. destruct I10 as [Hc [Hp|(r1 & Hr1 & Hp)]]; cbn [w_chan w_prog] in *; subst c wp.
      * eexists. apply cs_work. eauto.
      * assert (r1 = r) by congruence. subst r1. rewrite Hsh. destruct (cv_err r); eexists; apply cs_err.
    + destruct I10 as [_ ->]. eexists. apply cs_acc.
    + destruct I10 as (_ & _ & _ & ->). eexists. apply cs_opt.
Qed.

(** executions are short *)
Definition wweight (w : worker) : nat := match w_prog w with WJob _ _ => 4 | WSend l => length l end.
Definition weight (s : cstate) : nat :=
  match c_main s with MRun todo _ _ _ _ => 5 * length todo + 1 | MCollect _ _ todo _ _ _ => 5 * length todo + 1 | MDone _ _ _ => 0 end
  + list_sum (map wweight (c_workers s)).
Lemma weight_step s s' : cstep N eval s s' -> (weight s' < weight s)%nat.
Proof.
  intros HS. destruct HS as [t todo cpus k b f ws Hc|cpus k b f ws|m l1 c k t r l2 Hr|i todo k b f l1 e more l2|i todo k b f l1 a more l2|i a todo k b f l1 op more l2];
    unfold weight; cbn [c_main c_workers]; rewrite ?map_app, ?list_sum_app; cbn [map list_sum fold_right wweight w_prog].
  - destruct (Nat.eqb (S cpus) N); simpl; lia.
  - lia.
  - assert (length (cv_sent r) = 3%nat) by (apply HE in Hr; unfold sentShape in Hr; rewrite Hr; destruct (cv_err r); reflexivity).
    cbn [list_sum fold_right] in *. destruct m; simpl; lia.
  - destruct e; simpl; lia.
  - destruct (fltb a fzero); simpl; lia.
  - destruct (Nat.eqb (S i) N); simpl; lia.
Qed.
Lemma steps_bounded n s : csteps N eval n (cinit pts) s -> (n <= 5 * length pts + 1)%nat.
Proof.
  intros H. assert (HX : (n + weight s <= weight (cinit pts))%nat).
  { remember (cinit pts) as s0 eqn:E0. clear E0. induction H as [s|n s s1 s2 H IH HS]; [lia|]. pose proof (weight_step _ _ HS). lia. }
  unfold weight at 2 in HX. cbn [cinit c_main c_workers map list_sum fold_right] in HX. lia.
Qed.

(** goroutines left behind *)
Lemma unfinished_app a b : unfinished (a ++ b) = unfinished a ++ unfinished b.
Proof. unfold unfinished. apply filter_app. Qed.
Lemma unfinished_fin ws : Forall finished ws -> unfinished ws = [].
Proof. intros H. induction H as [|w ws Hw H IH]; auto. simpl. unfold finished in Hw. rewrite Hw. auto. Qed.
Lemma unfinished_all ws : (forall w, In w ws -> w_prog w <> WSend []) -> unfinished ws = ws.
Proof.
  induction ws as [|w ws IH]; intros H; auto. simpl. destruct (w_prog w) as [|[|s l]] eqn:E; try (f_equal; apply IH; intros; apply H; right; auto).
  exfalso. apply (H w); [left|]; auto.
Qed.
Lemma pending_length dn g : seqRun dn = Ok (inl g) -> (length (gs_pending g) < N)%nat -> length (gs_pending g) = (length dn mod N)%nat.
Proof.
  intros H HL. pose proof (seqRun_ginv dn g H) as (q & outs & done & I1 & I2 & I3 & I4 & _). change (g_ncpus o0) with (Z.of_nat N) in *. rewrite <- (seqRun_spawned dn g H), I1, app_length, map_length.
  assert (HD : length done = (q * N)%nat) by nia. rewrite HD, Nat.add_comm, Nat.mod_add by lia. symmetry. apply Nat.mod_small. auto.
Qed.
Lemma conc_done n s acc opts err : csteps N eval n (cinit pts) s -> c_main s = MDone acc opts err ->
  exists q, seqRun pts = Ok q /\ (acc, opts, err) = (gr_acc (finish q), gr_opts (finish q), gr_err (finish q)).
Proof.
  intros H HD. apply cinv_steps in H. unfold cinv in H. rewrite HD in H. destruct H as (dn & todo & q & -> & I2 & I3 & I4).
  destruct q as [g|e].
  - destruct I4 as [-> _]. rewrite app_nil_r. eauto.
  - exists (inr e). split; auto. unfold seqRun in *. rewrite foldE_app, I2. reflexivity.
Qed.
Lemma conc_leak n s acc opts err : csteps N eval n (cinit pts) s -> c_main s = MDone acc opts err ->
  if err then unfinished (c_workers s) <> [] else length (unfinished (c_workers s)) = (length pts mod N)%nat.
Proof.
  intros H HD. apply cinv_steps in H. unfold cinv in H. rewrite HD in H. destruct H as (dn & todo & q & -> & I2 & I3 & I4). destruct q as [g|e].
  - destruct I4 as (-> & fin & act & -> & I5 & I6 & I7). injection I3 as _ _ ->. cbn [finish gr_err].
    rewrite unfinished_app, (unfinished_fin fin I5), (unfinished_all act) by (intros w; eapply acts_unfinished; eauto).
    rewrite app_nil_r. simpl. rewrite (acts_length _ _ _ I6). eapply pending_length; eauto.
  - assert (He : gr_err e = true).
    { pose proof (fold_spawned eval o0 dn gs0 (inr e) I2) as [HX _]. exact HX. }
    injection I3 as _ _ ->. cbn [finish]. rewrite He. auto.
Qed.
End Proofs.

(** *** the statement *)
Lemma c57_lemma id eval o a pts : evalShape eval -> 1 <= g_ncpus o -> axesOf o a -> Forall2 (isPoint id o) (combinations a) pts ->
  (forall k t, nth_error pts k = Some t -> exists r, eval k t = Ok r) ->
  forall n s, csteps (Z.to_nat (g_ncpus o)) eval n (cinit pts) s ->
  (n <= 5 * length pts + 1)%nat /\
  ((exists acc opts err, c_main s = MDone acc opts err) \/ exists s', cstep (Z.to_nat (g_ncpus o)) eval s s') /\
  (forall acc opts err fuel r, c_main s = MDone acc opts err -> GridWith fuel id eval o = Ok r ->
     acc = gr_acc r /\ opts = gr_opts r /\ err = gr_err r).
Proof.
  intros HE HN HA HP HT n s HS. rewrite (isPoints_unique id o _ _ _ HP (points_isPoint id o a)) in *.
  assert (HN' : (1 <= Z.to_nat (g_ncpus o))%nat) by lia.
  split; [exact (steps_bounded _ eval _ HN' HE n s HS)|].
  split; [exact (progress _ eval _ HN' HE s (cinv_steps _ eval _ HN' HE HT n s HS))|].
  intros acc opts err fuel r HD HG. destruct (conc_done _ eval _ HN' HE HT n s acc opts err HS HD) as (q & Hq & Eq).
  destruct (GridWith_fold id eval o fuel a r HA HG) as (_ & q' & Hq' & ->). unfold seqRun in Hq. rewrite Z2Nat.id in Hq by lia.
  rewrite Hq in Hq'. injection Hq' as <-. injection Eq as -> -> ->. auto.
Qed.
