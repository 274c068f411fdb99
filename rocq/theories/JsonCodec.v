(** A concrete codec that meets [CodecOk], so that the theorems about saved models are not vacuous. It is not
    [encoding/json]: a record is written as its numbers in decimal, each followed by a blank. *)
From Coq Require Import Ascii String.
From Flocq Require Import IEEE754.BinarySingleNaN.
From Verif Require Import Base F64 F64Lemmas Env Utils Tree Options Train Spec Text Json.
From Coq Require Import List.
Open Scope Z_scope.

Definition SP : ascii := " "%char.
Fixpoint nums (l : list Z) : text := match l with [] => [] | z :: t => decZ z ++ SP :: nums t end.
Fixpoint unnums (cur : text) (t : text) : option (list Z) :=
  match t with
  | [] => None
  | c :: t' =>
      if Ascii.eqb c NL then match cur with [] => Some [] | _ => None end
      else if Ascii.eqb c SP then
        match parseZ cur, unnums [] t' with Some z, Some l => Some (z :: l) | _, _ => None end
      else unnums (cur ++ [c]) t'
  end.
Lemma unnums_word w : forall cur t, (forall c, In c w -> c <> NL /\ c <> SP) -> unnums cur (w ++ t) = unnums (cur ++ w) t.
Proof.
  induction w as [|c w IH]; intros cur t H; simpl; [rewrite app_nil_r; auto|].
  destruct (H c) as [H1 H2]; [left; auto|]. destruct (Ascii.eqb_spec c NL); [congruence|]. destruct (Ascii.eqb_spec c SP); [congruence|].
  rewrite IH by (intros; apply H; right; auto). rewrite <- app_assoc. auto.
Qed.
Lemma dec_plain z c : In c (decZ z) -> c <> NL /\ c <> SP.
Proof. intros H. apply decZ_chars in H as [H|H]; [split; intros ->; discriminate H|subst c; split; discriminate]. Qed.
Lemma unnums_nums l : unnums [] (nums l ++ [NL]) = Some l.
Proof.
  induction l as [|z l IH]; [reflexivity|]. cbn [nums]. rewrite <- app_assoc. rewrite unnums_word by apply dec_plain. simpl app.
  cbn [unnums]. simpl Ascii.eqb. cbv iota. rewrite parse_dec, IH. auto.
Qed.
Lemma nums_chars l c : In c (nums l) -> isDigit c = true \/ c = "-"%char \/ c = SP.
Proof.
  induction l as [|z l IH]; cbn [nums]; [intros []|]. intros H. apply in_app_iff in H as [H|[H|H]]; auto.
  apply decZ_chars in H. tauto.
Qed.

(** floats *)
Definition zb (b : bool) : Z := if b then 1 else 0.
Definition encF (x : f64) : list Z :=
  match x with
  | B754_zero s => [0; zb s; 0; 0] | B754_infinity s => [2; zb s; 0; 0] | B754_nan => [3; 0; 0; 0]
  | B754_finite s m e _ => [1; zb s; Z.pos m; e]
  end.
Definition decF (tag s m e : Z) : f64 :=
  let b := s =? 1 in
  if tag =? 0 then B754_zero b
  else if tag =? 2 then B754_infinity b
  else if tag =? 1 then
    match m with
    | Zpos p => match Sumbool.sumbool_of_bool (SpecFloat.bounded 53 1024 p e) with
                | left H => B754_finite b p e H
                | right _ => B754_nan
                end
    | _ => B754_nan
    end
  else B754_nan.
Lemma decF_enc x : match encF x with [a; b; c; d] => decF a b c d = x | _ => False end.
Proof.
  destruct x as [s|s| |s m e H]; cbn [encF]; unfold decF; simpl; try (destruct s; reflexivity); [reflexivity|].
  destruct (Sumbool.sumbool_of_bool (SpecFloat.bounded 53 1024 m e)) as [H1|H1].
  - replace (zb s =? 1) with s by (destruct s; reflexivity). f_equal. apply Eqdep_dec.UIP_dec. apply Bool.bool_dec.
  - exfalso. unfold SpecFloat.bounded in *. congruence.
Qed.

Definition encNode (j : JSONNode) : list Z :=
  [j_id j; j_nsamples j; j_split j; zb (j_leaf j); j_left j; j_right j; j_branches j; zb (j_xgb j)] ++
  encF (j_best j) ++ encF (j_thr j) ++ encF (j_value j) ++ match j_samples j with None => [0] | Some l => 1 :: l end.
Definition decNode (l : list Z) : option JSONNode :=
  match l with
  | id :: ns :: sp :: lf :: le :: ri :: br :: xg :: b1 :: b2 :: b3 :: b4 :: t1 :: t2 :: t3 :: t4 :: v1 :: v2 :: v3 :: v4 :: tag :: rest =>
      Some (MkJ id ns (if tag =? 0 then None else Some rest) sp (decF b1 b2 b3 b4) (lf =? 1) (decF t1 t2 t3 t4) le ri br
                (decF v1 v2 v3 v4) (xg =? 1))
  | _ => None
  end.
Lemma zb_eq b : (zb b =? 1) = b.
Proof. destruct b; reflexivity. Qed.
Lemma decNode_enc j : decNode (encNode j) = Some j.
Proof.
  destruct j as [id ns sa sp be lf th le ri br va xg]. unfold encNode. cbn [j_id j_nsamples j_samples j_split j_best j_leaf j_thr j_left j_right j_branches j_value j_xgb].
  pose proof (decF_enc be) as H1. pose proof (decF_enc th) as H2. pose proof (decF_enc va) as H3.
  destruct (encF be) as [|b1 [|b2 [|b3 [|b4 [|]]]]]; try contradiction.
  destruct (encF th) as [|t1 [|t2 [|t3 [|t4 [|]]]]]; try contradiction.
  destruct (encF va) as [|v1 [|v2 [|v3 [|v4 [|]]]]]; try contradiction.
  cbn [app]. unfold decNode. rewrite H1, H2, H3, !zb_eq. destruct sa; reflexivity.
Qed.

Definition chars (t : text) : list Z := map (fun c => Z.of_nat (nat_of_ascii c)) t.
Definition unchars (l : list Z) : text := map (fun z => ascii_of_nat (Z.to_nat z)) l.
Lemma unchars_chars t : unchars (chars t) = t.
Proof. unfold unchars, chars. rewrite map_map. induction t as [|c t IH]; simpl; auto. rewrite Nat2Z.id, ascii_nat_embedding, IH. auto. Qed.

Definition encMeta (m : JSONMeta) : list Z :=
  encF (jm_lr m) ++ encF (jm_base m) ++ Z.of_nat (length (jm_name m)) :: chars (jm_name m) ++ jm_labels m.
Definition decMeta (l : list Z) : option JSONMeta :=
  match l with
  | l1 :: l2 :: l3 :: l4 :: b1 :: b2 :: b3 :: b4 :: n :: rest =>
      Some (MkMeta (decF l1 l2 l3 l4) (skipn (Z.to_nat n) rest) (unchars (firstn (Z.to_nat n) rest)) (decF b1 b2 b3 b4))
  | _ => None
  end.
Lemma decMeta_enc m : decMeta (encMeta m) = Some m.
Proof.
  destruct m as [lr la na ba]. unfold encMeta. cbn [jm_lr jm_labels jm_name jm_base].
  pose proof (decF_enc lr) as H1. pose proof (decF_enc ba) as H2.
  destruct (encF lr) as [|b1 [|b2 [|b3 [|b4 [|]]]]]; try contradiction.
  destruct (encF ba) as [|t1 [|t2 [|t3 [|t4 [|]]]]]; try contradiction.
  cbn [app]. unfold decMeta. rewrite H1, H2, Nat2Z.id.
  assert (HL : length (chars na) = length na) by (unfold chars; apply map_length).
  rewrite <- HL, firstn_app, skipn_app, Nat.sub_diag, firstn_all, skipn_all. simpl. rewrite app_nil_r, unchars_chars. auto.
Qed.

Definition codec0 : Codec :=
  MkCodec (fun j => nums (encNode j)) (fun t => match unnums [] t with Some l => decNode l | None => None end)
          (fun m => nums (encMeta m)) (fun t => match unnums [] t with Some l => decMeta l | None => None end).
Lemma nums_no c l : isDigit c = false -> c <> "-"%char -> c <> SP -> ~ In c (nums l).
Proof. intros H1 H2 H3 H. apply nums_chars in H as [H|[H|H]]; congruence. Qed.
Lemma codec0_ok : CodecOk codec0.
Proof.
  constructor; intros; cbn [codec0 c_node c_unnode c_meta c_unmeta].
  - rewrite unnums_nums. apply decNode_enc.
  - exists m. rewrite unnums_nums, decMeta_enc. tauto.
  - apply nums_no; [reflexivity|discriminate|discriminate].
  - apply nums_no; [reflexivity|discriminate|discriminate].
  - apply containsT_no. apply nums_no; [reflexivity|discriminate|discriminate].
  - apply containsT_no. apply nums_no; [reflexivity|discriminate|discriminate].
Qed.
