(** Concrete inputs for C124-C127. *)
From Coq Require Import Ascii String.
From Verif Require Import Base F64 F64Lemmas Env EnvLemmas Utils Tree Text Confu Readers ReadersNum Json Print Misc Spec SpecPrint SpecMisc Examples TrainEx.
From Coq Require Import List.
Open Scope Z_scope.

Definition sortMe : list f64 := [fofZ 3; fnan; fofZ (-1); fofZ 2].
Lemma ex_c124 : exists s, runSlice (insertionSort 4) (NewSlice sortMe) = Ok s /\ sl_idx s = [1; 2; 3; 0].
Proof.
  destruct (ok_ex (runSlice (insertionSort 4) (NewSlice sortMe)) (fun s => if list_eq_dec Z.eq_dec (sl_idx s) [1; 2; 3; 0] then true else false)) as (s & Hs & HB); [vm_compute; reflexivity|].
  exists s. split; [exact Hs|]. destruct (list_eq_dec Z.eq_dec (sl_idx s) [1; 2; 3; 0]); [auto|discriminate].
Qed.
Definition numbers : list f64 := [fofZ 3; fofZ (-1); fofZ 2].
Lemma ex_c124_argsort : EnvOk env0 /\ (forall x, In x numbers -> fnanb x = false) /\
  (forall i j x y, nth_error numbers i = Some x -> nth_error numbers j = Some y -> feqb x y = true -> i = j).
Proof.
  split; [exact env0_ok|]. split; [intros x [<-|[<-|[<-|[]]]]; vm_compute; reflexivity|].
  intros [|[|[|i]]] [|[|[|j]]] x y Hx Hy H; try reflexivity; try (destruct i; discriminate Hx); try (destruct j; discriminate Hy);
    exfalso; cbn [nth_error numbers] in Hx, Hy; injection Hx as <-; injection Hy as <-; vm_compute in H; discriminate H.
Qed.

Definition namesD : DataBunch text := MkData [] [tx "age"; tx "size"; tx "age"] [].
Lemma ex_c125 : exists M, OHEKeys namesD = Ok (M, [tx "age"; tx "size"]) /\ d_r M = 3%nat /\ d_c M = 2%nat.
Proof.
  destruct (ok_ex (OHEKeys namesD) (fun p => (d_r (fst p) =? 3)%nat && (d_c (fst p) =? 2)%nat && if list_eq_dec (list_eq_dec ascii_dec) (snd p) [tx "age"; tx "size"] then true else false)) as ([M de] & HM & HB); [vm_compute; reflexivity|].
  apply andb_prop in HB as [HB H3]. apply andb_prop in HB as [H1 H2]. cbn [fst snd] in *. exists M.
  destruct (list_eq_dec (list_eq_dec ascii_dec) de [tx "age"; tx "size"]) as [->|]; [|discriminate]. apply Nat.eqb_eq in H1, H2. auto.
Qed.

(** two nodes that split on different features have the same text *)
Definition nodeOn (f : Z) : JSONNode := MkJ 1 4 None f (fofZ 2) false fhalf 2 5 7 fone true.
Lemma ref_c126 : exists j k, StringNode j = StringNode k /\ j_split j <> j_split k.
Proof. exists (nodeOn 0), (nodeOn 1). split; [reflexivity|discriminate]. Qed.
Lemma ex_c126 : StringNode (nodeOn 3) = tx "ID:1, Samples:[], ns: 4, score: 2.000,Value:1.000Threshold: 0.500, Leaf: false, Branches: 7, LeftID: 2, RightID: 5, XGB:true".
Proof. vm_compute. reflexivity. Qed.

Definition oneBad : text := tx "1 1:0.5000" ++ [NL] ++ tx "2 1:x" ++ [NL] ++ tx "bad" ++ [NL].
Definition oneBadLines : list text := [tx "1 1:0.5000" ++ [NL]; tx "2 1:x" ++ [NL]; tx "bad" ++ [NL]].
Lemma notNL (s : string) : existsb (Ascii.eqb NL) (tx s) = false -> ~ In NL (tx s).
Proof. intros H HI. assert (HT : existsb (Ascii.eqb NL) (tx s) = true) by (apply existsb_exists; exists NL; split; [exact HI|apply Ascii.eqb_refl]). congruence. Qed.
Lemma ex_c127 : linesOf oneBad oneBadLines /\
  ParseLibSVMErr pf0 (fun _ _ => tx "why") oneBad true false = Ok (SLine (tx "Can't read line 2 in libSVM-formatted file, Error: why, line: 2 1:x" ++ [NL])).
Proof.
  split; [|vm_compute; reflexivity]. unfold oneBad, oneBadLines.
  apply (lines_cons (tx "1 1:0.5000")); [apply notNL; reflexivity|]. apply (lines_cons (tx "2 1:x")); [apply notNL; reflexivity|].
  apply (lines_cons (tx "bad") []); [apply notNL; reflexivity|]. apply lines_end. intros [].
Qed.
