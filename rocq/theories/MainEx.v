(** Concrete case for C147. *)
From Coq Require Import Ascii String Reals.
From Flocq Require Import Core IEEE754.BinarySingleNaN.
From Verif Require Import Base F64 F64Lemmas Env EnvLemmas Utils Text Readers SpecReaders ReadersNum Tree Spec Options Train CV SpecTrain SpecCV SpecTot Examples TrainEx CVEx CVTotEx Grad SpecGradTot GradEx GradRetEx Grid SpecGridTot GridTotEx Main MainProofs.
From Coq Require Import List.
Open Scope Z_scope.
Definition mainFile : text :=
  tx "L 1:A" ++ [NL] ++ tx "7 1:0.0000" ++ [NL] ++ tx "5 1:1.0000" ++ [NL] ++ tx "7 1:2.0000" ++ [NL] ++ tx "5 1:3.0000" ++ [NL] ++ tx "7 1:4.0000" ++ [NL] ++
  tx "5 1:5.0000" ++ [NL] ++ tx "7 1:6.0000" ++ [NL].
Lemma map_inj {A B} (f : A -> B) : (forall a b, f a = f b -> a = b) -> forall l l', map f l = map f l' -> l = l'.
Proof. intros H. induction l as [|a l IH]; intros [|b l'] HL; try discriminate HL; [reflexivity|]. cbn [map] in HL. injection HL as H1 H2. rewrite (H _ _ H1), (IH _ H2). reflexivity. Qed.
Lemma main_read : exists data, DataBunchFromLibSVMFile pf0 (Some (mainFile, true)) (Some true) = Ok (Some data) /\ Data data = Data exCV /\ Labels data = Labels exCV.
Proof.
  assert (H : match DataBunchFromLibSVMFile pf0 (Some (mainFile, true)) (Some true) with
    | Ok (Some D) => map (map (@B2SF 53 1024)) (Data D) = map (map (@B2SF 53 1024)) (Data exCV) /\ Labels D = Labels exCV | _ => False end) by (vm_compute; split; reflexivity).
  destruct (DataBunchFromLibSVMFile pf0 (Some (mainFile, true)) (Some true)) as [[D|]| |]; try destruct H. exists D. split; [reflexivity|]. split; [|assumption].
  apply (map_inj (map (@B2SF 53 1024))); [|assumption]. apply map_inj. apply B2SF_inj.
Qed.
Lemma ex_c147 : ParserOk pf0 /\ EnvOk env0 /\ exists data, DataBunchFromLibSVMFile pf0 (Some (mainFile, true)) (Some true) = Ok (Some data) /\ goodTable (Data data) /\
  length (Data data) = 7%nat /\ (forall row, In row (Data data) -> (length row <= 21)%nat) /\ goodInts (length (Data data)) ints0 /\ goodOracles (length (Data data)) gOr.
Proof.
  split; [exact pf0_ok|]. split; [exact env0_ok|]. destruct main_read as (data & H1 & H2 & _). exists data. rewrite H2. destruct ex_c100 as (G1 & _ & _ & _ & _ & G6 & G7).
  split; [exact H1|]. split; [exact G1|]. split; [reflexivity|]. split; [|split; [split; [exact G6|exact G7]|exact gOr_good]].
  intros row Hr. simpl in Hr. repeat (destruct Hr as [<-|Hr]; [cbn; lia|]). destruct Hr.
Qed.
