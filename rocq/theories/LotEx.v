(** Concrete cases for C168 and C169. *)
From Coq Require Import String.
From Verif Require Import Base F64 Env Utils Tree Options Train Spec SpecTrain Examples TrainEx SpecChance SpecLot.
From Coq Require Import List.
Import ListNotations.
Open Scope Z_scope.

(** two rows, each kept with the chance 1/2 (draws 0 and 1/2, SubSample 1/4); a round needs one row *)
Definition pairD : DataBunch unit := MkData (mat [[0]; [1]]) [] [7; 5].
Definition lotO : Options := MkOpts true 2 2 0 (fdec 3 10) fone fone fzero (fdec 1 4) fone fhalf 1 "exact" false (SQErrLoss 0).
Definition lotRounds (ws : list (list f64)) : option nat :=
  match NewMultiClass env0 (lotDraws (fun _ _ => fzero) ws) pairD lotO with Ok tr => Some (length (mc_b (tr_model tr))) | _ => None end.
Definition lots : list (list (list f64)) := words (words [fzero; fhalf] 2) 2.
Definition lotNumbers : list (option nat) := map Some [2; 2; 2; 1; 2; 2; 2; 1; 2; 2; 2; 1; 1; 1; 1; 0]%nat.
Lemma lots_run : map lotRounds lots = lotNumbers.
Proof. vm_compute. reflexivity. Qed.
Lemma lots_ways j : ways (words [fzero; fhalf] 2) 2 (trainsRounds env0 (fun _ _ => fzero) pairD lotO j) =
  Z.of_nat (length (filter (fun o => match o with Some n => Nat.eqb n j | None => false end) lotNumbers)).
Proof.
  unfold ways. fold lots. rewrite <- lots_run. f_equal. induction lots as [|ws l IH]; [reflexivity|]. cbn [map filter].
  assert (E : trainsRounds env0 (fun _ _ => fzero) pairD lotO j ws = match lotRounds ws with Some n => Nat.eqb n j | None => false end).
  { unfold trainsRounds, lotRounds. destruct (NewMultiClass env0 _ pairD lotO); reflexivity. }
  rewrite E. destruct (match lotRounds ws with Some n => Nat.eqb n j | None => false end); cbn [length]; rewrite IH; reflexivity.
Qed.
Lemma ex_lot : (forall ws, In ws (words (words [fzero; fhalf] 2) 2) -> exists tr, NewMultiClass env0 (lotDraws (fun _ _ => fzero) ws) pairD lotO = Ok tr) /\
  length (Data pairD) = 2%nat /\ o_xgb lotO = true /\ fltb (o_ss lotO) fone = true /\ Check lotO = true /\
  enoughWays [fzero; fhalf] 2 (fdec 1 4) 1 = 3 /\
  map (fun j => ways (words [fzero; fhalf] 2) 2 (trainsRounds env0 (fun _ _ => fzero) pairD lotO j)) [0; 1; 2; 3]%nat = [1; 6; 9; 0].
Proof.
  split.
  { intros ws Hws. apply (in_map lotRounds) in Hws. fold lots in Hws. rewrite lots_run in Hws. unfold lotRounds in Hws. destruct (NewMultiClass env0 _ pairD lotO) as [tr| |]; [eauto| |]; exfalso;
    unfold lotNumbers in Hws; apply in_map_iff in Hws as (x & Hx & _); discriminate Hx. }
  split; [reflexivity|]. split; [reflexivity|]. do 3 (split; [vm_compute; reflexivity|]). cbn [map]. rewrite !lots_ways. reflexivity.
Qed.

(** two columns of which only the second is informative *)
Definition twoCols : DataBunch unit := MkData (mat [[0; 0]; [0; 1]; [0; 2]]) [] [7; 5; 6].
Definition colO : Options := MkOpts true 1 2 0 (fdec 3 10) fone fone fzero fhalf (fdec 1 4) fhalf 1 "exact" false (SQErrLoss 0).
(** the draws of a round: all rows, and columns as told *)
Definition colDraws (c : list f64) : draws := fun _ => (fun _ => fzero, fun i => nth i c fzero).
Definition rootSplit (c : list f64) : option Z :=
  match NewMultiClass env0 (colDraws c) twoCols colO with
  | Ok tr => match mc_b (tr_model tr) with (Node d _ _ :: _) :: _ => if t_leaf d then None else Some (t_split d) | _ => None end
  | _ => None
  end.
(** drawing the second column or no column makes the root split on it, drawing the first only does not *)
Lemma ex_cols : map (fun cols => ways (unitValues 2) 2 (offers 2 fhalf cols)) [[]; [0]; [1]; [0; 1]] = [0; 3; 3; 10] /\
  (exists w l, subsampleOf 2 fhalf w = Ok l) /\ o_xgb colO = true /\ fltb (o_css colO) fone = true /\
  subsampleOf 2 (fdec 1 4) [fone; fone] = Ok [] /\ rootSplit [fone; fone] = Some 1 /\
  subsampleOf 2 (fdec 1 4) [fone; fzero] = Ok [1] /\ rootSplit [fone; fzero] = Some 1 /\
  subsampleOf 2 (fdec 1 4) [fzero; fone] = Ok [0] /\ rootSplit [fzero; fone] = None.
Proof.
  split; [vm_compute; reflexivity|]. split; [exists [fzero; fzero], [0; 1]; vm_compute; reflexivity|]. repeat split; vm_compute; reflexivity.
Qed.
