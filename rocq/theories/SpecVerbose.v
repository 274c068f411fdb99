(** Specification vocabulary for what is printed and logged. *)
From Verif Require Import Base F64 Env Utils Tree Options Train Spec SpecTrain Text CV SpecCV Grid SpecGrid Grad SpecGrad Verbose.
From Coq Require Import List.
Open Scope Z_scope.

(** the lines of each kind, in order *)
Definition trainLines (out : list line) : list (nat * nat * f64) := flat_map (fun l => match l with LTrain r k x => [(r, k, x)] | _ => [] end) out.
Definition stopLines (out : list line) : list (nat * nat) := flat_map (fun l => match l with LStop k r => [(k, r)] | _ => [] end) out.
Definition heads (out : list line) : list (Z * f64) := flat_map (fun l => match l with LHead r cw => [(r, cw)] | _ => [] end) out.
Definition weights (out : list line) : list f64 := flat_map (fun l => match l with LWeight cw => [cw] | _ => [] end) out.
Definition gridBests (out : list line) : list (f64 * option Options) := flat_map (fun l => match l with LBestG a o => [(a, Some o)] | _ => [] end) out.
Definition climbBests (out : list line) : list (f64 * Options) := flat_map (fun l => match l with LBestC a o => [(a, o)] | _ => [] end) out.
(** the outcomes that are better than [best] and than all before them *)
Fixpoint records (best : f64) (outs : list (f64 * option Options)) : list (f64 * option Options) :=
  match outs with
  | [] => []
  | (a, op) :: rest => if fltb best a then (a, op) :: records a rest else records best rest
  end.
(** what is said about a fold: the lines of its training, and a complaint with the number [n] if no ensemble results *)
Definition foldSays {K} (E : Env) (n : nat) (rnd : draws) (id : Z) (O : option Options) (p : DataBunch K * DataBunch K) (o : option f64) (said : list line) : Prop :=
  said = fst (trainWithV E rnd id (fst p) O) ++ match o with None => [LNoModel n] | Some _ => [] end.
(** a, a - 1, ..., b + 1 *)
Definition downTo (a b : nat) : list nat := rev (seq (S b) (a - b)).
(** the lines of a tree *)
Definition entrySays (e : entryG) (said : list line) : Prop :=
  said = [LTrain (g_round e) (g_class e) (g_loss e)] \/ said = [LTrain (g_round e) (g_class e) (g_loss e); LStop (g_class e) (g_round e)].
(** what is printed about accuracies agrees with what is returned *)
Definition saysBests (out : list line) (r : ggRet) : Prop :=
  (gg_err r = false -> map fst (climbBests out) = gg_accuracies r) /\ forall a o, In (a, o) (climbBests out) -> exists o0, In (o0, o, a) (gg_evals r).
(** the lines that go to the log (standard error, with the time) and not to the standard output *)
Definition isLogged (l : line) : Prop := match l with LStop _ _ | LFewer _ _ _ | LNoModel _ => True | _ => False end.
