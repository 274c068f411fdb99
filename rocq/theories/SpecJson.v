(** Specification vocabulary for saving and loading. *)
From Verif Require Import Base F64 Env Utils Tree Options Train Spec Text Json.
Open Scope Z_scope.

(** the tree without its sample lists (they are not saved) *)
Fixpoint unsampled (t : tree) : tree :=
  match t with
  | Nil => Nil
  | Node d l r => Node (MkT None (t_best d) (t_value d) (t_nsamples d) (t_split d) (t_thr d) (t_xgb d) (t_branches d))
                       (unsampled l) (unsampled r)
  end.
(** the subtrees in pre-order *)
Fixpoint preorder (t : tree) : list tree :=
  match t with Nil => [] | Node d l r => t :: preorder l ++ preorder r end.
(** the floats of a node that are written to the file *)
Definition writtenFinite (d : tdata) : Prop :=
  ffinite (t_thr d) = true /\ ffinite (t_value d) = true /\ (ffinite (t_best d) = true \/ (t_xgb d = false /\ t_best d = finf)).
Definition treeFinite (t : tree) : Prop := forall d l r, sub (Node d l r) t -> writtenFinite d.
(** the lines of a text file: every line ended by a newline *)
Definition unlines (ls : list text) : text := concat (map (fun l => l ++ [NL]) ls).
(** [p] is an initial segment of [l] *)
Definition isPrefix {A} (p l : list A) : Prop := exists r, l = p ++ r.

(** the items the file of a model consists of; [None]: the item cannot be written *)
Definition treeItem (C : Codec) (t : tree) : option text :=
  match JSONTree C t 0 with Ok (Some (ls, _), _) => Some (unlines ls) | _ => None end.
Fixpoint classItems (C : Codec) (labels : list Z) (cn : nat) (ts : list tree) : list (option text) :=
  match ts with
  | [] => []
  | t :: rest => Some (classLine cn (nth cn labels 0)) :: treeItem C t :: classItems C labels (S cn) rest
  end.
Fixpoint roundItems (C : Codec) (labels : list Z) (rn : nat) (b : list (list tree)) : list (option text) :=
  match b with
  | [] => []
  | ens :: rest => Some (roundLine rn) :: classItems C labels 0 ens ++ roundItems C labels (S rn) rest
  end.
Definition modelItems (C : Codec) (M : MultiClass) (name : text) : list (option text) :=
  (match marshalMeta C (MkMeta (mc_lr M) (mc_labels M) name (mc_base M)) with Some j => Some (j ++ [NL]) | None => None end)
  :: roundItems C (mc_labels M) 0 (mc_b M).

(** models that [JSONMultiClass] can traverse: no nil tree and a label for each tree *)
Definition writable (M : MultiClass) : Prop :=
  forall ens, In ens (mc_b M) -> (length ens <= length (mc_labels M))%nat /\ forall t, In t ens -> t <> Nil.
Definition modelFinite (M : MultiClass) : Prop :=
  ffinite (mc_lr M) = true /\ ffinite (mc_base M) = true /\ forall t, In t (concat (mc_b M)) -> treeFinite t.
