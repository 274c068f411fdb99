(** Concrete inputs used to show that theorem hypotheses are satisfiable, and to witness refutations. *)
From Verif Require Import Base F64 Env EnvLemmas Utils Tree Spec.
Open Scope Z_scope.

Definition fZ (z : Z) : f64 := fofZ z.
Definition mat (l : list (list Z)) : list (list f64) := map (map fZ) l.
Definition vec (l : list Z) : list f64 := map fZ l.

(** a 4 x 2 XGB problem with a tree of depth 2 *)
Definition exX : list (list f64) := mat [[0; 0]; [0; 1]; [1; 0]; [1; 1]].
Definition exO : TreeOptions :=
  MkTO true fone [] fzero fzero (Some (vec [-3; -1; 1; 3])) (Some (vec [1; 1; 1; 1])) [] None None 4 None.
(** the same with column sub-sampling to column 0 *)
Definition exOcol : TreeOptions :=
  MkTO true fone [0] fzero fzero (Some (vec [-3; -1; 1; 3])) (Some (vec [1; 1; 1; 1])) [] None None 4 None.
(** the same data as a regular boosting (non-XGB) tree *)
Definition exOg : TreeOptions :=
  MkTO false fone [] fzero fzero None None (vec [-3; -1; 1; 3]) None None 4 None.

(** two adjacent floats whose midpoint rounds up to the larger one: 1+2^-52 and 1+2^-51 *)
Definition adjA : f64 := flit (2 ^ 52 + 1) (-52).
Definition adjB : f64 := flit (2 ^ 52 + 2) (-52).
Definition adjX : list (list f64) := [[adjA]; [adjB]].
Definition adjO (md : Z) : TreeOptions :=
  MkTO true fone [] fzero fzero (Some (vec [-1; 1])) (Some (vec [1; 1])) [] None None md None.

(** boolean tests on trees, computed by [vm_compute] *)
Definition rootNotLeaf (r : res tree) : bool :=
  match r with Ok (Node d _ _) => negb (t_leaf d) | _ => false end.
Definition rootSplit (r : res tree) : option Z :=
  match r with Ok (Node d _ _) => Some (t_split d) | _ => None end.
Definition leftSplitB (r : res tree) : option (bool * Z) :=
  match r with Ok (Node _ (Node d _ _) _) => Some (t_leaf d, t_split d) | _ => None end.
Definition childSamples (r : res tree) : option (list Z * list Z) :=
  match r with Ok (Node _ (Node dl _ _) (Node dr _ _)) => Some (samplesOf dl, samplesOf dr) | _ => None end.

Lemma rootNotLeaf_ex r : rootNotLeaf r = true -> exists d l r', r = Ok (Node d l r') /\ t_leaf d = false.
Proof.
  destruct r as [[|d l r']| |]; simpl; try discriminate. intros H. apply negb_true_iff in H. eauto 6.
Qed.
Lemma is_ok_ex {A} (r : res A) : is_ok r = true -> exists a, r = Ok a.
Proof. destruct r; simpl; try discriminate; eauto. Qed.
