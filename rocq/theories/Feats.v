(** Model of the feature-importance part of tree.go and multiclass.go, and of utils/json.go's idGiver. *)
From Verif Require Import Base F64 Env Utils Tree Options Train.
Open Scope Z_scope.

(** tree.go:340-345 [Feats]: parallel slices (the mutex matters only in the machine below) *)
Record feats : Type := MkFeats { fe_xgb : bool; fe_feat : list Z; fe_gains : list f64 }.

(** tree.go:347-349 *)
Definition NewFeats (xgb : bool) : feats := MkFeats xgb [] [].

(** tree.go:353-366 [Add], called without interference *)
Definition Add (f : feats) (feature : Z) (gain : f64) : res feats :=
  let i := sliceIndex (fe_feat f) feature in
  if 0 <=? i then
    old <- idx (fe_gains f) i ;;
    g <- upd (fe_gains f) i (fadd old gain) ;;
    Ok (MkFeats (fe_xgb f) (fe_feat f) g)
  else Ok (MkFeats (fe_xgb f) (fe_feat f ++ [feature]) (fe_gains f ++ [gain])).

(** tree.go:370-372, from position [i] of the second set on *)
Fixpoint mergeLoop (f : feats) (feat2 : list Z) (gains2 : list f64) (i : Z) : res feats :=
  match feat2 with
  | [] => Ok f
  | v :: t => g <- idx gains2 i ;; f' <- Add f v g ;; mergeLoop f' t gains2 (i + 1)
  end.
(** tree.go:369-373 [Merge] of another set *)
Definition Merge (f f2 : feats) : res feats := mergeLoop f (fe_feat f2) (fe_gains f2) 0.
(** tree.go:369-373 [f.Merge(f)]: the features are ranged over as they were, the gains are read as they are *)
Fixpoint selfLoop (f : feats) (feat2 : list Z) (i : Z) : res feats :=
  match feat2 with
  | [] => Ok f
  | v :: t => g <- idx (fe_gains f) i ;; f' <- Add f v g ;; selfLoop f' t (i + 1)
  end.
Definition MergeSelf (f : feats) : res feats := selfLoop f (fe_feat f) 0.

(** tree.go:377-383 [Less], on (feature, gain) pairs *)
Definition featLess (xgb : bool) (a b : Z * f64) : bool :=
  if xgb then fltb (snd b) (snd a) else fltb (snd a) (snd b).
(** [sort.Sort] of a [*Feats] through its Len/Less/Swap (tree.go:376-388) *)
Definition sortFeats (E : Env) (f : feats) : feats :=
  let l := e_sort E (Z * f64) (featLess (fe_xgb f)) (combine (fe_feat f) (fe_gains f)) in
  MkFeats (fe_xgb f) (map fst l) (map snd l).

(** tree.go:404-419 [Tree.FeatureImportance] with a set [g] to fill (the second argument is given) *)
Fixpoint collect (E : Env) (t : tree) (g : feats) : res feats :=
  match t with
  | Nil => Panic
  | Node d l r =>
      if t_leaf d then Ok (sortFeats E g)
      else
        g1 <- Add g (t_split d) (t_best d) ;;
        g2 <- collect E l g1 ;;
        collect E r g2
  end.
(** tree.go:404-419 without a set: [None] is the returned error *)
Definition TreeImportance (E : Env) (xgb : bool) (t : tree) : res (option feats) :=
  match t with
  | Nil => Panic
  | Node d _ _ => if t_leaf d then Ok None else g <- collect E t (NewFeats xgb) ;; Ok (Some g)
  end.
(** multiclass.go:111-122 [MultiClass.FeatureImportance]; trees called with a set never return an error *)
Definition FeatureImportance (E : Env) (M : MultiClass) : res feats :=
  foldM (fun g ens => foldM (fun g t => collect E t g) g ens) (NewFeats (mc_xgb M)) (mc_b M).

(** ** Goroutines calling [Add] on one set.
    A thread is at one of the points of tree.go:353-366. Reads of the feature slice (line 354) happen without the
    lock; they are taken to be atomic (the Go memory model does not even promise that). *)
Inductive addPc : Type :=
| AStart                 (** before slices.Index *)
| AFound (i : Z)         (** index found, before Lock *)
| AMissing               (** not found, before Lock *)
| AFoundL (i : Z)        (** holding the lock, before the addition *)
| AFoundU                (** after the addition, before Unlock *)
| AMissL                 (** holding the lock, before the first append *)
| AMissG                 (** between the two appends *)
| AMissU                 (** before Unlock *)
| ADone.
Record addThread : Type := MkAT { a_feat : Z; a_gain : f64; a_pc : addPc }.
Record addState : Type := MkAS { as_feats : feats; as_lock : bool; as_threads : list addThread }.

(** one step of a thread: new shared set, new lock, new point; [None] when it cannot move (waiting or finished) *)
Definition addStep1 (f : feats) (lock : bool) (t : addThread) : option (feats * bool * addPc) :=
  match a_pc t with
  | AStart => let i := sliceIndex (fe_feat f) (a_feat t) in Some (f, lock, if 0 <=? i then AFound i else AMissing)
  | AFound i => if lock then None else Some (f, true, AFoundL i)
  | AMissing => if lock then None else Some (f, true, AMissL)
  | AFoundL i =>
      match nth_error (fe_gains f) (Z.to_nat i) with
      | Some old => Some (MkFeats (fe_xgb f) (fe_feat f) (upd_nat (fe_gains f) (Z.to_nat i) (fadd old (a_gain t))), lock, AFoundU)
      | None => None
      end
  | AFoundU => Some (f, false, ADone)
  | AMissL => Some (MkFeats (fe_xgb f) (fe_feat f ++ [a_feat t]) (fe_gains f), lock, AMissG)
  | AMissG => Some (MkFeats (fe_xgb f) (fe_feat f) (fe_gains f ++ [a_gain t]), lock, AMissU)
  | AMissU => Some (f, false, ADone)
  | ADone => None
  end.
Definition addStep (s : addState) (n : nat) : option addState :=
  match nth_error (as_threads s) n with
  | None => None
  | Some t =>
      match addStep1 (as_feats s) (as_lock s) t with
      | None => None
      | Some (f, lk, pc) => Some (MkAS f lk (upd_nat (as_threads s) n (MkAT (a_feat t) (a_gain t) pc)))
      end
  end.
(** run a schedule (list of thread numbers); [None] if some scheduled thread could not move *)
Fixpoint addRun (s : addState) (sched : list nat) : option addState :=
  match sched with
  | [] => Some s
  | n :: rest => match addStep s n with Some s' => addRun s' rest | None => None end
  end.
(** goroutines about to add the given pairs *)
Definition addInit (f : feats) (adds : list (Z * f64)) : addState :=
  MkAS f false (map (fun p => MkAT (fst p) (snd p) AStart) adds).

(** ** Goroutines calling [idGiver.Next] (utils/json.go:35-48). *)
Inductive idPc : Type :=
| IStart | ILocked | IRead (r : Z) | IBumped (r : Z) | IDone (r : Z).
Record idState : Type := MkIS { is_current : Z; is_lock : bool; is_threads : list idPc }.
Definition idStep1 (cur : Z) (lock : bool) (p : idPc) : option (Z * bool * idPc) :=
  match p with
  | IStart => if lock then None else Some (cur, true, ILocked)
  | ILocked => Some (cur, lock, IRead (cur + 1))
  | IRead r => Some (cur + 1, lock, IBumped r)
  | IBumped r => Some (cur, false, IDone r)
  | IDone _ => None
  end.
Definition idStep (s : idState) (n : nat) : option idState :=
  match nth_error (is_threads s) n with
  | None => None
  | Some p => match idStep1 (is_current s) (is_lock s) p with
              | None => None
              | Some (c, l, p') => Some (MkIS c l (upd_nat (is_threads s) n p'))
              end
  end.
Fixpoint idRun (s : idState) (sched : list nat) : option idState :=
  match sched with
  | [] => Some s
  | n :: rest => match idStep s n with Some s' => idRun s' rest | None => None end
  end.
(** [n] goroutines about to call Next on a fresh giver *)
Definition idInit (n : nat) : idState := MkIS 0 false (repeat IStart n).
