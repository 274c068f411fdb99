(** Specification vocabulary for saved models. *)
From Coq Require Import Ascii String.
From Verif Require Import Base F64 Env Utils Tree Options Train Text Json SpecJson CV Grid Grad Save.
From Coq Require Import List.
Open Scope Z_scope.

(** the complete text of a model that can be written *)
Definition modelText (C : Codec) (M : MultiClass) (s : text) : Prop :=
  exists out, JSONMultiClass C M (tx "softmax") (fun _ => true) = Ok (out, true) /\ s = concat out.
(** what can be written of a model before its first number that is not finite *)
Definition writablePart (C : Codec) (M : MultiClass) (s : text) : Prop :=
  exists out ok, JSONMultiClass C M (tx "softmax") (fun _ => true) = Ok (out, ok) /\ s = concat out.
(** the results that beat all before them, with their positions counted from [k], where [b] is the best to begin with *)
Fixpoint records (k : nat) (b : f64) (l : list (f64 * option Options)) : list (nat * f64 * option Options) :=
  match l with
  | [] => []
  | (a, op) :: t => if fltb b a then (k, a, op) :: records (S k) a t else records (S k) b t
  end.
(** a save that returns has written the text [T] to the file of the accuracy *)
Definition savesText (T : nat -> f64 -> option Options -> text) (save : nat -> f64 -> option Options -> dir -> dir * res bool) : Prop :=
  forall k a op d d' ok, save k a op d = (d', Ok ok) -> d' = setFile d (modelName a) (T k a op).
(** writeBest as a save, with its own draws and file writes for each combination *)
Definition saveOf {K} (size : nat) (fok : nat -> nat -> option nat) (C : Codec) (E : Env) (rnd : nat -> draws) (D : DataBunch K) (id : Z)
    (k : nat) (a : f64) (op : option Options) (d : dir) : dir * res bool :=
  writeBest size (fok k) true C E (rnd k) D a (match op with Some o => o | None => DefaultXOptions id end) d.
(** cross-validations leave options whose MinChildWeight is not below 1 *)
Definition cvRaises (cv : nat -> Options -> res cvRet) : Prop :=
  forall k o r, cv k o = Ok r -> cv_err r = false -> exists o', cv_opts r = Some o' /\ fltb (o_mcw o') fone = false.
(** what a gradient search that returns [r] and saves its best models has done to the files: a file has not changed, or it holds
    the text saved after one of the evaluations with a positive accuracy, named after that accuracy; without an error the model of
    the best accuracy is there *)
Definition searchFiles (T : nat -> f64 -> option Options -> text) (r : ggRet) (d d' : dir) : Prop :=
  (forall n, d' n = d n \/ exists k o o' a, nth_error (gg_evals r) k = Some (o, o', a) /\ n = modelName a /\ fltb fzero a = true /\
     (gg_err r = false -> fleb a (gg_acc r) = true) /\ d' n = Some (T k a (Some o'))) /\
  (gg_err r = false -> gg_accuracies r = [] -> forall n, d' n = d n) /\
  (gg_err r = false -> gg_accuracies r <> [] -> exists k o o', nth_error (gg_evals r) k = Some (o, o', gg_acc r) /\
     d' (modelName (gg_acc r)) = Some (T k (gg_acc r) (Some o'))).
