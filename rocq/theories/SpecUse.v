(** Specification vocabulary for what a prediction depends on. *)
From Coq Require Import String.
From Verif Require Import Base F64 Env Utils Tree Options Train Spec SpecTrain Text Json.
From Coq Require Import List.
Open Scope Z_scope.

(** the rows have the same entries (or none) at the given positions *)
Definition agreeOn (fs : list Z) (x y : list f64) : Prop := forall f v, In f fs -> (look x f v <-> look y f v).

(** the rows differ only in values that are both at most, or both not below, every value of the table in that column;
    NaN is not below anything *)
Definition differOutside (X : list (list f64)) (x y : list f64) : Prop := length x = length y /\
  forall f v w, look x f v -> look y f w -> v = w \/
    (forall i c, cell X i f c -> fleb v c = true /\ fleb w c = true) \/
    (forall i c, cell X i f c -> fltb v c = false /\ fltb w c = false).

(** the largest number of times an element occurs in a list *)
Definition mostFrequent (ls : list Z) : nat := fold_right (fun l m => Nat.max (count_occ Z.eq_dec ls l) m) O ls.
(** the labels of the rows of group [g] *)
Definition groupLabels {K} (key : list f64 -> Z) (D : DataBunch K) (g : Z) : list Z :=
  map snd (filter (fun p => key (fst p) =? g) (combine (Data D) (Labels D))).
(** the number of rows that a rule can label correctly if it gives all rows of a group the same label *)
Definition ceiling {K} (key : list f64 -> Z) (D : DataBunch K) : nat :=
  fold_right Nat.add O (map (fun g => mostFrequent (groupLabels key D g)) (nodup Z.eq_dec (map key (Data D)))).

(** [M'] is [M] after being saved and loaded [k] times *)
Inductive reloaded (C : Codec) (E : Env) : nat -> MultiClass -> MultiClass -> Prop :=
| rl_0 M : reloaded C E O M M
| rl_S k M out M1 M2 : JSONMultiClass C M (tx "softmax") (fun _ => true) = Ok (out, true) ->
    UnJSONMultiClass C E (concat out) true = Ok (Some M1) -> reloaded C E k M1 M2 -> reloaded C E (S k) M M2.

(** the exponential does not reverse the order of the numbers of the list *)
Definition keepsOrder (f : f64 -> f64) (l : list f64) : Prop :=
  forall x y, In x l -> In y l -> fleb x y = true -> fleb (f x) (f y) = true.
