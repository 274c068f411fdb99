(** Vocabulary of C148: data whose number of labels is not the number of rows. *)
From Verif Require Import Base F64 Utils.
Open Scope Z_scope.

(** the same rows, with labels added at the end *)
Definition moreLabels {K} (D : DataBunch K) (S : list Z) : DataBunch K := MkData (Data D) (Keys D) (Labels D ++ S).
(** [a] begins with [b] *)
Definition begins {A} (a b : list A) : Prop := exists t, a = b ++ t.
(** a loss whose gradients and second derivatives are computed row by row *)
Definition rowwise (L : LossFunc) : Prop :=
  (forall y p y' p', length y = length p -> begins (l_grad L (y ++ y') (p ++ p')) (l_grad L y p) /\ begins (l_neg L (y ++ y') (p ++ p')) (l_neg L y p)) /\
  (forall p p', begins (l_hess L (p ++ p')) (l_hess L p)).
