(** Vocabulary for C153: texts of model files that agree line by line. *)
From Coq Require Import Ascii String.
From Verif Require Import Base F64 Env Utils Tree Options Train Text Json.
From Coq Require Import List.
Open Scope Z_scope.

(** two lines stand for the same: both are ROUND lines or neither is, the same for CLASS lines, and as a node they read the same *)
Definition sameLine (C : Codec) (s s' : text) : Prop :=
  containsT s (tx "ROUND") = containsT s' (tx "ROUND") /\ containsT s (tx "CLASS") = containsT s' (tx "CLASS") /\ c_unnode C s = c_unnode C s'.
(** line by line; what comes after the last newline does not count *)
Inductive sameLines (C : Codec) : text -> text -> Prop :=
| sl_end a b : ~ In NL a -> ~ In NL b -> sameLines C a b
| sl_line s s' r r' : ~ In NL s -> ~ In NL s' -> sameLine C (s ++ [NL]) (s' ++ [NL]) -> sameLines C r r' -> sameLines C (s ++ NL :: r) (s' ++ NL :: r').
(** the same for a whole file, whose first line is the metadata *)
Definition sameFile (C : Codec) (f f' : text) : Prop := exists s s' r r', f = s ++ NL :: r /\ f' = s' ++ NL :: r' /\ ~ In NL s /\ ~ In NL s' /\
  c_unmeta C (s ++ [NL]) = c_unmeta C (s' ++ [NL]) /\ sameLines C r r'.
(** a line that is not a heading *)
Definition noHeading (t : text) : Prop := containsT t (tx "ROUND") = false /\ containsT t (tx "CLASS") = false.
