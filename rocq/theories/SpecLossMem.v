(** Specification vocabulary for destinations of losses and activations (C156). *)
From Verif Require Import Base F64 Env Utils LossMem.
Open Scope Z_scope.

(** the slice lies in its array *)
Definition inside (h : mem) (s : slice) : Prop := (snd (sl_at s) + sl_len s <= length (arr h (fst (sl_at s))))%nat.
(** the two slices start at the same place or are in different arrays *)
Definition apart (p q : slice) : Prop := sl_at p = sl_at q \/ fst (sl_at p) <> fst (sl_at q).
(** only the first [n] cells of [q] may differ *)
Definition onlyFirst (h h' : mem) (q : slice) (n : nat) : Prop :=
  length h' = length h /\
  (forall r, length (arr h' r) = length (arr h r)) /\
  forall r k, ~ (r = fst (sl_at q) /\ (snd (sl_at q) <= k < snd (sl_at q) + n)%nat) -> nth_error (arr h' r) k = nth_error (arr h r) k.
(** the matrix is in memory *)
Definition stored (h : mem) (m : matM) : Prop := (m_at m < length h)%nat /\ length (arr h (m_at m)) = entries m.
Definition shaped (a b : matM) : Prop := m_r a = m_r b /\ m_c a = m_c b.
(** what is returned is the destination, or a new matrix shaped like [like] when it was nil *)
Definition returned (h h' : mem) (like : matM) (d : option matM) (g : matM) : Prop :=
  match d with
  | Some d => g = d /\ length h' = length h
  | None => m_at g = length h /\ length h' = S (length h) /\ shaped g like
  end /\ stored h' g.
(** the arrays that were there, except the one of [g] *)
Definition othersKept (h h' : mem) (g : matM) : Prop := forall r, (r < length h)%nat -> r <> m_at g -> arr h' r = arr h r.
