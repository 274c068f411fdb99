(** Vocabulary for C154. *)
From Verif Require Import Base F64 Env Utils Tree Options Train Text Confu SpecConfu ConfuShare.
From Coq Require Import List.
Open Scope Z_scope.

(** a call of the library *)
Inductive hcall (E : Env) : heap * ConfH -> heap * ConfH -> Prop :=
| hc_matrix h C h' rows C' : MatrixH h C = Ok (h', rows, C') -> hcall E (h, C) (h', C')
| hc_top h C N M dc r C' h' : TopNH E h C N M dc = Ok (r, C', h') -> hcall E (h, C) (h', C').
(** calls, allocations, and writes of the program to any array for which [may] holds *)
Inductive hreach (E : Env) (may : nat -> Prop) : heap * ConfH -> heap * ConfH -> Prop :=
| hr_refl s : hreach E may s s
| hr_call s1 s2 s3 : hreach E may s1 s2 -> hcall E s2 s3 -> hreach E may s1 s3
| hr_alloc s1 h C l : hreach E may s1 (h, C) -> hreach E may s1 (h ++ [l], C)
| hr_write s1 h C b l : hreach E may s1 (h, C) -> may b -> length l = length (block h b) -> hreach E may s1 (write h b l, C).
Definition anywhere (b : nat) : Prop := True.
(** the arrays of the two buffers *)
Definition isTmp (C : ConfH) (b : nat) : Prop := (exists s, ch_tmpvals C = Some s /\ sl_blk s = b) \/ (exists s, ch_tmpindx C = Some s /\ sl_blk s = b).
