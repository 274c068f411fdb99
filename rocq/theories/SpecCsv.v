(** Specification vocabulary for CSV files with quoted fields. *)
From Coq Require Import Ascii String.
From Flocq Require Import IEEE754.BinarySingleNaN.
From Verif Require Import Base F64 Env Utils Text Confu Readers SpecReaders.
From Coq Require Import List.
Open Scope Z_scope.

(** a field between quotes, its own quotes doubled (RFC 4180) *)
Definition doubled (f : text) : text := flat_map (fun c => if Ascii.eqb c """" then [c; c] else [c]) f.
Definition quoteField (f : text) : text := """"%char :: doubled f ++ [""""%char].
(** no carriage return just before a line end *)
Definition noCRLF (f : text) : Prop := forall a b, f <> a ++ "013"%char :: NL :: b.
(** [raw] is a way of writing the field [v]: as it is, if that can be done, or between quotes; white space before it does
    not count *)
Definition cell (sep raw v : text) : Prop :=
  (exists c, sep = [c] /\ byteOf c < 128 /\ csvKey c raw /\ unindented raw v) \/
  (exists b, blank b /\ ~ In NL b /\ ~ In "013"%char b /\ raw = b ++ quoteField v /\ noCRLF v).
(** the text of a file *)
Definition csvFile (sep : text) (recs : list (list text)) : text := joinT (map (fun rec => joinT rec sep) recs) [NL].
(** the line of a row *)
Definition rowLine (sep : text) (lab : Z) (row : list f64) : text := joinT (decZ lab :: map fmtF row) sep.
(** all rows are of one length *)
Definition sameLengths (D : DataBunch text) : Prop := forall r r', In r (Data D) -> In r' (Data D) -> length r = length r'.
(** no quote or line end in a key *)
Definition noEscapes (k : text) : Prop := ~ In NL k /\ ~ In "013"%char k /\ ~ In """"%char k.
Definition noCR (D : DataBunch text) : Prop := Forall (fun k => ~ In "013"%char k) (Keys D).
