(** The Confusions of confu/confu.go with all their slices in one memory, the labels of the data among them, so that writes of a
    program to its own slices, to exported fields and to a returned matrix can be followed. Confu.v has the same functions with
    the fields as values. *)
From Verif Require Import Base F64 Env Utils Tree Options Train Text Confu.
From Coq Require Import List.
Open Scope Z_scope.

(** confu/confu.go:66-75 [Confusions]: positions of arrays in the memory. The rows of the matrix are arrays; replacing a whole
    row of the outer slice, or a whole field, is not modelled. *)
Record ConfH : Type := MkCH {
  ch_actual : nat;
  ch_predicted : nat;
  ch_labels : nat;
  ch_matrix : option (list nat);
  ch_tmpvals : option slice;
  ch_tmpindx : option slice;
  ch_m : list (Z * Z)
}.
(** the values behind the slices *)
Definition valC (h : heap) (C : ConfH) : Confusions :=
  MkCf (block h (ch_actual C)) (block h (ch_predicted C)) (block h (ch_labels C)) (option_map (map (block h)) (ch_matrix C))
       (ch_tmpvals C) (ch_tmpindx C) (ch_m C).
(** confu.go:77-93 [MCConfusions]: [Actual] is the slice of the data's labels, at [p]; the labels of the model come as a copy *)
Definition MCConfusionsH {K} (h : heap) (M : MultiClass) (D : DataBunch K) (p : nat) : res (heap * ConfH) :=
  C <- MCConfusions M (MkData (Data D) (Keys D) (block h p)) ;;
  Ok (h ++ [cf_labels C; cf_predicted C], MkCH p (S (length h)) (length h) None None None (cf_m C)).
(** confu.go:95-118 [Matrix]; result: the rows of the returned matrix *)
Definition MatrixH (h : heap) (C : ConfH) : res (heap * list nat * ConfH) :=
  match ch_matrix C with
  | Some rows => Ok (h, rows, C)
  | None =>
      ' (m, _) <- Matrix (valC h C) ;;
      let rows := seq (length h) (length m) in
      Ok (h ++ m, rows, MkCH (ch_actual C) (ch_predicted C) (ch_labels C) (Some rows) (ch_tmpvals C) (ch_tmpindx C) (ch_m C))
  end.
(** confu.go:170-209 [TopNForLabelM]: the matrix first, then as in Confu.v on the values as they are now *)
Definition TopNH (E : Env) (h : heap) (C : ConfH) (N M : Z) (docopy : bool) : res (option (slice * slice) * ConfH * heap) :=
  ' (h1, rows, C1) <- MatrixH h C ;;
  ' (r, C2, h2) <- TopNForLabelM E (valC h1 C1) h1 N M docopy ;;
  Ok (r, MkCH (ch_actual C1) (ch_predicted C1) (ch_labels C1) (ch_matrix C1) (cf_tmpvals C2) (cf_tmpindx C2) (ch_m C1), h2).
