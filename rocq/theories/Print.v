(** Model of the functions that describe trees, feature sets, options and matrices as text: tree.go:300-336 and
    390-401, options.go:138-146, utils/math.go:92-101. *)
From Coq Require Import Ascii String.
From Flocq Require Import IEEE754.BinarySingleNaN.
From Verif Require Import Base F64 Env Utils Tree Options Train Text Confu Readers Feats.
From Coq Require Import List.
Open Scope Z_scope.

(** the decimal text with three decimals of [n]/1000 *)
Definition fixed3 (neg : bool) (n : Z) : text :=
  (if neg then tx "-" else []) ++ decZ (n / 1000) ++ tx "." ++ (let s := decZ (n mod 1000) in repeat "0"%char (3 - length s) ++ s).
(** the absolute value of a finite float times 1000, rounded *)
Definition thousands (x : f64) : Z :=
  match x with
  | B754_finite _ m e _ => if 0 <=? e then Z.pos m * 2 ^ e * 1000 else divRNE (Z.pos m * 1000) (2 ^ (- e))
  | _ => 0
  end.
(** [fmt.Sprintf("%.3f", x)] *)
Definition fmt3 (x : f64) : text :=
  match x with
  | B754_nan => tx "NaN"
  | B754_infinity s => if s then tx "-Inf" else tx "+Inf"
  | _ => fixed3 (Bsign x) (thousands x)
  end.
(** [%d] or [%v] of a slice, given the texts of the elements *)
Definition listText (l : list text) : text := tx "[" ++ joinT l (tx " ") ++ tx "]".

(** tree.go:300-305 [feature]; [None] is a nil slice of names *)
Definition feature (names : option (list text)) (f : Z) : res text :=
  match names with
  | None => if 0 <=? f then Ok (padL 2 (decZ f)) else Panic
  | Some ns => idx ns f
  end.
(** tree.go:310-336 [Print]. The field printed as the number of samples is the slice of the sample indexes. *)
Fixpoint PrintTree (names : option (list text)) (spacing : text) (t : tree) : res text :=
  match t with
  | Nil => Panic
  | Node d l r =>
      if t_leaf d then
        Ok (tx "  " ++ spacing ++ tx "PREDICT    " ++ fmt3 (t_value d) ++ tx " with " ++ listText (map decZ (orNil (t_samples d))) ++ tx " Samples" ++ [NL])
      else
        f <- feature names (t_split d) ;;
        tl <- PrintTree names (spacing ++ tx "  ") l ;;
        tr <- PrintTree names (spacing ++ tx "  ") r ;;
        Ok (spacing ++ tx "Feature " ++ f ++ tx " < " ++ fmt3 (t_thr d) ++ [NL] ++
            spacing ++ tx "---> True" ++ [NL] ++ tl ++ spacing ++ tx "---> False" ++ [NL] ++ tr)
  end.

(** tree.go:397-399, from position [i] on *)
Fixpoint featLines (i : Z) (feat : list Z) (gains : list f64) : res (list text) :=
  match feat with
  | [] => Ok []
  | v :: t =>
      g <- idx gains i ;;
      rest <- featLines (i + 1) t gains ;;
      Ok ((decZ (i + 1) ++ tx " Feature " ++ decZ v ++ tx " with score: " ++ fmt3 g) :: rest)
  end.
(** tree.go:390-401 [String] of a feature set *)
Definition StringFeats (f : feats) : res text :=
  ls <- featLines 0 (fe_feat f) (fe_gains f) ;;
  Ok (joinT ((tx "Feature Importance in descending order, for " ++ (if fe_xgb f then tx "xgboost" else tx "gradient boosting") ++ tx ":") :: ls) [NL]).

(** options.go:138-146 [String] *)
Definition StringOptions (O : Options) : text :=
  if o_xgb O then
    tx "xgboost " ++ decZ (o_rounds O) ++ tx " r/" ++ decZ (o_maxdepth O) ++ tx " md/" ++ fmt3 (o_lr O) ++ tx " lr/" ++ fmt3 (o_ss O) ++ tx " ss/" ++
    fmt3 (o_base O) ++ tx " bs/" ++ fmt3 (o_gamma O) ++ tx " gam/" ++ fmt3 (o_lambda O) ++ tx " lam/" ++ fmt3 (o_mcw O) ++ tx " mcw/" ++ fmt3 (o_css O) ++ tx " css"
  else
    tx "gboost " ++ decZ (o_rounds O) ++ tx " r/" ++ decZ (o_maxdepth O) ++ tx " md/" ++ fmt3 (o_lr O) ++ tx " lr/" ++ fmt3 (o_mcw O) ++ tx " mcw".

(** utils/math.go:92-101 [PrintDenseMatrix]; [fv] is the [%v] format of a float64 *)
Definition PrintDenseMatrix (fv : f64 -> text) (m : dense) : res text :=
  let rows := map (fun i => listText (map fv (rowView m i))) (seq 0 (d_r m)) in
  r0 <- idx rows 0 ;;
  rows1 <- upd rows 0 (tx "[" ++ r0) ;;
  rl <- idx rows1 (Z.of_nat (length rows1) - 1) ;;
  rows2 <- upd rows1 (Z.of_nat (length rows1) - 1) (rl ++ tx "]") ;;
  Ok (joinT rows2 [NL]).
