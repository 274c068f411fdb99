(** The sampler of utils/stat.go with the rows as slices: a row is a position in a list of arrays, so that sharing a row and copying
    it are different. CV.v has the same functions on values. *)
From Verif Require Import Base F64 Env Utils Tree Options Train CV.
Open Scope Z_scope.

(** the arrays behind the rows; allocating adds one at the end *)
Definition rowHeap : Type := list (list f64).
(** utils/libsvm.go:18-23 DataBunch (without FloatLabels, which nothing here uses): the rows are slices of float64, the labels and the keys are values. A row is a whole array:
    slices that share part of an array are not modelled. *)
Record hdata (K : Type) : Type := MkHD { hd_rows : list nat; hd_keys : list K; hd_labels : list Z }.
Arguments MkHD {K}. Arguments hd_rows {K}. Arguments hd_keys {K}. Arguments hd_labels {K}.

(** utils/stat.go:30-42, the loop of [fillDataBunch] *)
Fixpoint fillRowsH {K} (docopy : bool) (h : rowHeap) (ori : hdata K) (toadd : list Z) : res (rowHeap * (list nat * list Z)) :=
  match toadd with
  | [] => Ok (h, ([], []))
  | v :: rest =>
      p <- idx (hd_rows ori) v ;;
      row <- idx h (Z.of_nat p) ;;
      let '(add, h1) := if docopy : bool then (length h, h ++ [row]) else (p, h) in
      lab <- (if v <? Z.of_nat (length (hd_labels ori)) then l <- idx (hd_labels ori) v ;; Ok [l] else Ok []) ;;
      ' (h2, (rows, labs)) <- fillRowsH docopy h1 ori rest ;;
      Ok (h2, (add :: rows, lab ++ labs))
  end.
(** utils/stat.go:26-53 [fillDataBunch] on a new [dest]: its Keys are empty, so they stay empty (line 43) *)
Definition fillDataBunchH {K} (docopy : bool) (h : rowHeap) (ori : hdata K) (toadd : list Z) : res (rowHeap * hdata K) :=
  ' (h1, (rows, labs)) <- fillRowsH docopy h ori toadd ;; Ok (h1, MkHD rows [] labs).

(** the closure of utils/stat.go:97-117. The folds and the number of folds come from [CrossValidationSamples]; [hs_data] is the
    caller's data, whose fields are not reassigned between the calls. *)
Record samplerH (K : Type) : Type := MkSH { sh_data : hdata K; sh_folds : list (list Z); sh_nf : nat; sh_calls : nat; sh_copy : bool }.
Arguments MkSH {K}. Arguments sh_data {K}. Arguments sh_folds {K}. Arguments sh_nf {K}. Arguments sh_calls {K}. Arguments sh_copy {K}.
Definition callSamplerH {K} (h : rowHeap) (s : samplerH K) : res (rowHeap * option (hdata K * hdata K) * samplerH K) :=
  if Nat.leb (sh_nf s) (sh_calls s) then Ok (h, None, s)
  else
    testix <- idx (sh_folds s) (Z.of_nat (sh_calls s)) ;;
    ' (h1, test) <- fillDataBunchH (sh_copy s) h (sh_data s) testix ;;
    ' (h2, train) <- fillDataBunchH (sh_copy s) h1 (sh_data s) (othersFrom 0 (sh_calls s) (sh_folds s)) ;;
    Ok (h2, Some (train, test), MkSH (sh_data s) (sh_folds s) (sh_nf s) (S (sh_calls s)) (sh_copy s)).
(** utils/stat.go:59-119 [CrossValidationSamples]: the number of rows is all it looks at; [usecopies] is the optional argument *)
Definition CrossValidationSamplesH {K} (fuel : nat) (ints : nat -> Z) (h : rowHeap) (D : hdata K) (nfold : Z) (usecopies : option bool)
  : res (nat * option (samplerH K) * bool) :=
  let docopy := match usecopies with Some b => b | None => false end in
  ' (ns, e) <- CrossValidationSamples fuel ints (MkData (map (fun _ => []) (hd_rows D)) (hd_keys D) (hd_labels D)) nfold ;;
  Ok (fst ns, option_map (fun s => MkSH D (sp_folds s) (sp_nf s) (sp_calls s) docopy) (snd ns), e).
