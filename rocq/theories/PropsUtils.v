(** Property theorems about the utils package: C18-C23, C25-C27 (float64) and C80. *)
From Coq Require Import Reals.
From Verif Require Import Base F64 F64Lemmas Env EnvLemmas Utils Tree Spec Examples UtilsThms ActProofs RealProofs.
Open Scope Z_scope.

(** C18. [E] is any environment whose sort is a legal [sort.Sort]. *)
Theorem c18_argsort E a : EnvOk E ->
  let '(ix, v) := ArgSort E a in
  Permutation ix (iota (length a)) /\ Forall2 (look a) ix v /\
  ((forall x, In x a -> fnanb x = false) ->
     forall i j x y, (i <= j)%nat -> nth_error v i = Some x -> nth_error v j = Some y -> fleb x y = true) /\
  (forall bi bv, length bi = length a -> length bv = length a -> MemArgSort E a bi bv = Ok (ix, v)).
Proof. exact (c18_lemma E a). Qed.
Example c18_nonvacuous : EnvOk env0 /\ fst (ArgSort env0 (vec [3; 1; 2])) = [1; 2; 0].
Proof. split; [exact env0_ok|vm_compute; reflexivity]. Qed.
Print Assumptions c18_argsort.

(** C19 *)
Theorem c19_sample_slice {A} (s : list A) ix :
  (forall r, SampleSlice s ix = Ok r <-> (length ix <= length s)%nat /\ Forall2 (look s) ix r) /\
  (SampleSlice s ix = Panic <-> (length s < length ix)%nat \/ exists v, In v ix /\ ~ 0 <= v < Z.of_nat (length s)) /\
  SampleSlice s ix <> Diverge.
Proof. exact (c19_slice_lemma s ix). Qed.
Theorem c19_sample_matrix {A} (m : list (list A)) rs cs r :
  SampleMatrix m rs cs = Ok r <->
  Forall2 (fun v out => exists row, look m v row /\ (length cs <= length row)%nat /\ Forall2 (look row) cs out) rs r.
Proof. exact (c19_matrix_lemma m rs cs r). Qed.
Example c19_nonvacuous : SampleSlice [10; 20; 30] [2; 2; 0] = Ok [30; 30; 10] /\
  SampleMatrix [[1; 2]; [3; 4]] [1; 0; 1] [1] = Ok [[4]; [2]; [4]] /\ SampleSlice [10] [0; 0] = Panic.
Proof. repeat split. Qed.
Print Assumptions c19_sample_slice.
Print Assumptions c19_sample_matrix.

(** C20 *)
Theorem c20_transpose {A} (m : list (list A)) c : m <> [] -> rect m c -> (0 < c)%nat ->
  exists t, TransposeFloats m = Ok t /\ length t = c /\ rect t (length m) /\
  (forall i j x, cell m j i x <-> cell t i j x) /\
  TransposeFloats t = Ok m.
Proof. exact (c20_lemma m c). Qed.
Theorem c20_transpose_panic {A} (m : list (list A)) :
  (m = [] -> TransposeFloats m = Panic) /\
  (forall r0 rest row, m = r0 :: rest -> In row m -> (length row < length r0)%nat -> TransposeFloats m = Panic).
Proof. exact (c20_panic_lemma m). Qed.
Example c20_nonvacuous : rect [[1; 2; 3]; [4; 5; 6]] 3 /\ TransposeFloats [[1; 2; 3]; [4; 5; 6]] = Ok [[1; 4]; [2; 5]; [3; 6]].
Proof. split; [|reflexivity]. intros row [<-|[<-|[]]]; reflexivity. Qed.
Print Assumptions c20_transpose.
Print Assumptions c20_transpose_panic.

(** C21 *)
Theorem c21_densecol D : wfDense D ->
  (forall col, (col < d_c D)%nat -> exists l, DenseCol D (Z.of_nat col) = Ok l /\ length l = d_r D /\
     forall i v, nth_error l i = Some v <-> (i < d_r D)%nat /\ entry D i col v) /\
  (forall col, col < 0 \/ Z.of_nat (d_c D) < col -> DenseCol D col = Panic) /\
  (* the off-by-one in the guard *)
  (d_r D = 1%nat -> DenseCol D (Z.of_nat (d_c D)) = Panic) /\
  ((1 < d_r D)%nat -> exists l, DenseCol D (Z.of_nat (d_c D)) = Ok l /\ length l = (d_r D - 1)%nat /\
     forall i v, nth_error l i = Some v <-> (S i < d_r D)%nat /\ entry D (S i) 0 v).
Proof. exact (c21_densecol_lemma D). Qed.
Theorem c21_addtocol D s : wfDense D -> length s = d_r D ->
  (forall col, (col < d_c D)%nat -> exists D', AddToCol D s (Z.of_nat col) = Ok D' /\ d_r D' = d_r D /\ d_c D' = d_c D /\ wfDense D' /\
     (forall i v x, entry D i col v -> nth_error s i = Some x -> entry D' i col (fadd v x)) /\
     (forall i j v, j <> col -> entry D i j v <-> entry D' i j v)) /\
  (forall col, col < 0 \/ Z.of_nat (d_c D) < col -> AddToCol D s col = Panic) /\
  (* the off-by-one in the guard: entries (i+1, 0) receive s[i] *)
  (exists D', AddToCol D s (Z.of_nat (d_c D)) = Ok D' /\ d_r D' = d_r D /\ d_c D' = d_c D /\
     (forall i v x, entry D (S i) 0 v -> nth_error s i = Some x -> entry D' (S i) 0 (fadd v x)) /\
     (forall i j v, j <> O \/ i = O -> entry D i j v <-> entry D' i j v)).
Proof. exact (c21_addtocol_lemma D s). Qed.
Example c21_nonvacuous : wfDense (Dense 2 3 (vec [1; 2; 3; 4; 5; 6])) /\ length (vec [7; 8]) = 2%nat /\
  is_ok (DenseCol (Dense 2 3 (vec [1; 2; 3; 4; 5; 6])) 2) = true.
Proof. repeat split; simpl; auto; lia. Qed.
Print Assumptions c21_densecol.
Print Assumptions c21_addtocol.

(** C22 *)
Theorem c22_one_hot labels :
  (labels = [] -> oneHotEncodeDense labels = Panic) /\
  (labels <> [] -> exists D de, oneHotEncodeDense labels = Ok (D, de) /\ firstOccurrences labels de /\
     wfDense D /\ d_r D = length labels /\ d_c D = length de /\
     forall i j l w, nth_error labels i = Some l -> nth_error de j = Some w ->
       entry D i j (if w =? l then fone else fzero)).
Proof. exact (c22_lemma labels). Qed.
Example c22_nonvacuous : match oneHotEncodeDense [7; 3; 7; 9] with Ok (_, de) => de | _ => [] end = [7; 3; 9].
Proof. vm_compute. reflexivity. Qed.
Print Assumptions c22_one_hot.

(** C23: [E] ranges over every summation order and every exponential that is NaN only on NaN and never negative *)
Theorem c23_softmax_range E p q out : EnvOk E -> length q = length p -> SoftMax E p q = Ok out ->
  length out = length p /\ forall x, In x out -> fnanb x = true \/ (fleb fzero x = true /\ fleb x fone = true).
Proof. exact (c23_range_lemma E p q out). Qed.
Theorem c23_softmax_no_nan E p q out : EnvOk E -> length q = length p -> SoftMax E p q = Ok out ->
  (forall x, In x p -> ffinite (e_exp E x) = true) ->
  ffinite (e_sum E (map (e_exp E) p)) = true ->
  (exists x, In x p /\ fltb fzero (e_exp E x) = true) ->
  forall x, In x out -> fnanb x = false.
Proof. exact (c23_no_nan_lemma E p q out). Qed.
Theorem c23_softmax_overflow E p q out i x y : EnvOk E -> length q = length p -> SoftMax E p q = Ok out ->
  nth_error p i = Some x -> e_exp E x = finf -> nth_error out i = Some y -> fnanb y = true.
Proof. exact (c23_overflow_lemma E p q out i x y). Qed.
Example c23_nonvacuous : EnvOk env0 /\ is_ok (SoftMax env0 (vec [1; 2]) (vec [0; 0])) = true /\
  forallb (fun x => ffinite (e_exp env0 x)) (vec [1; 2]) = true /\
  ffinite (e_sum env0 (map (e_exp env0) (vec [1; 2]))) = true /\ fltb fzero (e_exp env0 (fZ 1)) = true.
Proof. split; [exact env0_ok|]. vm_compute. auto. Qed.
Example c23_overflow_nonvacuous : e_exp env0 finf = finf.
Proof. apply B2SF_inj. vm_compute. reflexivity. Qed.
Print Assumptions c23_softmax_range.
Print Assumptions c23_softmax_no_nan.
Print Assumptions c23_softmax_overflow.

(** C25, float64 part *)
Theorem c25_normalization_range p q out : length q = length p -> Normalization p q = Ok out ->
  (forall x, In x p -> fleb fzero x = true) ->
  length out = length p /\ forall x, In x out -> fnanb x = true \/ (fleb fzero x = true /\ fleb x fone = true).
Proof. exact (c25_float_lemma p q out). Qed.
Example c25_float_nonvacuous : is_ok (Normalization (vec [1; 3]) (vec [0; 0])) = true /\
  forallb (fleb fzero) (vec [1; 3]) = true.
Proof. vm_compute. auto. Qed.
Print Assumptions c25_normalization_range.

(** C26, float64 part *)
Theorem c26_gradients L y p : (exists id, L = SQErrLoss id \/ L = MSELoss id) -> length y = length p ->
  length (l_neg L y p) = length p /\ length (l_grad L y p) = length p /\
  forall i a b, nth_error y i = Some a -> nth_error p i = Some b ->
    nth_error (l_neg L y p) i = Some (fsub a b) /\ nth_error (l_grad L y p) i = Some (fopp (fsub a b)).
Proof. intros (id & [->| ->]); [exact (c26_lemma (SQErrLoss 0) y p (or_introl eq_refl))|exact (c26_lemma (MSELoss 0) y p (or_intror eq_refl))]. Qed.
Example c26_nonvacuous : map B2SF (l_grad (MSELoss 0) (vec [1; 0]) (vec [3; 5])) = map B2SF (vec [2; 5]).
Proof. vm_compute. reflexivity. Qed.
Print Assumptions c26_gradients.

(** C27, float64 part *)
Theorem c27_loss_nonneg L y p : (exists id, L = SQErrLoss id \/ L = MSELoss id) ->
  fnanb (l_loss L y p) = true \/ fleb fzero (l_loss L y p) = true.
Proof. intros (id & [->| ->]); [exact (c27_loss_lemma (SQErrLoss 0) y p (or_introl eq_refl))|exact (c27_loss_lemma (MSELoss 0) y p (or_intror eq_refl))]. Qed.
Theorem c27_sq_hessian id p : l_hess (SQErrLoss id) p = repeat fone (length p).
Proof. exact (c27_sq_lemma p). Qed.
Theorem c27_mse_hessian id p : (forall v, In v p -> fleb fzero v = true /\ fleb v fone = true) ->
  length (l_hess (MSELoss id) p) = length p /\
  forall h, In h (l_hess (MSELoss id) p) -> fleb fzero h = true /\ fleb h fone = true.
Proof. exact (c27_mse_lemma p). Qed.
Example c27_nonvacuous : forallb (fun v => fleb fzero v && fleb v fone) [fzero; fhalf; fone] = true /\
  fltb fzero (l_loss (MSELoss 0) (vec [1]) (vec [3])) = true.
Proof. vm_compute. auto. Qed.
Print Assumptions c27_loss_nonneg.
Print Assumptions c27_sq_hessian.
Print Assumptions c27_mse_hessian.

(** C80: the input is an immutable value of the model, so only the destination needs a statement *)
Theorem c80_softmax_dense E O D : wfDense O -> (forall d, D = Some d -> wfDense d /\ d_r d = d_r O /\ d_c d = d_c O) ->
  exists D', SoftMaxDense E O D = Ok D' /\ wfDense D' /\ d_r D' = d_r O /\ d_c D' = d_c O /\
  forall k, (k < d_r O)%nat -> SoftMax E (rowView O k) (repeat fzero (d_c O)) = Ok (rowView D' k).
Proof. exact (c80_lemma E O D). Qed.
Example c80_nonvacuous : wfDense (Dense 2 2 (vec [1; 2; 3; 4])) /\
  is_ok (SoftMaxDense env0 (Dense 2 2 (vec [1; 2; 3; 4])) (Some (Dense 2 2 (vec [9; 9; 9; 9])))) = true.
Proof. split; [repeat split; simpl; lia|vm_compute; reflexivity]. Qed.
Print Assumptions c80_softmax_dense.
