(** Model of saving the best model of a search to a file: cv/cv.go:232-276 (rescueConcValues with writebest, writeBest), with
    os.Create and bufio.Writer. *)
From Coq Require Import Ascii String.
From Verif Require Import Base F64 Env Utils Tree Options Train Text Json CV Grid.
From Coq Require Import List.
Open Scope Z_scope.

(** the regular files of the working directory *)
Definition dir : Type := text -> option text.
Definition setFile (d : dir) (name content : text) : dir := fun n => if list_eq_dec ascii_dec n name then Some content else d n.

(** [bufio.Writer] over a file: what is in the file, what is in the buffer, whether a write has failed ([b.err]), and the
    number of writes made to the file *)
Record bufw : Type := MkBW { bw_file : text; bw_buf : text; bw_err : bool; bw_writes : nat }.
(** a write of [s] to the file: [fok k = None] if the k-th write succeeds, otherwise the number of bytes written before the
    error *)
Definition fileWrite (fok : nat -> option nat) (w : bufw) (s rest : text) : bufw :=
  match fok (bw_writes w) with
  | None => MkBW (bw_file w ++ s) rest (bw_err w) (S (bw_writes w))
  | Some m => MkBW (bw_file w ++ firstn m s) (skipn m s ++ rest) true (S (bw_writes w))
  end.
(** bufio [Flush] *)
Definition flush (fok : nat -> option nat) (w : bufw) : bufw :=
  if bw_err w then w else match bw_buf w with [] => w | b => fileWrite fok w b [] end.
(** bufio [WriteString] with a buffer of [size] bytes (4096 for bufio.NewWriter). A text that does not fit fills the buffer,
    which is flushed; a text longer than the free space of an empty buffer goes to the file directly, as *os.File has a
    WriteString method. The loop of WriteString runs at most twice. *)
Definition writeString (size : nat) (fok : nat -> option nat) (w : bufw) (s : text) : bufw * bool :=
  if bw_err w then (w, false)
  else
    let direct w s :=
      if (length s <=? size - length (bw_buf w))%nat then MkBW (bw_file w) (bw_buf w ++ s) (bw_err w) (bw_writes w)
      else fileWrite fok w s [] in
    let w' :=
      if (length s <=? size - length (bw_buf w))%nat then MkBW (bw_file w) (bw_buf w ++ s) (bw_err w) (bw_writes w)
      else match bw_buf w with
           | [] => fileWrite fok w s []
           | _ =>
               let n := (size - length (bw_buf w))%nat in
               let w1 := flush fok (MkBW (bw_file w) (bw_buf w ++ firstn n s) (bw_err w) (bw_writes w)) in
               if bw_err w1 then w1 else direct w1 (skipn n s)
           end in
    (w', negb (bw_err w')).

(** xjson.go:99-129 [JSONMultiClass] on a writer with state [W], as in Json.v where the writer is a list of the texts *)
Section Writer.
Context {W : Type} (ws : W -> text -> W * bool) (C : Codec).
Fixpoint classesTo (labels : list Z) (cn : nat) (ts : list tree) (w : W) : res (W * bool) :=
  match ts with
  | [] => Ok (w, true)
  | t :: rest =>
      lab <- idx labels (Z.of_nat cn) ;;
      let '(w1, ok1) := ws w (classLine cn lab) in
      if negb ok1 then Ok (w1, false)
      else
        ' (o, _) <- JSONTree C t 0 ;;
        match o with
        | None => Ok (w1, false)
        | Some (ls, _) =>
            let '(w2, ok2) := ws w1 (joinNL ls ++ [NL]) in
            if negb ok2 then Ok (w2, false) else classesTo labels (S cn) rest w2
        end
  end.
Fixpoint roundsTo (labels : list Z) (rn : nat) (b : list (list tree)) (w : W) : res (W * bool) :=
  match b with
  | [] => Ok (w, true)
  | ens :: rest =>
      let '(w1, ok1) := ws w (roundLine rn) in
      if negb ok1 then Ok (w1, false)
      else
        ' (w2, ok2) <- classesTo labels 0 ens w1 ;;
        if negb ok2 then Ok (w2, false) else roundsTo labels (S rn) rest w2
  end.
Definition JSONTo (M : MultiClass) (name : text) (w : W) : res (W * bool) :=
  match marshalMeta C (MkMeta (mc_lr M) (mc_labels M) name (mc_base M)) with
  | None => Ok (w, false)
  | Some j =>
      let '(w1, ok1) := ws w (j ++ [NL]) in
      if negb ok1 then Ok (w1, false) else roundsTo (mc_labels M) 0 (mc_b M) w1
  end.
End Writer.

(** cv/cv.go:262 *)
Definition modelName (acc : f64) : text := tx "xgbmodel" ++ decZ (ftoZ acc) ++ tx ".json".
(** cv/cv.go:261-276 [writeBest]: the directory afterwards, and whether a nil error is returned ([Panic] if it does not
    return). [create] tells whether os.Create succeeds; it empties a file that exists. The file contents after a panic in
    JSONMultiClass are not modelled; trained models do not cause one ([c43_trained_writable]). *)
Definition writeBest {K} (size : nat) (fok : nat -> option nat) (create : bool) (C : Codec) (E : Env) (rnd : draws)
    (D : DataBunch K) (acc : f64) (op : Options) (d : dir) : dir * res bool :=
  let name := modelName acc in
  if negb create then (d, Ok false)
  else
    match NewMultiClass E rnd D op with
    | Ok tr =>
        match JSONTo (writeString size fok) C (tr_model tr) (tx "softmax") (MkBW [] [] false 0) with
        | Ok (w, true) => (setFile d name (bw_file (flush fok w)), Ok true)
        | Ok (w, false) => (setFile d name (bw_file w), Ok false)
        | Panic => (setFile d name [], Panic)
        | Diverge => (setFile d name [], Diverge)
        end
    | Panic => (setFile d name [], Panic)
    | Diverge => (setFile d name [], Diverge)
    end.

(** cv/cv.go:232-259 [rescueConcValues] with [writebest]: [save] is writeBest, whose error is ignored; a panic of
    writeBest ends the program. The options are not changed by the training in writeBest (see
    [save_keeps_options] in SaveProofs.v). *)
Fixpoint rescueSaving (save : nat -> f64 -> option Options -> dir -> dir * res bool) (k : nat) (sent : list (list cvSend)) (bestacc : f64)
    (bestop : option Options) (d : dir) : dir * res ((f64 * option Options) + unit) :=
  match sent with
  | [] => (d, Ok (inl (bestacc, bestop)))
  | s :: rest =>
      match s with
      | SErr true :: _ => (d, Ok (inr tt))
      | SErr false :: SAcc a :: more =>
          if fltb a fzero then (d, Ok (inr tt))
          else match more with
               | SOpt op :: _ =>
                   if fltb bestacc a then
                     match save k a op d with
                     | (d', Ok _) => rescueSaving save (S k) rest a op d'
                     | (d', Panic) => (d', Panic)
                     | (d', Diverge) => (d', Diverge)
                     end
                   else rescueSaving save (S k) rest bestacc bestop d
               | _ => (d, Diverge)
               end
      | _ => (d, Diverge)
      end
  end.

(** cv/cv.go:206-217 with [o.WriteBest]; the saves are numbered by the combination *)
Definition gridBodySaving (save : nat -> f64 -> option Options -> dir -> dir * res bool) (ncpus : Z) (eval : nat -> Options -> res cvRet)
    (t : Options) (sd : gstate * dir) : res ((gstate * dir) + (gridRet * dir)) :=
  let '(s, d) := sd in
  let cpus := Z.of_nat (length (gs_pending s)) in
  if ncpus <=? cpus then Panic
  else
    let pending := gs_pending s ++ [(length (gs_spawned s), t)] in
    let spawned := gs_spawned s ++ [t] in
    if cpus + 1 =? ncpus then
      rets <- mapM (fun p => eval (fst p) (snd p)) pending ;;
      let '(d', rr) := rescueSaving save (length (gs_spawned s) - length (gs_pending s)) (map cv_sent rets) (gs_best s) (gs_final s) d in
      r <- rr ;;
      match r with
      | inl (b, f) => Ok (inl (MkGS [] b f spawned, d'))
      | inr _ => Ok (inr (MkGR (fofZ (-1)) [] None true spawned, d'))
      end
    else Ok (inl (MkGS pending (gs_best s) (gs_final s) spawned, d)).
(** cv/cv.go:158-229 [Grid] with [o.WriteBest], started in the directory [d] *)
Definition GridSaving (save : nat -> f64 -> option Options -> dir -> dir * res bool) (fuel : nat) (id : Z) (eval : nat -> Options -> res cvRet)
    (o : GridOptions) (d : dir) : res (gridRet * dir) :=
  if g_ncpus o <? 0 then Panic
  else
    r <- forZ fuel (g_rounds o) (fun rounds =>
         forF fuel (g_mcw o) (fun cw =>
         forZ fuel (g_maxdepth o) (fun md =>
         forF fuel (g_css o) (fun css =>
         forF fuel (g_lr o) (fun lr =>
         forF fuel (g_lambda o) (fun lam =>
         forF fuel (g_gamma o) (fun gam =>
         forF fuel (g_ss o) (fun ss =>
           gridBodySaving save (g_ncpus o) eval (gridPoint id o rounds cw md css lr lam gam ss)))))))))
         (MkGS [] fzero None [], d) ;;
    match r with
    | inl (s, d') => Ok (MkGR (gs_best s) [] (gs_final s) false (gs_spawned s), d')
    | inr e => Ok e
    end.
