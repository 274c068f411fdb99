(** The goroutines of GradStep, cv/grad.go:173-203 with a nil output channel. *)
From Verif Require Import Base F64 Env Utils Tree Options Train CV Grid Grad.
Open Scope Z_scope.

Section Machine.
(** [acts p o]: what the step of parameter [p] does after reading the option record when its contents are [o] *)
Context (acts : param -> Options -> res (list act)).

(** a goroutine running ParamaterGradStep: not yet past [O := Op.Clone()] (cv/grad.go:77), or with the record it allocated and
    the given actions ahead; [src] is ghost, the contents of the shared record when it was read *)
Inductive pw : Type := PStart | PRun (src obj0 : Options) (l : list act).
(** the goroutine of GradStep: about to receive for the first of the listed parameters, holding the received record (the first
    record of the goroutine of [p], or another one with the given contents), or returned (cv/grad.go:192-201) *)
Inductive gmain : Type := GRecv (l : list param) | GRead (p : param) (v : option Options) (l : list param) | GDone.
Record gst : Type := MkG { m_main : gmain; m_O : Options; m_ws : param -> pw }.

Definition setw (ws : param -> pw) (p : param) (w : pw) : param -> pw := fun q => if param_eq_dec q p then w else ws q.
(** the goroutines are started before the first receive (cv/grad.go:189-191); they can be slow to run *)
Definition ginit (O : Options) : gst := MkG (GRecv gradOrder) O (fun _ => PStart).

Inductive gstep : gst -> gst -> Prop :=
(** the shared record is read as a whole *)
| gs_read m O ws p l : In p gradOrder -> ws p = PStart -> acts p O = Ok l -> gstep (MkG m O ws) (MkG m O (setw ws p (PRun O (Clone O) l)))
(** the first change of the own record (cv/grad.go:144-160) *)
| gs_mut m O ws p src o v l : ws p = PRun src o (AMut v :: l) -> gstep (MkG m O ws) (MkG m O (setw ws p (PRun src v l)))
(** a send and its receive *)
| gs_recv0 O ws p more src o l : ws p = PRun src o (ASend0 :: l) -> gstep (MkG (GRecv (p :: more)) O ws) (MkG (GRead p None more) O (setw ws p (PRun src o l)))
| gs_recvV O ws p more src o v l : ws p = PRun src o (ASendV v :: l) ->
    gstep (MkG (GRecv (p :: more)) O ws) (MkG (GRead p (Some v) more) O (setw ws p (PRun src o l)))
(** reading the parameter of the received record and writing it to the shared record *)
| gs_copy O ws p v more src o l : ws p = PRun src o l ->
    gstep (MkG (GRead p v more) O ws) (MkG (match more with [] => GDone | _ => GRecv more end) (copyParam p (match v with Some x => x | None => o end) O) ws).
Inductive gsteps : gst -> gst -> Prop :=
| gs_refl s : gsteps s s
| gs_more s s1 s2 : gsteps s s1 -> gstep s1 s2 -> gsteps s s2.
End Machine.

(** the actions of the parameter steps started by GradStep *)
Definition stepActs (fuel : nat) (evs : param -> bool -> Options -> res cvRet) (co : GridOptions) (step fd curr : f64) (central : bool) (p : param) (o : Options)
  : res (list act) := gradActs fuel (evs p) co p step fd curr central o.
(** the goroutine has ended *)
Definition ended (w : pw) : Prop := match w with PRun _ _ [] => True | _ => False end.
(** the goroutine sends its own record before it changes it: its lowered options did not pass Check, or a cross-validation failed *)
Definition early (w : pw) : Prop := match w with PRun _ _ (ASend0 :: _) => True | _ => False end.
