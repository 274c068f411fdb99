(** GradStep with or without an output channel, cv/grad.go:173-203, from its first line to its return. GradConc.v has the part
    between the start of the goroutines and the last receive. *)
From Verif Require Import Base F64 Env Utils Tree Options Train CV Grid Grad GradConc.
Open Scope Z_scope.

(** where the goroutine of GradStep is: before the cross-validation of the options (cv/grad.go:178), with the goroutines of
    the parameters started ([ret]: the record it has returned, if it has), or returned because of an error *)
Inductive zphase : Type := ZBegin | ZRun (curr : f64) (m : gmain) (ws : param -> pw) (ret : option nat) | ZErr (ret : nat).
(** the option records ([z_heap]; a pointer is a position, the caller's record is at 0), the variable O of GradStep, and the
    pointers sent to [out] so far *)
Record zst : Type := MkZ { z_heap : list Options; z_O : nat; z_ph : zphase; z_sent : list nat }.
(** cv/grad.go:174-177: [out] tells whether the channel is not nil *)
Definition zinit (out : bool) (Ori : Options) : zst :=
  if out then MkZ [Ori; Clone Ori] 1 ZBegin [] else MkZ [Ori] 0 ZBegin [].
(** the pointer GradStep has returned *)
Definition z_ret (s : zst) : option nat := match z_ph s with ZBegin => None | ZRun _ _ _ r => r | ZErr p => Some p end.

Section Machine.
Context (fuel : nat) (evc : Options -> res cvRet) (evs : param -> bool -> Options -> res cvRet) (co : GridOptions)
        (step fd : f64) (central out : bool).
Inductive zstep : zst -> zst -> Prop :=
(** cv/grad.go:179-186; the cross-validation of the options can write to the record; [return Ori] *)
| zs_fail h p o o' sent : nth_error h p = Some o -> gradBegin evc central o = Ok (inr o') ->
    zstep (MkZ h p ZBegin sent) (MkZ (upd_nat h p o') p (ZErr 0) sent)
(** cv/grad.go:179-191 *)
| zs_go h p o curr o' sent : nth_error h p = Some o -> gradBegin evc central o = Ok (inl (curr, o')) ->
    zstep (MkZ h p ZBegin sent) (MkZ (upd_nat h p o') p (ZRun curr (GRecv gradOrder) (fun _ => PStart) None) sent)
(** cv/grad.go:192-197 and the goroutines of the parameters, which can go on when GradStep has returned *)
| zs_run h p o curr m ws m' o' ws' ret sent : nth_error h p = Some o ->
    gstep (stepActs fuel evs co step fd curr central) (MkG m o ws) (MkG m' o' ws') ->
    zstep (MkZ h p (ZRun curr m ws ret) sent) (MkZ (upd_nat h p o') p (ZRun curr m' ws' ret) sent)
(** cv/grad.go:198-201: a reader takes the record from [out], then GradStep returns *)
| zs_send h p curr ws sent : out = true ->
    zstep (MkZ h p (ZRun curr GDone ws None) sent) (MkZ h p (ZRun curr GDone ws (Some p)) (sent ++ [p]))
(** cv/grad.go:201 *)
| zs_return h p curr ws sent : out = false ->
    zstep (MkZ h p (ZRun curr GDone ws None) sent) (MkZ h p (ZRun curr GDone ws (Some p)) sent).
Inductive zsteps : zst -> zst -> Prop :=
| zs_refl s : zsteps s s
| zs_more s s1 s2 : zsteps s s1 -> zstep s1 s2 -> zsteps s s2.
End Machine.
