(** Specification vocabulary: grids that can be searched to the end. *)
From Coq Require Import Reals.
From Verif Require Import Base F64 F64Lemmas Env Utils Tree Options Train Spec CV Grid.
Open Scope Z_scope.

(** finite bounds and a finite positive step that is not tiny compared with them: the bounds are at most 2^51 steps away
    from 0 *)
Definition fairStep (r : range f64) : Prop :=
  ffinite (r_lo r) = true /\ ffinite (r_hi r) = true /\ ffinite (r_step r) = true /\ (0 < B2R (r_step r))%R /\
  (Rabs (B2R (r_lo r)) <= bpow radix2 51 * B2R (r_step r))%R /\ (Rabs (B2R (r_hi r)) <= bpow radix2 51 * B2R (r_step r))%R.
(** a grid that can be searched: processors, positive integer steps, fair float steps, fractions that are not negative *)
Record goodGrid (o : GridOptions) : Prop := {
  gg_ncpus : 1 <= g_ncpus o;
  gg_rounds : 1 <= r_step (g_rounds o);
  gg_maxdepth : 1 <= r_step (g_maxdepth o);
  gg_mcw : fairStep (g_mcw o);
  gg_css : fairStep (g_css o);
  gg_lr : fairStep (g_lr o);
  gg_lambda : fairStep (g_lambda o);
  gg_gamma : fairStep (g_gamma o);
  gg_ss : fairStep (g_ss o);
  gg_css0 : fleb fzero (r_lo (g_css o)) = true;
  gg_ss0 : fleb fzero (r_lo (g_ss o)) = true
}.
