(** The example program, examples/basicboost.go, and the default options of the two packages. *)
From Coq Require Import String.
From Verif Require Import Base F64 Env Utils Tree Options Train CV Grid Grad Text Readers.
From Coq Require Import List.
Open Scope Z_scope.

(** cv/cv.go:145-147 *)
Definition DefaultGridOptions : GridOptions := DefaultXGridOptions.

(** examples/basicboost.go:16-21; [id'] is the loss object of line 21 *)
Definition mainOptions (id id' : Z) : Options :=
  let O := DefaultOptions id in
  MkOpts (o_xgb O) 100 (o_maxdepth O) 10 (o_lr O) (o_lambda O) (o_mcw O) (o_gamma O) (o_ss O) (fdec 8 10) (o_base O) (o_minsample O)
         (o_method O) true (SQErrLoss id').
(** examples/basicboost.go:26-33 *)
Definition mainGrid : GridOptions :=
  let o := DefaultXGridOptions in
  MkGO (g_xgb o) (g_earlystop o) (MkRange 5 30 5) (MkRange 3 4 1) (MkRange (fdec 1 10) (fdec 3 10) (fdec 1 10)) (g_gamma o) (g_lambda o)
       (MkRange (fdec 8 10) (fdec 9 10) (fdec 1 10)) (g_css o) (MkRange (fofZ 2) (fofZ 6) (fofZ 2)) (g_step o) (g_delta o) true (g_nsteps o)
       (g_central o) 2 (g_writebest o).
(** examples/basicboost.go:53 *)
Definition mainSample : list f64 :=
  [fzero; fofZ 12; fofZ 100; fzero; fdec 9 1000; fzero; fofZ (-1); fofZ (-9); fdec 1 100; fofZ 60; fdec 337 10000; fzero; fdec 8 100; fdec 2 100; fzero;
   fdec 18 1000; fzero; fofZ 120; fdec 372911 10000; fofZ 85; fdec 6505 10].

(** what the program prints: the accuracy on the training set, the results of the two searches, and the number printed for the sample *)
Record mainOut : Type := MkOut { mo_train : f64; mo_grid : gridRet; mo_grad : ggRet; mo_class : Z }.
(** examples/basicboost.go:11-58 [main] for the contents [file] of ../tests/train.svm. [best.Rounds] (lines 39, 48) panics for a nil
    pointer. [fuelG] and [fuelC] bound the searches. The progress messages and the formatting of the output are not modelled. *)
Definition main (E : Env) (pf : parser) (fuelG fuelC : nat) (id id' : Z) (rnd1 rnd2 : draws) (ints : nat -> nat -> Z) (rndf : nat -> nat -> draws)
    (q : oracles) (file : option (text * bool)) : res mainOut :=
  od <- DataBunchFromLibSVMFile pf file (Some true) ;;
  match od with
  | None => Panic
  | Some data =>
      boosted <- NewMultiClass E rnd1 data (mainOptions id id') ;;
      acc <- Accuracy (tr_model boosted) data ;;
      g <- Grid E fuelG ints rndf id data 8 (Some mainGrid) ;;
      if gr_err g then Panic
      else match gr_opts g with
      | None => Panic
      | Some _ =>
          c <- GradientGrid E fuelC q id data 5 (Some mainGrid) ;;
          if gg_err c then Panic
          else match gg_opts c with
          | None => Panic
          | Some best =>
              boosted <- NewMultiClass E rnd2 data best ;;
              ' (class, _) <- PredictSingleClass (tr_model boosted) mainSample [] ;;
              Ok (MkOut acc g c (class + 1))
          end
      end
  end.
