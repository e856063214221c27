(* Model: the steps of a 2-D fit and of reloading its results (misfit/fit/fit2D.py:259-327, 433-436). *)
From Coq Require Import Reals List Bool.
From Verif Require Import PyFloat PyBase PyNum.
Import ListNotations.
Local Open Scope R_scope.

(** The fit object and its files: kinModel is set; sampler_dict; mcmc_results; kinModel.bestfit was made for these results;
    the contents of filename_sampler and of filename_bestfit_model (misfit/fit/fit2D.py:180-197, 389-401, 433-436).
    C is a chain, P the posterior results. *)
Record job (C P : Type) : Type := mkJob {
  j_model : bool; j_chain : option C; j_post : option P; j_best : option P; j_cfile : option C; j_bfile : option P }.
Arguments mkJob {C P}. Arguments j_model {C P}. Arguments j_chain {C P}. Arguments j_post {C P}. Arguments j_best {C P}.
Arguments j_cfile {C P}. Arguments j_bfile {C P}.

(** What the steps do.  [a_res]: instrument.instrument_resolution; [a_setup]: setup_model; [a_run]: the chain sampling ends with;
    [a_trace]: the trace plot; [a_chain]: get_chain_results, giving the extended chain and the results; [a_fit]: make_model at the
    best fit; [a_prune]: the object to save; [a_plot]: the two plots; whether the two file names are set
    (misfit/fit/fit2D.py:268-284, 312-327, 382-401; misfit/fit/fit_core.py:464-500, 921-927). *)
Record parts (C P : Type) : Type := mkParts {
  a_res : res fl; a_setup : res unit; a_run : res C; a_trace : res unit; a_chain : C -> res (C * P); a_fit : P -> res unit;
  a_prune : res unit; a_plot : res unit; a_cname : bool; a_bname : bool }.
Arguments mkParts {C P}. Arguments a_res {C P}. Arguments a_setup {C P}. Arguments a_run {C P}. Arguments a_trace {C P}.
Arguments a_chain {C P}. Arguments a_fit {C P}. Arguments a_prune {C P}. Arguments a_plot {C P}. Arguments a_cname {C P}. Arguments a_bname {C P}.

(** misfit/fit/fit2D.py:338-373 [setup_model]: kinModel is replaced first; a new one has no best fit (misfit/model/kin_model.py:96). *)
Definition do_setup {C P} (a : parts C P) : ST (job C P) unit :=
  sdo _ <- modS (fun j => mkJob true (j_chain j) (j_post j) None (j_cfile j) (j_bfile j));
  liftR (a_setup a).

(** The end of run_mcmc: write the file, draw the trace, then assign sampler_dict
    (misfit/fit/fit_core.py:464-500, 794-829). *)
Definition do_run {C P} (a : parts C P) : ST (job C P) unit :=
  sdo c <- liftR (a_run a);
  sdo _ <- (if a_cname a then modS (fun j => mkJob (j_model j) (j_chain j) (j_post j) (j_best j) (Some c) (j_bfile j)) else ret tt);
  sdo _ <- liftR (a_trace a);
  modS (fun j => mkJob (j_model j) (Some c) (j_post j) (j_best j) (j_cfile j) (j_bfile j)).

(** misfit/fit/fit2D.py:433-436 [reload_sampler] *)
Definition reload_sampler {C P} (a : parts C P) : ST (job C P) unit :=
  if a_cname a then
    sdo j <- getS;
    match j_cfile j with
    | None => raise OSError
    | Some c => putS (mkJob (j_model j) (Some c) (j_post j) (j_best j) (j_cfile j) (j_bfile j))
    end
  else ret tt.

(** misfit/fit/fit2D.py:312-322 [analyze_results]; without a chain get_chain_results raises TypeError (None is not
    subscriptable).  Simplified: an analysis that raises leaves chain and results as they were. *)
Definition analyze_results {C P} (a : parts C P) : ST (job C P) unit :=
  sdo j <- getS;
  sdo _ <- match j_chain j with None => reload_sampler a | Some _ => ret tt end;
  sdo j <- getS;
  sdo c <- liftR (match j_chain j with None => Err TypeError | Some c => Ok c end);
  sdo r <- liftR (a_chain a c);
  sdo _ <- modS (fun j => mkJob (j_model j) (Some (fst r)) (Some (snd r)) (j_best j) (j_cfile j) (j_bfile j));
  sdo _ <- liftR (a_fit a (snd r));
  modS (fun j => mkJob (j_model j) (j_chain j) (j_post j) (Some (snd r)) (j_cfile j) (j_bfile j)).

(** misfit/fit/fit2D.py:389-401 [save_bestfit_model] (an interrupted write is in MAttr) *)
Definition save_bestfit_model {C P} (a : parts C P) : ST (job C P) unit :=
  sdo _ <- liftR (a_prune a);
  if a_bname a then modS (fun j => mkJob (j_model j) (j_chain j) (j_post j) (j_best j) (j_cfile j) (j_post j)) else ret tt.

(** misfit/fit/fit2D.py:259-284 [fit], after setAttr *)
Definition fit2d {C P} (a : parts C P) : ST (job C P) unit :=
  sdo r <- liftR (a_res a);
  if fltb r (Fin 0) then raise ValueError else
  sdo _ <- do_setup a;
  sdo _ <- do_run a;
  sdo _ <- analyze_results a;
  sdo _ <- save_bestfit_model a;
  liftR (a_plot a).

(** misfit/fit/fit2D.py:287-309 [reload_results], after setAttr; the resolution is printed. *)
Definition reload_results {C P} (a : parts C P) (doplot resave : bool) : ST (job C P) unit :=
  sdo j <- getS;
  sdo _ <- (if j_model j then ret tt else do_setup a);
  sdo _ <- liftR (a_res a);
  sdo _ <- analyze_results a;
  sdo _ <- (if resave then save_bestfit_model a else ret tt);
  if doplot then liftR (a_plot a) else ret tt.
