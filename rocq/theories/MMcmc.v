(* Model: running the sampler (misfit/fit/fit_core.py:187-829) and packing its chain
   (misfit/fit/fit_io.py:11-91). *)
From Coq Require Import Reals List Bool Arith ZArith.
From Verif Require Import PyFloat PyBase Arr PyNum.
Import ListNotations.
Local Open Scope R_scope.

(** What one sampler.run_mcmc(pos, 1) adds to the chain: the position of every walker and its
    log-probability (misfit/fit/fit_core.py:387, 713). *)
Definition snap : Type := (list (list fl) * list fl)%type.

(** What get_autocorr_time does (misfit/fit/fit_core.py:401-406, 726-731): times per parameter, the
    RuntimeError of a short chain, or another exception. *)
Inductive acor : Type := AcorTimes (ts : list fl) | AcorShort | AcorRaise (e : exn).

(** emcee as seen by the code: the [k]-th call of run_mcmc, the mean acceptance fraction and the
    autocorrelation estimate, which may depend on the chain and the number of calls made.
    misfit/fit/fit_core.py:387-406, 713-731. *)
Record emcee : Type := mkEmcee {
  em_step : nat -> list (list fl) -> res snap;
  em_af : nat -> list snap -> fl;
  em_acor : nat -> list snap -> acor
}.

(** MCMC2DOptions (misfit/fit/fit_core.py:1119-1139); [o_cpus] is
    np.floor(psutil.cpu_count()*cpuFrac), [o_file] whether filename_sampler is set. *)
Record mopts : Type := mkMopts {
  o_ncpus : option Z; o_cpus : Z; o_nothread : bool; o_nsteps : Z; o_nburn : Z;
  o_neff : option fl; o_minaf : option fl; o_maxaf : option fl; o_all : bool; o_over : bool; o_file : bool
}.

(** Lines of the log file that carry a decision (misfit/fit/fit_core.py:418, 420, 428, 434). *)
Inductive event : Type := LMinLimit (n : nat) | LEarly (n : nat) | LCaution | LFinished (n : nat).

(** State of a run: walkers, number of run_mcmc calls, recorded chain, log, saved file.
    misfit/fit/fit_core.py:270-482, 590-813. *)
Record run : Type := mkRun {
  u_pos : list (list fl); u_calls : nat; u_chain : list snap; u_log : list event; u_file : option (list snap)
}.

(** acor_force_min (misfit/fit/fit_core.py:27) *)
Definition acor_force_min : nat := 49.

(** One sampler.run_mcmc(pos, 1) (misfit/fit/fit_core.py:387, 713; burn-in 288, 611). *)
Definition one_step (m : emcee) : ST run unit :=
  sdo u <- getS;
  sdo s <- liftR (em_step m (u_calls u) (u_pos u));
  modS (fun u => mkRun (fst s) (S (u_calls u)) (u_chain u ++ [s]) (u_log u) (u_file u)).
(** f_log.write (misfit/fit/fit_core.py:418, 420, 428, 434) *)
Definition write (e : event) : ST run unit :=
  modS (fun u => mkRun (u_pos u) (u_calls u) (u_chain u) (u_log u ++ [e]) (u_file u)).

(** The convergence test (misfit/fit/fit_core.py:413-420, 738-747); [&] evaluates every operand. *)
Definition converged_now (o : mopts) (ii : nat) (af : fl) (ac : option (list fl)) : res bool :=
  match o_minaf o, o_maxaf o, o_neff o, ac with
  | Some lo, Some hi, Some n, Some ts =>
      do mx <- np_max ts;
      Ok (fltb lo af && fltb af hi && negb (o_all o) && fgtb (Fin (INR ii)) (fmul mx n))
  | _, _, _, _ => Ok false
  end.

(** The sampling loop (misfit/fit/fit_core.py:381-421, 708-748): [k] iterations left, [ii] the next
    index; returns the last value of the loop variable. *)
Fixpoint sample_loop (m : emcee) (o : mopts) (k ii : nat) (last : option nat) : ST run (option nat) :=
  match k with
  | O => ret last
  | S k' =>
      sdo _ <- one_step m;
      sdo u <- getS;
      sdo ac <- liftR (match em_acor m (u_calls u) (u_chain u) with
                       | AcorTimes ts => Ok (Some ts) | AcorShort => Ok None | AcorRaise e => Err e end);
      sdo c <- liftR (converged_now o ii (em_af m (u_calls u) (u_chain u)) ac);
      if c then
        sdo _ <- (if Nat.eqb ii acor_force_min then write (LMinLimit (ii + 1)) else ret tt);
        if Nat.leb acor_force_min ii then sdo _ <- write (LEarly (ii + 1)); ret (Some ii)
        else sample_loop m o k' (S ii) (Some ii)
      else sample_loop m o k' (S ii) (Some ii)
  end.

(** After the loop (misfit/fit/fit_core.py:424-434, 751-761): finishedSteps = ii+1, which is an
    error if the loop never ran, and the caution. *)
Definition finish (o : mopts) (last : option nat) : ST run nat :=
  sdo ii <- liftR (match last with Some ii => Ok ii | None => Err UnboundLocalError end);
  sdo _ <- (if Z.eqb (Z.of_nat (ii + 1)) (o_nsteps o) &&
               match o_minaf o, o_maxaf o, o_neff o with Some _, Some _, Some _ => true | _, _, _ => false end &&
               negb (o_all o)
            then write LCaution else ret tt);
  sdo _ <- write (LFinished (ii + 1));
  ret (ii + 1)%nat.

(** The burn-in loop (misfit/fit/fit_core.py:286-288, 609-611). *)
Fixpoint burn_loop (m : emcee) (k : nat) : ST run unit :=
  match k with O => ret tt | S k' => sdo _ <- one_step m; burn_loop m k' end.

(** nCPUs (misfit/fit/fit_core.py:217-221, 517-521) *)
Definition ncpus (o : mopts) : Z :=
  if o_nothread o then 1%Z else match o_ncpus o with Some n => n | None => o_cpus o end.

(** chain replaced (sampler.reset, misfit/fit/fit_core.py:362; a new sampler with its own
    backend, 682-696) *)
Definition set_chain (c : list snap) : ST run unit :=
  modS (fun u => mkRun (u_pos u) (u_calls u) c (u_log u) (u_file u)).
(** dumppickle(sampler_dict) (misfit/fit/fit_core.py:475-477, 813-815; the chain stands for the dict) *)
Definition save (o : mopts) : ST run unit :=
  modS (fun u => mkRun (u_pos u) (u_calls u) (u_chain u) (u_log u) (if o_file o then Some (u_chain u) else u_file u)).

(** misfit/fit/fit_core.py:206-500 [_run_mcmc_emcee_221] from the initial positions in the state
    (plots and text-only log lines left out; initial chain empty).  emcee 2 creates a pool only for
    more than one thread, so sampler.pool is None otherwise. *)
Definition run_emcee_2 (m : emcee) (o : mopts) : ST run nat :=
  sdo _ <- set_chain [];
  sdo _ <- (if Z.ltb 0 (o_nburn o)
            then sdo _ <- burn_loop m (Z.to_nat (o_nburn o)); set_chain []
            else ret tt);
  sdo last <- sample_loop m o (Z.to_nat (o_nsteps o)) 0 None;
  sdo n <- finish o last;
  sdo _ <- liftR (if Z.ltb 1 (ncpus o) then Ok tt else Err AttributeError);
  sdo _ <- save o;
  ret n.

(** misfit/fit/fit_core.py:503-829 [_run_mcmc_emcee_3] from the initial positions in the state;
    [oldb] and [old] are the chains already in the HDF file under "burnin_mcmc" and "mcmc"
    (empty for a new file; of the same shape).  The burn-in autocorrelation estimate is not
    guarded (615). *)
Definition run_emcee_3 (m : emcee) (o : mopts) (oldb old : list snap) : ST run nat :=
  sdo _ <- set_chain (if o_over o then [] else oldb);
  sdo _ <- (if Z.ltb 0 (o_nburn o)
            then sdo _ <- burn_loop m (Z.to_nat (o_nburn o));
                 sdo u <- getS;
                 liftR (match em_acor m (u_calls u) (u_chain u) with
                        | AcorTimes _ => Ok tt | AcorShort => Err RuntimeError | AcorRaise e => Err e end)
            else ret tt);
  sdo _ <- set_chain (if o_over o then [] else old);
  sdo last <- sample_loop m o (Z.to_nat (o_nsteps o)) 0 None;
  sdo n <- finish o last;
  sdo _ <- save o;
  ret n.

(** The arrays of the sampler (emcee's chain and lnprobability, walkers first), read by
    misfit/fit/fit_io.py:21-23. *)
Definition chain_of (nw nd : nat) (c : list snap) : arr3 fl :=
  mk3 nw (length c) nd (fun w k d => lnth (nth w (fst (nth k c ([], []))) []) d).
(** misfit/fit/fit_io.py:23 *)
Definition lnp_of (nw : nat) (c : list snap) : arr2 fl :=
  mk2 nw (length c) (fun w k => lnth (snd (nth k c ([], []))) w).

(** The entries of the sampler dictionary that are arrays (misfit/fit/fit_io.py:78-88). *)
Record sdict : Type := mkSdict {
  d_chain : arr3 fl; d_lnp : arr2 fl; d_flat : arr2 fl; d_flatlnp : list fl
}.

(** misfit/fit/fit_io.py:11-91 [make_emcee_sampler_dict]: arrays only.  reshape((-1, nDim)) in C
    order; a reshape to zero columns is a ValueError. *)
Definition make_dict (ch : arr3 fl) (lp : arr2 fl) (nBurn : Z) : res sdict :=
  let b := slice_bound (dim1 ch) nBurn in
  let kc := (dim1 ch - b)%nat in
  let bl := slice_bound (cols lp) nBurn in
  let kl := (cols lp - bl)%nat in
  if Nat.eqb (dim2 ch) 0 then Err ValueError else
  Ok (mkSdict
        (mk3 (dim0 ch) kc (dim2 ch) (fun w k d => at3 ch w (b + k) d))
        (mk2 (rows lp) kl (fun w k => at2 lp w (bl + k)))
        (mk2 (dim0 ch * kc) (dim2 ch) (fun r d => at3 ch (r / kc) (b + r mod kc) d))
        (map (fun r => at2 lp (r / kl) (bl + r mod kl)) (seq 0 (rows lp * kl)))).
