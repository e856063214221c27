(* Specification vocabulary for sampling runs. *)
From Coq Require Import Reals List Bool Arith ZArith.
From Verif Require Import PyFloat PyBase Arr PyNum MMcmc.
Import ListNotations.
Local Open Scope R_scope.

(** [l] are successive steps of the sampler from the walkers [p], [c] steps having been taken. *)
Inductive steps (m : emcee) : nat -> list (list fl) -> list snap -> Prop :=
| steps_nil c p : steps m c p []
| steps_cons c p s l : em_step m c p = Ok s -> steps m (S c) (fst s) l -> steps m c p (s :: l).

(** The run has converged after its first [k] steps: at least 50 steps, acceptance fraction strictly
    within its limits, and more steps (not counting the last) than nEff times the longest
    autocorrelation time.  [c] steps preceded the run, [old] was already in its chain. *)
Definition converged (m : emcee) (o : mopts) (c : nat) (old l : list snap) (k : nat) : Prop :=
  exists lo hi n ts mx,
    o_minaf o = Some lo /\ o_maxaf o = Some hi /\ o_neff o = Some n /\ o_all o = false /\ (50 <= k)%nat /\
    fltb lo (em_af m (c + k) (old ++ firstn k l)) = true /\
    fltb (em_af m (c + k) (old ++ firstn k l)) hi = true /\
    em_acor m (c + k) (old ++ firstn k l) = AcorTimes ts /\
    In mx ts /\ (forall t, In t ts -> fleb t mx = true) /\
    fltb (fmul mx n) (Fin (INR (k - 1))) = true.

(** The run [l] ended when it should. *)
Definition stops (m : emcee) (o : mopts) (c : nat) (old l : list snap) : Prop :=
  (1 <= length l)%nat /\ (Z.of_nat (length l) <= o_nsteps o)%Z /\
  (forall k, (k < length l)%nat -> ~ converged m o c old l k) /\
  (converged m o c old l (length l) \/ Z.of_nat (length l) = o_nsteps o).

(** Convergence is being asked for. *)
Definition limits_set (o : mopts) : Prop :=
  o_minaf o <> None /\ o_maxaf o <> None /\ o_neff o <> None /\ o_all o = false.

(** The sampler works: every step succeeds and the autocorrelation estimate gives a time per
    parameter or says that the chain is too short. *)
Definition works (m : emcee) : Prop :=
  (forall c p, exists s, em_step m c p = Ok s) /\
  (forall c h, em_acor m c h = AcorShort \/ exists t ts, em_acor m c h = AcorTimes (t :: ts)).

(** A run about to start: nothing logged yet. *)
Definition start (u : run) : Prop := u_log u = [].
(** Number of burn-in steps asked for. *)
Definition nburn (o : mopts) : nat := Z.to_nat (o_nburn o).

(** Threading switched off, or a number of processes (given, or else that of the machine) of at most one. *)
Definition one_process (o : mopts) : Prop :=
  o_nothread o = true \/ (exists n, o_ncpus o = Some n /\ (n <= 1)%Z) \/ (o_ncpus o = None /\ (o_cpus o <= 1)%Z).
(** More than one process. *)
Definition several_processes (o : mopts) : Prop :=
  o_nothread o = false /\ ((exists n, o_ncpus o = Some n /\ (1 < n)%Z) \/ (o_ncpus o = None /\ (1 < o_cpus o)%Z)).
