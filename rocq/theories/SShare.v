(* Specification vocabulary for programs with several models and fits. *)
From Coq Require Import Reals List Bool Arith.
From Verif Require Import PyFloat PyBase Arr PyNum MParams MKernels MAper2D MPost MShare SParams.
Import ListNotations.
Local Open Scope nat_scope.

(** Nothing has been constructed yet. *)
Definition no_models (w : world) : Prop := forall i, w_km w i = None.

(** The calls about object [i]. *)
Definition about (i : nat) (o : op) : bool := Nat.eqb (target o) i.

(** Every other object that the program uses has its own instrument, or no PSF is modelled; its own intensity profile, or one that is
    set to the same light distribution; and its own theta array, or one in which it only varies parameters
    that object [i] varies too (and then object [i] has one free/fixed flag per parameter).  Kinematic profiles
    may be shared freely. *)
Definition apart (D : nat -> decl) (i : nat) (ops : list op) (w : world) : Prop :=
  forall o, In o ops -> target o <> i ->
    let d := D i in let e := D (target o) in
    (d_ins e <> d_ins d \/ (i_fwhm (c_ins (d_cfg d)) <= 0)%R) /\
    (d_int e <> d_int d \/ p_int (c_prof (d_cfg e)) = p_int (c_prof (d_cfg d))) /\
    (d_theta e <> d_theta d \/
     (length (d_vary d) = length (w_theta w (d_theta d)) /\ forall n, free (d_vary e) n -> free (d_vary d) n)).

(** The calls about fit [i]. *)
Definition fabout (i : nat) (o : fop) : bool := Nat.eqb (ftarget o) i.

(** Every other fit of the program has its own instrument (or no PSF is modelled), mcmc_results and
    (deep-copied) theta. *)
Definition fapart (F : nat -> fdecl) (i : nat) (ops : list fop) : Prop :=
  forall o, In o ops -> ftarget o <> i ->
    let d := fd_km (F i) in let e := fd_km (F (ftarget o)) in
    (d_ins e <> d_ins d \/ (i_fwhm (c_ins (d_cfg d)) <= 0)%R) /\ fd_res (F (ftarget o)) <> fd_res (F i) /\ d_theta e <> d_theta d.

(** The other fits have their own intensity profile, or one that is set to the same light distribution. *)
Definition own_light (F : nat -> fdecl) (i : nat) (ops : list fop) : Prop :=
  forall o, In o ops -> ftarget o <> i ->
    let d := fd_km (F i) in let e := fd_km (F (ftarget o)) in
    d_int e <> d_int d \/ p_int (c_prof (d_cfg e)) = p_int (c_prof (d_cfg d)).

(** Run by itself, every set-up of fit [i] succeeds. *)
Definition setups_succeed (K : kde) (F : nat -> fdecl) (i : nat) (ops : list fop) (fw : fworld) : Prop :=
  forall ops1 th ops2, filter (fabout i) ops = (ops1 ++ FSetup i th :: ops2)%list ->
    snd (fstep K F (frun K F ops1 fw) (FSetup i th)) = Ok tt.

(** Set-ups of one fit, one after the other, each with the settings the user has just assigned. *)
Definition setups (ss : list settings) (f : fit) : fit :=
  fold_left (fun f s => fst (setup_model (set_settings s f))) ss f.

(** Likelihood calls on a set-up fit, by whoever holds it: [used g f] says that [f] is [g] after calls that
    all returned, or after any calls at all when the wavelength grid is not adaptive. *)
Inductive used (g : fit) : fit -> Prop :=
| Used0 : used g g
| UsedOk f tf v f' : used g f -> fit_lnprob f tf = (f', Ok v) -> used g f'
| UsedErr f tf r f' : used g f -> o_adapt (c_opt (ft_cfg g)) = false -> fit_lnprob f tf = (f', r) -> used g f'.
