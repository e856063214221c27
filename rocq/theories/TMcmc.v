(* Property theorems: sampling runs (C46-C49, C81). *)
From Coq Require Import Reals List Bool Arith ZArith.
From Verif Require Import PyFloat PyBase Arr PyNum MMcmc SMcmc PMcmc PMcmcEx.
Import ListNotations.
Local Open Scope R_scope.

(** C46: whenever a run reports [n] finished steps, its chain is the [n] steps after the burn-in,
    and [n] is the first step of at least 50 at which it had converged, or nSteps. *)
Theorem C46_stopping_emcee2 : forall m o u u' r n,
  run_emcee_2 m o u = (u', r) -> start u -> In (LFinished n) (u_log u') ->
  exists burn l, steps m (u_calls u) (u_pos u) (burn ++ l) /\ length burn = nburn o /\ u_chain u' = l /\
    length l = n /\ stops m o (u_calls u + nburn o) [] l.
Proof. exact stopping2. Qed.
Print Assumptions C46_stopping_emcee2.
Theorem C46_stopping_emcee3 : forall m o oldb old u u' r n,
  run_emcee_3 m o oldb old u = (u', r) -> start u -> In (LFinished n) (u_log u') ->
  exists burn l, steps m (u_calls u) (u_pos u) (burn ++ l) /\ length burn = nburn o /\
    u_chain u' = (if o_over o then [] else old) ++ l /\
    length l = n /\ stops m o (u_calls u + nburn o) (if o_over o then [] else old) l.
Proof. exact stopping3. Qed.
Print Assumptions C46_stopping_emcee3.

(** C46: without limits, or with runAllSteps, every step is taken. *)
Theorem C46_all_steps : forall m o u u' r n,
  ~ limits_set o -> start u -> In (LFinished n) (u_log u') ->
  (run_emcee_2 m o u = (u', r) \/ exists oldb old, run_emcee_3 m o oldb old u = (u', r)) -> Z.of_nat n = o_nsteps o.
Proof. exact all_steps. Qed.
Print Assumptions C46_all_steps.

(** C46: asking for no steps fails. *)
Theorem C46_no_steps : forall m o u, (o_nsteps o <= 0)%Z ->
  (forall u' n, run_emcee_2 m o u <> (u', Ok n)) /\ (forall oldb old u' n, run_emcee_3 m o oldb old u <> (u', Ok n)).
Proof. exact no_steps. Qed.
Print Assumptions C46_no_steps.

(** C46: with a working sampler a run finishes. *)
Theorem C46_finishes : forall m o oldb old u,
  works m -> (forall c h, em_acor m c h <> AcorShort) -> (1 <= o_nsteps o)%Z ->
  exists u' n, run_emcee_3 m o oldb old u = (u', Ok n).
Proof. exact total3. Qed.
Print Assumptions C46_finishes.

Example C46_example : forall n, (50 <= n)%Z -> exists u',
  run_emcee_3 still (opts n 20 None true) [] [] two_walkers = (u', Ok 50%nat) /\
  u_log u' = [LMinLimit 50; LEarly 50] ++ (if Z.eqb n 50 then [LCaution] else []) ++ [LFinished 50].
Proof. intros. now apply still_run_3. Qed.

(** C47: the caution is logged exactly when convergence was asked for and all nSteps steps were
    taken; in particular whenever the run has not converged. *)
Theorem C47_caution_emcee2 : forall m o u u' r n,
  run_emcee_2 m o u = (u', r) -> start u -> In (LFinished n) (u_log u') ->
  (In LCaution (u_log u') <-> limits_set o /\ Z.of_nat n = o_nsteps o) /\
  (limits_set o -> (exists burn l, length burn = nburn o /\ u_chain u' = [] ++ l /\
      steps m (u_calls u) (u_pos u) (burn ++ l) /\ ~ converged m o (u_calls u + nburn o) [] l (length l)) ->
   In LCaution (u_log u')).
Proof. exact (fun m o u u' r n E S I => caution_of m o u u' [] n S (proj1 (finished2 m o u u' r E S n I))). Qed.
Print Assumptions C47_caution_emcee2.
Theorem C47_caution_emcee3 : forall m o oldb old u u' r n,
  run_emcee_3 m o oldb old u = (u', r) -> start u -> In (LFinished n) (u_log u') ->
  let before := if o_over o then [] else old in
  (In LCaution (u_log u') <-> limits_set o /\ Z.of_nat n = o_nsteps o) /\
  (limits_set o -> (exists burn l, length burn = nburn o /\ u_chain u' = before ++ l /\
      steps m (u_calls u) (u_pos u) (burn ++ l) /\ ~ converged m o (u_calls u + nburn o) before l (length l)) ->
   In LCaution (u_log u')).
Proof.
  exact (fun m o oldb old u u' r n E S I =>
    caution_of m o u u' (if o_over o then [] else old) n S (proj1 (finished3 m o oldb old u u' r E S n I))).
Qed.
Print Assumptions C47_caution_emcee3.
(** C47 refuted: a run that converges at its last allowed step is called unconverged. *)
Theorem C47_caution_refuted : exists m o u u', run_emcee_3 m o [] [] u = (u', Ok 50%nat) /\ start u /\
  (forall c old l, converged m o c old l 50) /\ In LCaution (u_log u').
Proof. exact caution_refuted. Qed.
Print Assumptions C47_caution_refuted.

(** C48: with emcee 3, and with emcee 2 in several processes, a finished run is saved. *)
Theorem C48_saved_emcee3 : forall m o oldb old u u' n,
  run_emcee_3 m o oldb old u = (u', Ok n) -> start u -> o_file o = true -> u_file u' = Some (u_chain u').
Proof. exact saved3. Qed.
Print Assumptions C48_saved_emcee3.
Theorem C48_saved_emcee2 : forall m o u u' r n,
  run_emcee_2 m o u = (u', r) -> start u -> In (LFinished n) (u_log u') -> o_file o = true -> several_processes o ->
  r = Ok n /\ u_file u' = Some (u_chain u').
Proof. exact saved2. Qed.
Print Assumptions C48_saved_emcee2.
(** C48 refuted: with emcee 2 in one process every finished run is lost. *)
Theorem C48_single_process_refuted : forall m o u,
  works m -> (1 <= o_nsteps o)%Z -> start u -> one_process o ->
  exists u' n, run_emcee_2 m o u = (u', Err AttributeError) /\ In (LFinished n) (u_log u') /\ u_file u' = u_file u.
Proof. exact lost2. Qed.
Print Assumptions C48_single_process_refuted.
Example C48_example : exists u' n,
  run_emcee_2 still (opts 60 5 (Some 1%Z) true) two_walkers = (u', Err AttributeError) /\
  In (LFinished n) (u_log u') /\ u_file u' = None.
Proof. exact ex_lost2. Qed.

(** C49: row w*K+k of the flattened chain and the same entry of the flattened log-probability are
    walker w at kept step k, and nothing else is in them. *)
Theorem C49_flat : forall nw nd c b, (0 < nd)%nat ->
  exists d, make_dict (chain_of nw nd c) (lnp_of nw c) (Z.of_nat b) = Ok d /\
  rows (d_flat d) = (nw * (length c - b))%nat /\ cols (d_flat d) = nd /\ length (d_flatlnp d) = (nw * (length c - b))%nat /\
  forall w k j p, (w < nw)%nat -> (b + k < length c)%nat -> (j < nd)%nat -> nth_error c (b + k) = Some p ->
    at2 (d_flat d) (w * (length c - b) + k) j = lnth (nth w (fst p) []) j /\
    lnth (d_flatlnp d) (w * (length c - b) + k) = lnth (snd p) w.
Proof. exact make_dict_ok. Qed.
Print Assumptions C49_flat.
(** C49: a chain without free parameters cannot be packed. *)
Theorem C49_no_parameters : forall nw c b, make_dict (chain_of nw 0 c) (lnp_of nw c) b = Err ValueError.
Proof. exact make_dict_no_param. Qed.
Print Assumptions C49_no_parameters.
Example C49_example : exists d,
  make_dict (chain_of 2 1 [([[Fin 1]; [Fin 2]], [Fin 5; Fin 6]); ([[Fin 3]; [Fin 4]], [Fin 7; Fin 8])])
            (lnp_of 2 [([[Fin 1]; [Fin 2]], [Fin 5; Fin 6]); ([[Fin 3]; [Fin 4]], [Fin 7; Fin 8])]) 0 = Ok d /\
  map (fun r => at2 (d_flat d) r 0) (seq 0 4) = [Fin 1; Fin 3; Fin 2; Fin 4] /\
  d_flatlnp d = [Fin 5; Fin 7; Fin 6; Fin 8].
Proof. eexists. split; [reflexivity|]. split; reflexivity. Qed.

(** C81: when the file is new or overwritten the saved chain is this run's sampling steps. *)
Theorem C81_only_this_run : forall m o oldb old u u' n,
  run_emcee_3 m o oldb old u = (u', Ok n) -> start u -> o_file o = true -> o_over o = true \/ old = [] ->
  exists burn l, length burn = nburn o /\ steps m (u_calls u) (u_pos u) (burn ++ l) /\ length l = n /\ u_file u' = Some l.
Proof. exact only_this_run. Qed.
Print Assumptions C81_only_this_run.
(** C81 refuted with overwrite off: the steps of an earlier run stay in front. *)
Theorem C81_mixed_refuted : exists m o old u u' n l,
  run_emcee_3 m o [] old u = (u', Ok n) /\ start u /\ old <> [] /\
  u_file u' = Some (old ++ l) /\ length l = n /\ steps m (u_calls u) (u_pos u) l.
Proof. exact mixed_chain_refuted. Qed.
Print Assumptions C81_mixed_refuted.
