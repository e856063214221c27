(* Property theorems: the number of processes of a run (C147). *)
From Coq Require Import Reals List Bool Arith ZArith.
From Verif Require Import PyFloat PyBase Arr PyNum MSlitPlot MMcmc MCpus SCpus PCpus.
Import ListNotations.
Local Open Scope R_scope.

(** C147: a run uses the number of processes its options ask for, and stores it in them. *)
Theorem C147_run : forall cores own i h h' n, exec cores own (ARun i) h = (h', [(i, Ok n)]) ->
  wanted cores (h (object_of (own i))) n /\ p_num (h' (object_of (own i))) = Some n.
Proof. exact run_uses. Qed.
Print Assumptions C147_run.

(** C147: the number is found whenever the fraction is a number. *)
Theorem C147_succeeds : forall cores own i h f,
  p_frac (h (object_of (own i))) = Fin f -> exists h' n, exec cores own (ARun i) h = (h', [(i, Ok n)]).
Proof. exact run_succeeds. Qed.
Print Assumptions C147_succeeds.

(** C147: after a run all later runs with the same options object use the same number, whatever other fits do and even if the fraction is changed or threading is switched on again, until nCPUs is assigned or threading switched off. *)
Theorem C147_stays : forall cores own i h h1 n l h2 t, exec cores own (ARun i) h = (h1, [(i, Ok n)]) ->
  (forall a, In a l -> object_of (own (about a)) = object_of (own i) -> harmless a) ->
  exec_all cores own l h1 = (h2, t) -> forall j r, In (j, r) t -> object_of (own j) = object_of (own i) -> r = Ok n.
Proof. exact number_stays. Qed.
Print Assumptions C147_stays.

Example C147_stays_example : let own := fun i : nat => if Nat.eqb i 2 then Some 0%nat else None in
  let h1 := fst (exec 8 own (ARun 0) (fun _ => new_cpu)) in
  exec 8 own (ARun 0) (fun _ => new_cpu) = (h1, [(0%nat, Ok 6%Z)]) /\
  snd (exec_all 8 own [AFrac 0 (Fin 0); ANum 2 (Some 3%Z); ARun 2; ARun 1] h1) = [(2%nat, Ok 3%Z); (1%nat, Ok 6%Z)].
Proof. exact stays_example. Qed.

(** C147: what is done with fits that have other options objects does not matter. *)
Theorem C147_own : forall cores own i l h, (forall a, In a l -> own (about a) <> own i) ->
  snd (exec cores own (ARun i) (fst (exec_all cores own l h))) = snd (exec cores own (ARun i) h).
Proof. exact own_options. Qed.
Print Assumptions C147_own.

(** C147: fits created without options share them: a run of one without threading leaves the other with one process, although threading is on again. *)
Theorem C147_shared_refuted : exists cores own i l h, (forall j, own j = None) /\ (forall k, h k = new_cpu) /\ (forall a, In a l -> about a <> i) /\
  snd (exec cores own (ARun i) h) = [(i, Ok 6%Z)] /\ snd (exec cores own (ARun i) (fst (exec_all cores own l h))) = [(i, Ok 1%Z)] /\
  p_no (fst (exec_all cores own l h) (object_of (own i))) = false.
Proof. exact shared_options_refuted. Qed.
Print Assumptions C147_shared_refuted.

(** C147: this is the number the model of the sampler run (C81 and others) works with. *)
Theorem C147_sampler : forall cores o o' n mo,
  set_cpus cores o = (o', Ok n) -> o_ncpus mo = p_num o -> o_nothread mo = p_no o ->
  int_floor (fmul (Fin (IZR cores)) (p_frac o)) = Ok (o_cpus mo) -> ncpus mo = n.
Proof. exact same_number. Qed.
Print Assumptions C147_sampler.
