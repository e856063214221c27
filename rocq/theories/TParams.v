(* Property theorems C01-C04: prior, posterior gate, walkers, packing. *)
From Coq Require Import Reals Lra List Bool Arith Lia.
From Verif Require Import PyFloat PyBase MParams SParams PParams.
Import ListNotations.

(** C01: value 0 exactly on the closed support, -inf elsewhere. *)
Theorem C01_prior_support : forall theta vary bounds tf,
  length vary = length theta -> length bounds = length theta -> nfree vary <= length tf ->
  (log_prior theta vary bounds tf = Ok (Fin 0) <-> in_support vary bounds tf) /\
  (log_prior theta vary bounds tf = Ok NInf <-> ~ in_support vary bounds tf).
Proof. exact log_prior_zero_iff. Qed.
Print Assumptions C01_prior_support.

Definition ex_bounds : list (fl * fl) := [(Fin 0, Fin 1); (Fin 5, Fin 6); (NInf, Fin 2)].
Definition ex_vary : list bool := [true; false; true].
Definition ex_theta : list fl := [Fin 0; Fin 0; Fin 0].

Example C01_example_in : log_prior ex_theta ex_vary ex_bounds [Fin 1; Fin (-7)] = Ok (Fin 0).
Proof. cbv [log_prior prior_loop seq length ex_theta ex_vary ex_bounds getn nth_error bind between
  fleb fst snd forallb andb]. rdec. Qed.
Example C01_example_nan : log_prior ex_theta ex_vary ex_bounds [NaN; Fin 0] = Ok NInf.
Proof. reflexivity. Qed.

(** C01: too few values is an IndexError, whatever they are. *)
Theorem C01_prior_short_vector : forall theta vary bounds tf,
  length vary = length theta -> length bounds = length theta -> length tf < nfree vary ->
  log_prior theta vary bounds tf = Err IndexError.
Proof. exact log_prior_short. Qed.
Print Assumptions C01_prior_short_vector.

Example C01_example_short : length [Fin 1] < nfree ex_vary.
Proof. vm_compute. lia. Qed.

(** C02: outside the support the model is not evaluated. *)
Theorem C02_gate_no_evaluation : forall (S : Type) prior (like : S -> list fl -> S * res fl) s tf p,
  prior tf = Ok p -> isfinite p = false -> lnprob prior like s tf = (s, Ok NInf).
Proof. exact @lnprob_gate. Qed.
Print Assumptions C02_gate_no_evaluation.

(** C02: inside the support the value is prior + likelihood, or -inf if that is not finite. *)
Theorem C02_value : forall (S : Type) prior (like : S -> list fl -> S * res fl) s tf p s' l,
  prior tf = Ok (Fin p) -> like s tf = (s', Ok l) ->
  lnprob prior like s tf = (s', Ok (match l with Fin r => Fin (p + r) | _ => NInf end)).
Proof. exact @lnprob_value. Qed.
Print Assumptions C02_value.

(** C02: the sampler never sees nan or +inf. *)
Theorem C02_never_nan : forall (S : Type) prior (like : S -> list fl -> S * res fl) s tf s' q,
  lnprob prior like s tf = (s', Ok q) -> q = NInf \/ exists r, q = Fin r.
Proof. exact @lnprob_range. Qed.
Print Assumptions C02_never_nan.

(* A likelihood that counts its evaluations and returns nan. *)
Definition ex_like (n : nat) (tf : list fl) : nat * res fl := (S n, Ok NaN).
Example C02_example_gate :
  lnprob (log_prior ex_theta ex_vary ex_bounds) ex_like 3 [NaN; Fin 0] = (3, Ok NInf).
Proof. reflexivity. Qed.
Example C02_example_eval :
  lnprob (log_prior ex_theta ex_vary ex_bounds) ex_like 3 [Fin 1; Fin (-7)] = (4, Ok NInf).
Proof. unfold lnprob. rewrite C01_example_in. reflexivity. Qed.

(** C03: every walker has one coordinate per free parameter and prior 0. *)
Theorem C03_walkers_in_prior : forall theta vary bounds draws,
  length vary = length theta -> length bounds = length theta ->
  (forall i lo hi, free vary i -> nth_error bounds i = Some (lo,hi) ->
     exists a b, lo = Fin a /\ hi = Fin b /\ (a <= b)%R) ->
  (forall us, In us draws -> length us = nfree vary /\ forall u, In u us -> unit_draw u) ->
  exists pos, init_walker_pos (length theta) vary bounds draws = Ok pos /\
    length pos = length draws /\
    forall p, In p pos -> length p = nfree vary /\ log_prior theta vary bounds p = Ok (Fin 0).
Proof. exact walkers_prior_zero. Qed.
Print Assumptions C03_walkers_in_prior.

Example C03_example :
  let bounds := [(Fin (-3), Fin 4); (NaN, NaN); (Fin 0, Fin 0)] in
  (forall i lo hi, free ex_vary i -> nth_error bounds i = Some (lo,hi) ->
     exists a b, lo = Fin a /\ hi = Fin b /\ (a <= b)%R) /\
  (forall us, In us [[Fin (1/2); Fin 0]; [Fin (1/3); Fin (2/3)]] ->
     length us = nfree ex_vary /\ forall u, In u us -> unit_draw u).
Proof.
  split.
  - intros [|[|[|[|i]]]] lo hi Hf Hb; simpl in *; try discriminate; injection Hb as <- <-;
      eexists _, _; (split; [reflexivity|]); (split; [reflexivity|]); lra.
  - intros us [<-|[<-|[]]]; (split; [reflexivity|]); intros u [<-|[<-|[]]];
      eexists; (split; [reflexivity|]); lra.
Qed.

(** C03, limit of the hypothesis: with reversed bounds no position has positive prior. *)
Theorem C03_reversed_bounds : forall theta vary bounds tf i a b,
  length vary = length theta -> length bounds = length theta -> length tf = nfree vary ->
  free vary i -> nth_error bounds i = Some (Fin a, Fin b) -> (b < a)%R ->
  log_prior theta vary bounds tf = Ok NInf.
Proof. exact reversed_bounds_no_support. Qed.
Print Assumptions C03_reversed_bounds.

Example C03_reversed_example : free [true] 0 /\ nth_error [(Fin 1, Fin 0)] 0 = Some (Fin 1, Fin 0).
Proof. split; reflexivity. Qed.

(** C04: unpacking writes the free values in order and nothing else. *)
Theorem C04_unpack : forall theta vary tf,
  length vary = length theta -> nfree vary <= length tf ->
  exists th, update_parameters theta vary tf = (th, Ok tt) /\ length th = length theta /\
    (forall m, free vary m -> nth_error th m = nth_error tf (rank vary m)) /\
    (forall m, ~ free vary m -> nth_error th m = nth_error theta m).
Proof. exact update_parameters_spec. Qed.
Print Assumptions C04_unpack.

(** C04: reading back what was written. *)
Theorem C04_round_trip : forall theta vary tf,
  length vary = length theta -> length tf = nfree vary ->
  exists th, update_parameters theta vary tf = (th, Ok tt) /\
             initialize_fitting_theta th vary = Ok tf.
Proof. exact pack_unpack. Qed.
Print Assumptions C04_round_trip.

(** C04: writing back what was read changes nothing. *)
Theorem C04_round_trip_back : forall theta vary tf,
  length vary = length theta -> initialize_fitting_theta theta vary = Ok tf ->
  update_parameters theta vary tf = (theta, Ok tt).
Proof. exact unpack_pack. Qed.
Print Assumptions C04_round_trip_back.

Example C04_example :
  update_parameters [Fin 1; Fin 2; Fin 3] ex_vary [Fin 7; NaN] = ([Fin 7; Fin 2; NaN], Ok tt) /\
  initialize_fitting_theta [Fin 7; Fin 2; NaN] ex_vary = Ok [Fin 7; NaN].
Proof. split; reflexivity. Qed.
