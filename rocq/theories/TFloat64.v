(* Property theorems: Walker initialisation and the flat prior in IEEE double precision *)
From Coq Require Import ZArith Reals List Bool Arith.
From Flocq Require Import Core IEEE754.BinarySingleNaN IEEE754.Binary IEEE754.Bits.
From Verif Require Import PyBase SParams SFloat64 MFloat64 PFloat64.
Import ListNotations.
Local Open Scope R_scope.

(** C75: for every box of doubles whose widths do not overflow and all draws in [0,1), every rounded
    walker position is finite, inside its closed bounds, and has prior 0. *)
Theorem C75_walkers_in_bounds : forall vary bounds draws, length bounds = length vary ->
  (forall i lo hi, free vary i -> nth_error bounds i = Some (lo,hi) -> box64 lo hi) ->
  (forall us, In us draws -> length us = nfree vary /\ forall u, In u us -> draw64 u) ->
  exists pos, init_walker64 (length vary) vary bounds draws = Ok pos /\
    length pos = length draws /\
    forall p, In p pos -> length p = nfree vary /\ in_box64 vary bounds p /\
      log_prior64 (length vary) vary bounds p = Ok (B754_zero 53 1024 false).
Proof. exact walkers64_prior. Qed.
Print Assumptions C75_walkers_in_bounds.

(** bounds -0.1 .. 0.7 and a degenerate box, draws 1/2 and 1 - 2^-53 *)
Example C75_walkers_example : let vary := [true; false; true] in
  let bounds := [(d_mtenth, d_seven); (d_seven, d_mtenth); (d_third, d_third)] in
  (forall i lo hi, free vary i -> nth_error bounds i = Some (lo,hi) -> box64 lo hi) /\
  (forall us, In us [[d_top; d_half]; [d_half; d_top]] ->
     length us = nfree vary /\ forall u, In u us -> draw64 u).
Proof. exact ex_walkers64. Qed.

(** C75: the prior of doubles is 0 exactly on the box and minus infinity elsewhere, infinities and nan included. *)
Theorem C75_prior : forall vary bounds tf, length bounds = length vary ->
  (forall j lo hi, free vary j -> nth_error bounds j = Some (lo, hi) -> finite64 lo /\ finite64 hi) ->
  (nfree vary <= length tf)%nat ->
  (in_box64 vary bounds tf /\ log_prior64 (length vary) vary bounds tf = Ok (B754_zero 53 1024 false)) \/
  (~ in_box64 vary bounds tf /\ log_prior64 (length vary) vary bounds tf = Ok (B754_infinity 53 1024 true)).
Proof. exact log_prior64_spec. Qed.
Print Assumptions C75_prior.

(** C75, limit: finite ordered bounds whose width overflows give an infinite walker with prior minus infinity. *)
Theorem C75_overflow_refuted : exists lo hi u, finite64 lo /\ finite64 hi /\ val64 lo <= val64 hi /\ draw64 u /\
    init_walker64 1 [true] [(lo, hi)] [[u]] = Ok [[B754_infinity 53 1024 false]] /\
    log_prior64 1 [true] [(lo, hi)] [B754_infinity 53 1024 false] = Ok (B754_infinity 53 1024 true).
Proof. exact overflow64. Qed.
Print Assumptions C75_overflow_refuted.
