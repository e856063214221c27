(* Specification vocabulary for binary64 parameter boxes. *)
From Coq Require Import ZArith Reals List.
From Flocq Require Import Core IEEE754.Binary IEEE754.Bits.
From Verif Require Import SParams.

(** The real number a finite binary64 stands for. *)
Definition val64 (x : binary64) : R := B2R 53 1024 x.
(** Neither infinite nor nan. *)
Definition finite64 (x : binary64) : Prop := is_finite 53 1024 x = true.
(** The largest finite double. *)
Definition largest64 : R := (bpow radix2 1024 - bpow radix2 971)%R.

(** Bounds in order whose width is in the range of doubles. *)
Definition box64 (lo hi : binary64) : Prop :=
  finite64 lo /\ finite64 hi /\ (val64 lo <= val64 hi)%R /\ (val64 hi - val64 lo <= largest64)%R.
(** A uniform draw: 0 <= u < 1. *)
Definition draw64 (u : binary64) : Prop := finite64 u /\ (0 <= val64 u < 1)%R.

(** Every free value is a finite number in the closed interval of its parameter. *)
Definition in_box64 (vary : list bool) (bounds : list (binary64 * binary64)) (tf : list binary64) : Prop :=
  forall i lo hi x, free vary i -> nth_error bounds i = Some (lo, hi) ->
    nth_error tf (rank vary i) = Some x -> finite64 x /\ (val64 lo <= val64 x <= val64 hi)%R.
