(* Specification vocabulary for the profile properties. *)
From Coq Require Import Reals List.
From Verif Require Import PyFloat Arr.
Local Open Scope R_scope.

(** [st] samples a positive circular profile of full width at half maximum [F] at the
    points (xs_i, ys_j): one row per y, one column per x; equal at equal distance from the
    origin, smaller further out, and half the central value at distance F/2. *)
Definition bell (F : R) (xs ys : list R) (st : arr2 fl) : Prop :=
  rows st = length ys /\ cols st = length xs /\
  exists val : nat -> nat -> R,
    let d2 j i := nth i xs 0 * nth i xs 0 + nth j ys 0 * nth j ys 0 in
    forall j i, (j < length ys)%nat -> (i < length xs)%nat ->
      at2 st j i = Fin (val j i) /\ 0 < val j i /\
      forall j' i', (j' < length ys)%nat -> (i' < length xs)%nat ->
        (d2 j i = d2 j' i' -> val j' i' = val j i) /\
        (d2 j i < d2 j' i' -> val j' i' < val j i) /\
        (d2 j i = 0 -> d2 j' i' = (F / 2) * (F / 2) -> val j' i' = val j i / 2).
