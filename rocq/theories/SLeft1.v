(* Specification: pixels of a 1-D spectrum without a usable flux or error. *)
From Coq Require Import Reals List Bool Arith.
From Verif Require Import PyFloat PyBase Arr PyNum.
Import ListNotations.
Local Open Scope R_scope.

(** The flux is not a number, or the error is infinite, nan or zero. *)
Definition no_use (data err : list fl) (k : nat) : Prop :=
  isfinite (nth k data NaN) = false \/ forall e, nth k err NaN = Fin e -> e = 0.
