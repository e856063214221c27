(* Specification: data sets that differ only in rows masked altogether. *)
From Coq Require Import Reals List Bool Arith.
From Verif Require Import PyFloat PyBase Arr PyNum.
Import ListNotations.
Local Open Scope R_scope.

(** The row has a pixel that is not masked. *)
Definition used_row (p : nat) (ok : nat -> nat -> bool) (i : nat) : Prop := exists j, (j < p)%nat /\ ok i j = true.

(** Flux, error and weight agree in every row that has a pixel that is not masked. *)
Definition same_in_used_rows (n p : nat) (ok : nat -> nat -> bool) (F S W F' S' W' : nat -> nat -> R) : Prop :=
  forall i j, (i < n)%nat -> (j < p)%nat -> used_row p ok i -> F i j = F' i j /\ S i j = S' i j /\ W i j = W' i j.
