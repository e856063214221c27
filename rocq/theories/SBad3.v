(* Specification: unmasked pixels of a set. *)
From Coq Require Import Reals List Bool Arith.
From Verif Require Import PyFloat PyBase Arr PyNum MKernels.
Import ListNotations.
Local Open Scope R_scope.

(** The number of pixels of [B] whose mask is one. *)
Definition unmasked_in (B : nat -> nat -> bool) (d : data2) : nat :=
  length (filter (fun p => B (fst p) (snd p) && feqb (at2 (smask d) (fst p) (snd p)) (Fin 1))
    (list_prod (seq 0 (rows (smask d))) (seq 0 (cols (smask d))))).
