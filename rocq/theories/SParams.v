(* Specification vocabulary for parameter vectors (independent of the model loops). *)
From Coq Require Import Reals List Arith.
From Verif Require Import PyFloat.
Import ListNotations.

(** Order on float values as numpy compares them: nan is not comparable. *)
Inductive fle : fl -> fl -> Prop :=
| fle_fin a b : (a <= b)%R -> fle (Fin a) (Fin b)
| fle_ninf x : x <> NaN -> fle NInf x
| fle_pinf x : x <> NaN -> fle x PInf.

(** Number of free parameters among the first [i]: the position, in the vector of free
    values, of parameter [i]. *)
Fixpoint rank (vary : list bool) (i : nat) : nat :=
  match i, vary with
  | S i', b :: vary' => (if b then 1 else 0) + rank vary' i'
  | _, _ => 0
  end.

Definition nfree (vary : list bool) : nat := rank vary (length vary).

Definition free (vary : list bool) (i : nat) : Prop := nth_error vary i = Some true.

(** Every free value lies in the closed interval of its parameter. *)
Definition in_support (vary : list bool) (bounds : list (fl * fl)) (tf : list fl) : Prop :=
  forall i lo hi x, free vary i -> nth_error bounds i = Some (lo, hi) ->
    nth_error tf (rank vary i) = Some x -> fle lo x /\ fle x hi.
