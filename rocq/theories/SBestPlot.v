(* Specification vocabulary for the figures of a fit. *)
From Coq Require Import Reals List Bool Arith.
From Verif Require Import PyFloat PyBase Arr PyNum MSlitPlot MBestPlot.
Import ListNotations.
Local Open Scope R_scope.

(** Height [y] of the figure lies in a hatched strip. *)
Definition hatched (F : figure) (y : R) : Prop := exists x a b, In (x, (Fin a, Fin b)) (v_hatch F) /\ a <= y <= b.
(** [x] is the free parameter number [k]: [vary] is true there, and [k] times before. *)
Definition free_at (vary : list bool) (i k : nat) : Prop :=
  nth_error vary i = Some true /\ length (filter (fun b => b) (firstn i vary)) = k.
