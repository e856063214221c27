(* Specification vocabulary: parameters moved along a curve. *)
From Coq Require Import Reals List.
From Verif Require Import PyFloat PyBase Arr PyNum MPost.
Import ListNotations.
Local Open Scope R_scope.

(** The interval from [lo] to [hi] is on one side of zero, or is zero. *)
Definition one_sided (lo hi : R) : Prop := 0 < lo \/ hi < 0 \/ (lo = 0 /\ hi = 0).

(** [th] is [best] with its first parameter set to [x] and its parameter [j] set to [y]. *)
Definition moved (best : list fl) (x : fl) (j : nat) (y : fl) (th : list fl) : Prop :=
  length th = length best /\ nth_error th 0 = Some x /\ nth_error th j = Some y /\
  forall i, i <> 0%nat -> i <> j -> nth_error th i = nth_error best i.

(** The velocity is proportional to the first parameter. *)
Definition proportional (p : kprof) : Prop :=
  forall t r v, kp_vel p (Fin 1 :: t) r = Fin v -> forall a, kp_vel p (Fin a :: t) r = Fin (a * v).
