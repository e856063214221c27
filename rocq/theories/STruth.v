(* Specification vocabulary: fitting an observation that contains no noise. *)
From Coq Require Import Reals List Bool Arith.
From Verif Require Import PyFloat PyBase Arr MParams MKernels MAper2D SKernels.
Import ListNotations.
Local Open Scope R_scope.

(** The same galaxy, instrument, options and profiles with the data [d]. *)
Definition observed (d : data2) (c : cfg) : cfg :=
  let g := c_gal c in
  mkcfg (mkgal (g_q g) (g_q0 g) (g_dPA g) (g_rows g) (g_wave g) (g_m0 g) (g_rest g) (g_ratio g) d) (c_ins c) (c_opt c) (c_prof c).

(** A usable data set of [n] rows and [p] columns: nonzero errors, weights that are not negative where the mask
    lets a pixel in, and no such pixel in a sky-line column. *)
Definition usable (n p : nat) (S W : nat -> nat -> R) (ok : nat -> nat -> bool) (cs : list nat) : Prop :=
  cols_ok p cs /\
  forall i j, (i < n)%nat -> (j < p)%nat -> S i j <> 0 /\ (ok i j = true -> 0 <= W i j /\ In j cs).

(** The flux [F] is the image [m], row [i] multiplied by [A i], in all columns free of sky lines. *)
Definition noise_free (n p : nat) (F : nat -> nat -> R) (cs : list nat) (A : nat -> R) (m : arr2 fl) : Prop :=
  rows m = n /\ cols m = p /\
  forall i j, (i < n)%nat -> (j < p)%nat -> exists x, at2 m i j = Fin x /\ (In j cs -> F i j = A i * x).

(** A log-likelihood that is at most [L] (or not a number). *)
Definition at_most (v : fl) (L : R) : Prop := v = NaN \/ v = NInf \/ exists x, v = Fin x /\ x <= L.
