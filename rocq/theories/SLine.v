(* Specification vocabulary for line profiles and reduced chi-squared. *)
From Coq Require Import Reals List Bool Arith.
From Verif Require Import PyFloat Arr MKernels.
Import ListNotations.
Local Open Scope R_scope.

(** Gaussian density with mean [mu] and standard deviation [s]. *)
Definition normal (mu s x : R) : R := exp (- (x - mu) ^ 2 / (2 * s ^ 2)) / (s * sqrt (2 * PI)).

(** Number of unmasked pixels of an n x p image. *)
Definition n_good (n p : nat) (ok : nat -> nat -> bool) : nat :=
  length (filter (fun ij => ok (fst ij) (snd ij)) (list_prod (seq 0 n) (seq 0 p))).

(** The arrays the caller stores: intensity repeated along the spectrum, wavelengths along the cube. *)
Definition tiled_I (nW nZ nY nX : nat) (I : nat -> nat -> nat -> R) : arr4 fl := mk4 nW nZ nY nX (fun _ m j k => Fin (I m j k)).
Definition tiled_w (nW nZ nY nX : nat) (x : nat -> R) : arr4 fl := mk4 nW nZ nY nX (fun w _ _ _ => Fin (x w)).

(** Samples at most [h] apart. *)
Definition in_reach (h i p : nat) : bool := Nat.leb (i - p) h && Nat.leb (p - i) h.
