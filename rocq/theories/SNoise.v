(* Specification vocabulary: data with the error bars or the fit weights multiplied by a common factor. *)
From Coq Require Import Reals List Bool Arith.
From Verif Require Import PyFloat PyBase Arr PyNum MParams MKernels MAper2D SBright STruth.
Import ListNotations.
Local Open Scope R_scope.

(** The same data with every error multiplied by [e] and every fit weight by [w]. *)
Definition reweighted (e w : R) (d : data2) : data2 :=
  mkdata (flux d) (times e (ferr d)) (smask d) (times w (fwt d)) (wh_nosky d).
(** The same fit of such data. *)
Definition noisier (e w : R) (c : cfg) : cfg := observed (reweighted e w (g_data (c_gal c))) c.

(** Errors that are nonzero numbers and a mask of numbers. *)
Definition plain_errors (S M : nat -> nat -> R) (d : data2) : Prop :=
  forall i j, at2 (ferr d) i j = Fin (S i j) /\ S i j <> 0 /\ at2 (smask d) i j = Fin (M i j).

(** What is added to [t] times a log-likelihood of an [n] x [p] image when the errors grow [e]-fold. *)
Definition shift (e t : R) (S M : nat -> nat -> R) (n p : nat) : R :=
  - / 2 * rsum2 n p (fun i j => M i j * ((1 - t) * (ln (2 * PI * (S i j * S i j)) / ln 10) + 2 * (ln e / ln 10))).

(** The number of pixels in the fit. *)
Definition npix n p (ok : nat -> nat -> bool) : R := rsum2 n p (fun i j => if ok i j then 1 else 0).

(** Data prepared for a fit: finite flux, positive errors, a 0/1 mask, and whatever weights were computed. *)
Definition fitted (n p : nat) (F S : nat -> nat -> R) (ok : nat -> nat -> bool) (Wt : arr2 fl) (cs : list nat) : data2 :=
  mkdata (fin2 n p F) (fin2 n p S) (fin2 n p (fun i j => if ok i j then 1 else 0)) Wt cs.

(** A numeric image of [n] rows and [p] columns. *)
Definition image_of (n p : nat) (m : arr2 fl) (M : nat -> nat -> R) : Prop :=
  rows m = n /\ cols m = p /\ forall i j, (i < n)%nat -> (j < p)%nat -> at2 m i j = Fin (M i j).

(** Every row is masked altogether, or has no weight, or is used in exactly the columns free of sky lines. *)
Definition whole_rows (n p : nat) (ok : nat -> nat -> bool) (w : nat -> R) (cs : list nat) : Prop :=
  forall i, (i < n)%nat -> (forall j, (j < p)%nat -> ok i j = false) \/ w i = 0 \/ (forall j, (j < p)%nat -> ok i j = true <-> In j cs).

(** Weights that depend on the row only. *)
Definition weights_are (n p : nat) (Wt : arr2 fl) (w : nat -> R) : Prop :=
  forall i j, (i < n)%nat -> (j < p)%nat -> at2 Wt i j = Fin (w i).

(** The image with row [i] multiplied by [A i]. *)
Definition rows_times (n p : nat) (A : nat -> R) (m : arr2 fl) : arr2 fl := mk2 n p (fun i j => fmul (Fin (A i)) (at2 m i j)).
