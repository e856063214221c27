(* Specification vocabulary for the numeric kernels; from the model only the array, float and
   data-set types are used. *)
From Coq Require Import Reals List Bool Arith.
From Verif Require Import PyFloat PyBase Arr MKernels.
Import ListNotations.
Local Open Scope R_scope.

(** Sum of the f0 x f1 block of image [a] that belongs to output cell (i,j). *)
Definition block_sum (a : arr2 fl) (f0 f1 i j : nat) : fl :=
  fsumn f0 (fun p => fsumn f1 (fun q => at2 a (i * f0 + p) (j * f1 + q))).

(** Real images: chi-squared of one row of data against r times a model row, over a list of
    columns. *)
Definition row_chi2 (f m s : nat -> R) (cs : list nat) (r : R) : R :=
  rsum (map (fun c => ((f c - r * m c) / s c) ^ 2) cs).

(** Weighted chi-squared over the unmasked pixels of an n x p image. *)
Definition chi2 (n p : nat) (f m s w : nat -> nat -> R) (ok : nat -> nat -> bool) : R :=
  rsum2 n p (fun i j => if ok i j then w i j * ((f i j - m i j) / s i j) ^ 2 else 0).

(** Log-likelihood of independent Gaussian errors over the unmasked pixels. *)
Definition gauss_loglike (n p : nat) (f m s : nat -> nat -> R) (ok : nat -> nat -> bool) : R :=
  rsum2 n p (fun i j =>
    if ok i j then ln (exp (- ((f i j - m i j) / s i j) ^ 2 / 2) / (s i j * sqrt (2 * PI)))
    else 0).

(** Multiply every entry by a constant. *)
Definition scale3 (c : R) (a : arr3 fl) : arr3 fl :=
  mk3 (dim0 a) (dim1 a) (dim2 a) (fun i j k => fmul (Fin c) (at3 a i j k)).

Definition nonneg2 (a : arr2 fl) : Prop :=
  forall i j, (i < rows a)%nat -> (j < cols a)%nat -> exists r, at2 a i j = Fin r /\ 0 <= r.
Definition nonneg3 (a : arr3 fl) : Prop :=
  forall i j k, (i < dim0 a)%nat -> (j < dim1 a)%nat -> (k < dim2 a)%nat ->
    exists r, at3 a i j k = Fin r /\ 0 <= r.

(** A data set with finite entries. *)
Definition findata (n p : nat) (F S W : nat -> nat -> R) (ok : nat -> nat -> bool) (cs : list nat) : data2 :=
  mkdata (fin2 n p F) (fin2 n p S) (fin2 n p (fun i j => if ok i j then 1 else 0)) (fin2 n p W) cs.

(** Column indices inside an image of p columns. *)
Definition cols_ok (p : nat) (cs : list nat) : Prop := forall c, In c cs -> (c < p)%nat.

(** The model-independent part of the code's log-likelihood. *)
Definition ll_const n p (S : nat -> nat -> R) (ok : nat -> nat -> bool) : R :=
  rsum2 n p (fun i j => if ok i j then ln (2 * PI * (S i j)^2) / ln 10 else 0).

(** Total of the finite entries of a cube. *)
Definition total3 (a : arr3 fl) : R := rsum3 (dim0 a) (dim1 a) (dim2 a) (val3 a).
