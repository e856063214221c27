(* Specification vocabulary for the object row and its window. *)
From Coq Require Import Reals List Bool Arith ZArith.
From Verif Require Import PyFloat PyBase Arr PyNum MTrim MVert.
Import ListNotations.
Local Open Scope R_scope.

(** An optimiser that keeps to the limits it is given: a position that may vary is found between 0 and its upper
    limit, a fixed one stays, and the separation of the images of a dithered object is at least 1 and at most its
    upper limit. *)
Definition respects (lm : vreq -> res vans) : Prop := forall q a, lm q = Ok a ->
  (vq_vary q = true -> exists m, va_mu a = Fin m /\ 0 <= m <= IZR (vq_mumax q)) /\
  (vq_vary q = false -> va_mu a = vq_mu q) /\
  (vq_three q = true -> exists d x, va_delt a = Fin d /\ vq_dmax q = Fin x /\ 1 <= d <= x).

(** A request whose limits leave room (lmfit refuses equal ones). *)
Definition answerable (q : vreq) : Prop :=
  (vq_vary q = true -> (0 < vq_mumax q)%Z) /\ (vq_three q = true -> exists x, vq_dmax q = Fin x /\ 1 < x).
(** An optimiser that answers every such request. *)
Definition always (lm : vreq -> res vans) : Prop := forall q, answerable q -> exists a, lm q = Ok a.
(** Enough rows for the limits of the first fit. *)
Definition enough (dither : bool) (n : nat) : Prop := (2 <= n)%nat /\ (dither = true -> (3 <= n)%nat).

(** Rows [v_min..v_max] are [h] rows to either side of the centre. *)
Definition symmetric (v : vpos) (h : Z) : Prop := (v_m0 v - v_min v = h /\ v_max v - v_m0 v = h)%Z.

(** The recorded row and sub-row shift stand for the position [r]. *)
Definition stands_for (v : vpos) (r : R) : Prop :=
  v_shift v = Fin (r - IZR (v_m0 v)) /\ Rabs (r - IZR (v_m0 v)) <= 1/2.

(** Images given by real numbers, no error being the missing-value flag -99. *)
Definition image (a : arr2 fl) (n p : nat) (f : nat -> nat -> R) : Prop :=
  rows a = n /\ cols a = p /\ forall i j, (i < n)%nat -> (j < p)%nat -> at2 a i j = Fin (f i j).
Definition no_missing (n p : nat) (e : nat -> nat -> R) : Prop :=
  forall i j, (i < n)%nat -> (j < p)%nat -> e i j <> -99.

(** The S/N of a row: |sum of the flux| over the quadratic sum of the errors, 0 if there is no error. *)
Definition sn_row (p : nat) (f e : nat -> nat -> R) (i : nat) : R :=
  let v := rsumn p (fun j => e i j * e i j) in
  if Req_EM_T v 0 then 0 else Rabs (rsumn p (f i)) / sqrt v.

(** The wavelengths are numbers and there is at least one. *)
Definition wavelengths (w : list fl) : Prop := w <> [] /\ forall x, In x w -> isfinite x = true.
