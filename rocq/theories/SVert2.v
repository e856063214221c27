(* Specification vocabulary: what the fits for the object row are given. *)
From Coq Require Import Reals List Bool Arith ZArith.
From Verif Require Import PyFloat PyBase Arr PyNum MTrim MVert SVert.
Import ListNotations.
Local Open Scope R_scope.

(** The entries of an image, row after row. *)
Definition row_major (n p : nat) (f : nat -> nat -> R) (l : list fl) : Prop :=
  length l = (n * p)%nat /\ forall i j, (i < n)%nat -> (j < p)%nat -> nth_error l (i * p + j) = Some (Fin (f i j)).

(** Errors with three times [m] where they are missing. *)
Definition with_missing (m : R) (e : nat -> nat -> R) (i j : nat) : R := if Req_EM_T (e i j) (-99) then 3 * m else e i j.

(** Row [i] is the first or the last and has the largest S/N (the first such row). *)
Definition best_edge (n : nat) (s : nat -> R) (i : nat) : Prop :=
  (i = 0%nat /\ forall k, (k < n)%nat -> s k <= s 0%nat) \/ (i = (n - 1)%nat /\ (0 < i)%nat /\ forall k, (k < n - 1)%nat -> s k < s i).

(** The flux of row [i] a fit is given: the sum of the row, 0 for a best edge row. *)
Definition flux_given (n p : nat) (f e : nat -> nat -> R) (i : nat) (x : fl) : Prop :=
  (best_edge n (sn_row p f e) i -> x = Fin 0) /\ (~ best_edge n (sn_row p f e) i -> x = Fin (rsumn p (f i))).
(** The error: the root of the sum of squares. *)
Definition error_given (p : nat) (e : nat -> nat -> R) (i : nat) : fl := Fin (sqrt (rsumn p (fun j => e i j * e i j))).

(** The request holds rows [a..a+k-1]. *)
Definition holds (n p : nat) (f e : nat -> nat -> R) (a k : nat) (q : vreq) : Prop :=
  length (vq_flux q) = k /\ length (vq_err q) = k /\ vq_mumax q = (Z.of_nat k - 1)%Z /\
  forall i, (i < k)%nat -> (exists x, nth_error (vq_flux q) i = Some x /\ flux_given n p f e (a + i) x) /\
    nth_error (vq_err q) i = Some (error_given p e (a + i)).

(** All rows, or all but five at each end (only with an expected position); positions are counted from the first row held.  Without
    an expected position the fit starts from the middle and may move. *)
Definition row_request (dither : bool) (ypos : option R) (n p : nat) (f e : nat -> nat -> R) (q : vreq) : Prop :=
  vq_three q = dither /\
  match ypos with
  | None => holds n p f e 0 n q /\ vq_mu q = Fin ((INR n - 1) / 2) /\ vq_vary q = true
  | Some y => (holds n p f e 0 n q /\ vq_mu q = Fin y) \/ (holds n p f e 5 (n - 10) q /\ vq_mu q = Fin (y - 5) /\ vq_vary q = false)
  end.
