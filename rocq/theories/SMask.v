(* Specification vocabulary for masks and weights; nothing of the model's code is used. *)
From Coq Require Import Reals List Bool Arith ZArith Sorted.
From Verif Require Import PyFloat PyBase Arr.
Import ListNotations.
Local Open Scope R_scope.

(** A non-empty block of consecutive integers. *)
Definition consecutive (r : list nat) : Prop := exists a n, r = seq a (S n).
(** Neighbouring blocks do not join: the next one does not start right after the previous. *)
Fixpoint gaps (rs : list (list nat)) : Prop :=
  match rs with
  | r1 :: ((r2 :: _) as t) => hd 0%nat r2 <> S (last r1 0%nat) /\ gaps t
  | _ => True
  end.
(** Strictly increasing index list. *)
Definition ascending (l : list nat) : Prop := StronglySorted lt l.

(** Pixel [i] of a 1-D spectrum is unusable: flux or error not finite, zero weight, or (unless
    only non-finite values are asked for) zero error in a spectrum without NaN errors that has
    some non-zero error. *)
Definition unusable (spec err : list fl) (weight : option (list fl)) (nonfinite_only : bool) (i : nat) : Prop :=
  isfinite (nth i spec NaN) = false \/ isfinite (nth i err NaN) = false \/
  (exists w, weight = Some w /\ nth i w NaN = Fin 0) \/
  (nonfinite_only = false /\ nth i err NaN = Fin 0 /\ ~ In NaN err /\ exists e, In e err /\ e <> Fin 0).

(** First and last index of value 1. *)
Definition first_valid (mask : list fl) (l : nat) : Prop :=
  nth_error mask l = Some (Fin 1) /\ forall i, (i < l)%nat -> nth_error mask i <> Some (Fin 1).
Definition last_valid (mask : list fl) (r : nat) : Prop :=
  nth_error mask r = Some (Fin 1) /\ forall i, (r < i)%nat -> nth_error mask i <> Some (Fin 1).

(** Masked noise of column [j]: root of the summed squares. *)
Definition noise2 (err mask : nat -> nat -> R) (n j : nat) : R :=
  sqrt (rsumn n (fun i => (err i j * mask i j) ^ 2)).

(** Signal-to-noise of row [i] at least [cut] (NaN never is). *)
Definition good (snr : list fl) (cut : fl) (i : nat) : Prop :=
  exists s, nth_error snr i = Some s /\ fleb cut s = true.

(** Row weights [prof] and weight image [M] for an [n] x [p] image: finite, non-negative, adding
    up to one unless all zero, zero on the rows [low], and constant along each row. *)
Definition weights_good (n p : nat) (low : list nat) (prof : list fl) (M : arr2 fl) : Prop :=
  exists ps, prof = map Fin ps /\ length ps = n /\ (forall x, In x ps -> 0 <= x) /\
    (rsum ps = 1 \/ forall x, In x ps -> x = 0) /\
    (forall i, In i low -> nth i ps 0 = 0) /\
    rows M = n /\ cols M = p /\ forall i j, (i < n)%nat -> at2 M i j = Fin (nth i ps 0).

(** Row [i] belongs to three consecutive rows satisfying [P]. *)
Definition in_triple (P : nat -> Prop) (i : nat) : Prop :=
  exists a, (a <= i <= a + 2)%nat /\ P a /\ P (a + 1)%nat /\ P (a + 2)%nat.
