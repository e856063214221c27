(* Specification vocabulary: the sign of the dispersion parameter in a 2-D fit. *)
From Coq Require Import Reals List Bool Arith.
From Verif Require Import PyFloat PyBase Arr PyNum MParams MKernels MAper2D.
Import ListNotations.
Local Open Scope R_scope.

(** An image with every value negated. *)
Definition negated (m : arr2 fl) : arr2 fl := mk2 (rows m) (cols m) (fun i j => fneg (at2 m i j)).

(** Two parameter vectors of one length that agree but for the sign of the entry at position [n]. *)
Definition sign_at (n : nat) (th th' : list fl) : Prop :=
  length th = length th' /\ (forall i, i <> n -> nth_error th i = nth_error th' i) /\
  (nth_error th' n = nth_error th n \/ nth_error th' n = option_map fneg (nth_error th n)).

(** A profile (parameters, radius, height) that changes sign with its parameters. *)
Definition odd_profile (f : list fl -> fl -> fl -> fl) : Prop := forall p r h, f (map fneg p) r h = fneg (f p r h).

(** Two constructions end alike but for the sign of the light: the same PSF stamp is left behind, and either both raise
    the same exception or the second image is the first or the first negated. *)
Definition image_to_sign (p q : stamp * res aper) : Prop :=
  fst p = fst q /\
  match snd p, snd q with
  | Ok a, Ok b => a_model b = a_model a \/ a_model b = option_map negated (a_model a)
  | Err e, Err e' => e = e'
  | _, _ => False
  end.
