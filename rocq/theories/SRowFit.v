(* Specification: what is asked of the least-squares optimiser, and a Gaussian row of light. *)
From Coq Require Import Reals List Bool Arith.
From Verif Require Import PyFloat PyBase Arr PyNum MParams MKernels MAper2D MRowFit.
Import ListNotations.
Local Open Scope R_scope.

(** The values an optimiser may return: numbers, with the width within its limit. *)
Definition allowed (q : fprm) : Prop := exists m a f, q = mkF (Fin m) (Fin a) (Fin f) /\ 0 <= f.

(** The sum of squares of the residuals; nan when they cannot be evaluated. *)
Definition sumsq (r : res (list fl)) : fl :=
  match r with Ok l => fsum (map (fun v => fmul v v) l) | Err _ => NaN end.

(** What the optimiser returns is allowed, and nothing allowed has a smaller sum of squares. *)
Definition finds_best (opt : fopt) (f : fprm -> res (list fl)) : Prop :=
  forall p0 q, opt f p0 = Ok q ->
    allowed q /\ isnan (sumsq (f q)) = false /\ forall q', allowed q' -> fltb (sumsq (f q')) (sumsq (f q)) = false.

(** A Gaussian of full width [f] at half maximum. *)
Definition bell (a m f x : R) : R := a * exp (- (4 * ln 2) * (x - m) * (x - m) / (f * f)).

(** An optimiser that gives up on nan residuals at the start (nan_policy='raise', lmfit's default). *)
Definition rejects_nan (opt : fopt) : Prop :=
  forall f p0 l, f p0 = Ok l -> existsb isnan l = true -> opt f p0 = Err ValueError.

(** The same parameters with the amplitude in other units. *)
Definition in_units (k : R) (q : fprm) : fprm := mkF (f_mu q) (fmul (Fin k) (f_A q)) (f_FWHM q).
(** The optimiser's steps do not depend on the unit of the amplitude. *)
Definition unit_free (opt : fopt) : Prop :=
  forall k f g p0, 0 < k -> (forall q, g (in_units k q) = f q) -> opt g (in_units k p0) = (do q <- opt f p0; Ok (in_units k q)).
