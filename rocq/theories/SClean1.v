(* Specification: a noise-free 1-D spectrum, and least-squares solutions of a 1-D fit. *)
From Coq Require Import String Reals List Bool Arith.
From Verif Require Import PyFloat PyBase Arr PyNum MKernels SMask MIo MTrim MFit1D SFit1D.
Import ListNotations.
Local Open Scope R_scope.

(** The wavelengths of the pixels [ks]. *)
Definition at_pixels (xs : list R) (ks : list nat) : list R := map (fun k => nth k xs 0) ks.

(** On the used pixels the flux is the spectrum of these numbers, and the errors are numbers other than zero. *)
Definition clean_spectrum (xs : list R) (data err : list fl) (ks : list nat) (z vd : R) (sets : list (R * list (R * R))) (cs : list R) : Prop :=
  forall k, In k ks -> nth k data NaN = Fin (spectrum_value (at_pixels xs ks) z vd sets cs (nth k xs 0)) /\
    exists e, nth k err NaN = Fin e /\ e <> 0.

(** Sum of the squared residuals; nan if they cannot be evaluated. *)
Definition chi2 (r : res (list fl)) : fl := match r with Ok l => fsum (map (fun v => fmul v v) l) | Err _ => NaN end.

(** Started from [p], the optimiser stays within its bounds, and nothing within them has a smaller sum of squares. *)
Definition least_squares (M : optimiser) (rf : prm -> res (list fl)) (p : prm) : Prop :=
  forall r, M rf p = Ok r -> within_prm p r /\ isnan (chi2 (rf r)) = false /\
    forall q, within_prm p q -> fltb (chi2 (rf q)) (chi2 (rf r)) = false.
