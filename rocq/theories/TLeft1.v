(* Property theorems: pixels without a usable flux or error in 1-D fits (C146). *)
From Coq Require Import String Reals List Bool Arith.
From Verif Require Import PyFloat PyBase Arr PyNum MKernels MIo MTrim MFit1D SFit1D SClean1 SLeft1 PFit1DEx PClean1 PLeft1.
Import ListNotations.
Local Open Scope R_scope.

(** C146: a used pixel whose flux is not a number, or whose error is zero, infinite or nan, has the residual zero at all parameters. *)
Theorem C146_zero : forall T names order x data err mask ks q r j k,
  length data = length x -> length err = length x -> length mask = length x -> used_pixels mask ks ->
  residual T names order x (Some data) (Some err) (Some mask) q = Ok r -> nth_error ks j = Some k -> no_use data err k -> nth_error r j = Some (Fin 0).
Proof. exact no_use_zero. Qed.
Print Assumptions C146_zero.

Example C146_zero_example : let data := [NaN; Fin 2; Fin 3] in let err := [Fin 1; PInf; Fin 0] in
  (forall k, used ones3 k -> no_use data err k) /\ residual shipped ["Halpha"%string] 0 (map Fin k_xs) (Some data) (Some err) (Some ones3) l_prm = Ok [Fin 0; Fin 0; Fin 0].
Proof. exact no_use_example. Qed.

(** C146: what such pixels hold has no influence on the fitted parameters, whatever the optimiser. *)
Theorem C146_fit : forall M c s x data err data' err' mask,
  length data = length x -> length err = length x -> length mask = length x ->
  length data' = length x -> length err' = length x ->
  (forall k, used mask k -> nth k data NaN = nth k data' NaN /\ nth k err NaN = nth k err' NaN \/ no_use data err k /\ no_use data' err' k) ->
  best_params M c s x (Some data) (Some err) (Some mask) = best_params M c s x (Some data') (Some err') (Some mask).
Proof. exact no_use_fit. Qed.
Print Assumptions C146_fit.

(** C146: an infinite error is not the same as masking: with the pixel at the line centre masked the true parameters no longer fit noise-free data, with an infinite error they do. *)
Theorem C146_mask_refuted : exists T names order x data err mask q k, holds q 0 80 [1] [0] /\ clean_spectrum k_xs data (map (fun _ => Fin 1) k_xs) [0%nat; 1%nat; 2%nat] 0 80 k_sets [0] /\
  x = map Fin k_xs /\ nth k err NaN = PInf /\ used mask k /\
  chi2 (residual T names order x (Some data) (Some err) (Some mask) q) = Fin 0 /\
  fltb (Fin 0) (chi2 (residual T names order x (Some data) (Some err) (Some (firstn k mask ++ Fin 0 :: skipn (S k) mask)) q)) = true.
Proof. exact left_out_refuted. Qed.
Print Assumptions C146_mask_refuted.
