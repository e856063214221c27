(* Property theorems: pixels without a usable error or flux (C144). *)
From Coq Require Import Reals List Bool Arith.
From Verif Require Import PyFloat PyBase Arr PyNum MParams MKernels MAper2D MMock SParams SKernels SAper2D SMirror SFinite SBad PFinite4 PBad.
Import ListNotations.
Local Open Scope R_scope.

(** C144: the log-likelihood is a number exactly if at every pixel of the image, masked or not, flux, mask, weight and model are numbers and the error is a number other than zero. *)
Theorem C144_finite : forall d m,
  isfinite (model_llike d m) = true <-> forall i j, (i < rows m)%nat -> (j < cols m)%nat -> pixel_is_fine d m i j.
Proof. exact finite_iff. Qed.
Print Assumptions C144_finite.

(** C144: with one bad pixel, masked or not, the posterior is minus infinity for every parameter vector and prior, after any history of evaluations. *)
Theorem C144_posterior : forall c k0 k prior tf i j v, offsets_fixed k0 -> fresh k0 -> history c k0 k ->
  (i < img_rows c)%nat -> (j < length (g_wave (c_gal c)))%nat -> bad_pixel (g_data (c_gal c)) i j ->
  snd (lnprob prior (km_llike c) k tf) = Ok v -> v = NInf.
Proof. exact no_posterior. Qed.
Print Assumptions C144_posterior.

Example C144_posterior_example : forall b, let c := mock_cfg (x_mock 50) (x_mk 50) (y_bad b) in
  offsets_fixed x_kf /\ fresh x_kf /\ (0 < img_rows c)%nat /\ (0 < length (g_wave (c_gal c)))%nat /\ bad_pixel (g_data (c_gal c)) 0 0 /\
  exists k, history c x_kf k /\ forall prior, prior [Fin 200; Fin (1/2); Fin 50] = Ok (Fin 0) -> snd (lnprob prior (km_llike c) k [Fin 200; Fin (1/2); Fin 50]) = Ok NInf.
Proof. exact bad_example. Qed.

(** C144: chi-squared leaves out pixels with an infinite error as if they were masked. *)
Theorem C144_chisq : forall B d m, infinite_errors B d m -> model_chisq d m = model_chisq (masked_out B d) m.
Proof. exact chisq_drops. Qed.
Print Assumptions C144_chisq.

Example C144_chisq_example : infinite_errors (fun i j => Nat.eqb i 0 && Nat.eqb j 0) (y_bad false) (fin2 3 4 (fun _ _ => 0)) /\
  model_chisq (y_bad false) (fin2 3 4 (fun _ _ => 0)) = Fin 11 /\ isfinite (model_llike (y_bad true) (fin2 3 4 (fun _ _ => 0))) = false.
Proof. exact drops_example. Qed.

(** C144: an infinite error does not remove a pixel from the likelihood as it does from chi-squared, and masking the pixel as well does not help. *)
Theorem C144_infinite_refuted : exists B d m, infinite_errors B d m /\ isfinite (model_chisq d m) = true /\ isfinite (model_llike (masked_out B d) m) = true /\
  isfinite (model_llike d m) = false /\ isfinite (model_llike (mkdata (flux d) (ferr d) (smask (masked_out B d)) (fwt d) (wh_nosky d)) m) = false.
Proof. exact infinite_refuted. Qed.
Print Assumptions C144_infinite_refuted.
