(* Property theorems: units and frame of the wavelengths of a 2-D fit (C126). *)
From Coq Require Import Reals List Bool Arith ZArith.
From Verif Require Import PyFloat PyBase Arr PyNum MParams MKernels MAper2D SParams SAper2D SMirror SBright SFrame PLos PBright4 PFrame3.
Import ListNotations.
Local Open Scope R_scope.

(** C126: wavelengths of the spectrum times u, line wavelengths times v, redshift such that the lines stay where they are: the model image is the same, or the same divided by u; errors stay errors. *)
Theorem C126_image : forall u v c th th' st, 0 < u -> 0 < v -> o_spec (c_opt c) = Wave -> moved u v c th th' ->
  exists k, (k = 1 \/ k = / u) /\ image_times k (aper_new c th st) (aper_new (in_frame u v c) th' st).
Proof. exact frame_image. Qed.
Print Assumptions C126_image.

Example C126_example_image : forall st, exists k, (k = 1 \/ k = / 10) /\
  image_times k (aper_new y_cfg [Fin 200; Fin (1/2); Fin 50; Fin 0; Fin 1] st) (aper_new (in_frame 10 10 y_cfg) [Fin 200; Fin (1/2); Fin 50; Fin 0; Fin 1] st).
Proof. exact z_frame_image. Qed.

(** C126: a fit with a fixed redshift, scaling its model, gives the same model image, the same errors and the same likelihoods. *)
Theorem C126_fit : forall u v c k th' tf0 tfs, 0 < u -> 0 < v -> o_spec (c_opt c) = Wave -> moved u v c (k_theta k) th' ->
  k_noscale k = false -> k_aper k = None -> nth (length (k_theta k) - 1) (k_vary k) false = false ->
  let c' := in_frame u v c in
  let p := km_make c tf0 k in let p' := km_make c' tf0 (with_theta th' k) in
  snd p = snd p' /\ (snd p = Ok tt -> k_model (fst p) = k_model (fst p')) /\ likelihoods c (fst p) tfs = likelihoods c' (fst p') tfs.
Proof. exact frame_fit. Qed.
Print Assumptions C126_fit.

Example C126_example_fit : let th := [Fin 200; Fin (1/2); Fin 50; Fin 0; Fin 1] in let th' := [Fin 200; Fin (1/2); Fin 50; Fin 0; Fin 0] in
  let c' := in_frame (1/2) 1 y_cfg in
  let p := km_make y_cfg (firstn 3 th) (z_kin th) in let p' := km_make c' (firstn 3 th) (z_kin th') in
  g_wave (c_gal y_cfg) = [Fin 13126; Fin 13134] /\ g_wave (c_gal c') = [Fin (1/2 * 13126); Fin (1/2 * 13134)] /\
  snd p = Ok tt /\ snd p' = Ok tt /\ k_model (fst p) = k_model (fst p') /\
  likelihoods y_cfg (fst p) [[Fin 150; Fin (1/4); Fin 40]; [Fin 90]] = likelihoods c' (fst p') [[Fin 150; Fin (1/4); Fin 40]; [Fin 90]].
Proof. exact z_frame. Qed.
