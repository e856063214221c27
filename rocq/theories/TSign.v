(* Property theorems: the sign of the dispersion in a 2-D fit (C85). *)
From Coq Require Import Reals List Bool Arith ZArith.
From Verif Require Import PyFloat PyBase Arr PyNum MParams MKernels MAper2D MProf SParams SMirror SSign PLos PBright4 PSign3.
Import ListNotations.
Local Open Scope R_scope.

(** C85: the constant dispersion profile of the package changes sign with its parameter. *)
Theorem C85_constant : odd_profile disp_const.
Proof. exact const_odd. Qed.
Print Assumptions C85_constant.

(** C85: changing the sign of the dispersion parameter gives the same image or its negative (or the same exception), whatever the options, the PSF and the instrument. *)
Theorem C85_image : forall c th th' st, odd_profile (p_disp (c_prof c)) -> p_ndisp (c_prof c) = 1%nat ->
  sign_at (p_nvel (c_prof c)) th th' -> (p_nvel (c_prof c) + 3 <= length th)%nat ->
  image_to_sign (aper_new c th st) (aper_new c th' st).
Proof. exact sign_image. Qed.
Print Assumptions C85_image.

Example C85_image_example : forall st, image_to_sign (aper_new y_cfg [Fin 200; Fin (1/2); Fin 50; Fin 0; Fin 1] st)
  (aper_new y_cfg [Fin 200; Fin (1/2); Fin (-50); Fin 0; Fin 1] st).
Proof. exact sign_example_image. Qed.

(** C85: with row scaling, models and log-likelihoods along a whole fit do not depend on the signs of the dispersions tried. *)
Theorem C85_fit : forall c k tf0 tf0' tfs tfs', let n := p_nvel (c_prof c) in
  odd_profile (p_disp (c_prof c)) -> p_ndisp (c_prof c) = 1%nat ->
  k_noscale k = false -> k_aper k = None -> length (k_vary k) = length (k_theta k) -> (n + 3 <= length (k_theta k))%nat -> free (k_vary k) n ->
  Forall2 (sign_at (rank (k_vary k) n)) (tf0 :: tfs) (tf0' :: tfs') ->
  let p := km_make c tf0 k in let p' := km_make c tf0' k in
  snd p = snd p' /\ (snd p = Ok tt -> k_model (fst p) = k_model (fst p')) /\ likelihoods c (fst p) tfs = likelihoods c (fst p') tfs'.
Proof. exact sign_fit. Qed.
Print Assumptions C85_fit.

Example C85_fit_example : let th := [Fin 200; Fin (1/2); Fin 50; Fin 0; Fin 1] in let k := z_kin th in
  let p := km_make y_cfg [Fin 200; Fin (1/2); Fin 50] k in let p' := km_make y_cfg [Fin 200; Fin (1/2); Fin (-50)] k in
  snd p = Ok tt /\ snd p' = Ok tt /\ k_model (fst p) = k_model (fst p') /\
  likelihoods y_cfg (fst p) [[Fin 150; Fin (1/4); Fin 40]] = likelihoods y_cfg (fst p') [[Fin 150; Fin (1/4); Fin (-40)]].
Proof. exact sign_example_fit. Qed.
