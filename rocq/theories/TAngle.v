(* Property theorems: the unit of angle does not matter to a 2-D fit (C129). *)
From Coq Require Import Reals List Bool Arith.
From Verif Require Import PyFloat PyBase Arr PyNum MParams MKernels MAper2D MProf SMirror SBright SFrame SAngle PLos PBright4 PAngle3.
Import ListNotations.
Local Open Scope R_scope.

(** C129: with slit, pixel, PSF width, slit offset, PSF shape, disc and turnover radius expressed in a unit u times smaller, AperModel2D raises the same exception or makes u*u times the image. *)
Theorem C129_image : forall u ws psf P c th st st', angle_change u ws psf P c -> (p_nvel (c_prof c) + 2 <= length th)%nat ->
  picture_times (u * u) (snd (aper_new c th st)) (snd (aper_new (in_angle u psf P c) (weigh ws th) st')).
Proof. exact angle_image. Qed.
Print Assumptions C129_image.

(** C129: so KinModel2D stores the same scaled image and returns the same likelihood at every step, for free parameters with the lengths among them converted. *)
Theorem C129_fit : forall u ws psf P c k tf0 tfs,
  angle_change u ws psf P c -> (p_nvel (c_prof c) + 2 <= length (k_theta k))%nat -> length (k_vary k) = length (k_theta k) ->
  k_noscale k = false -> k_aper k = None ->
  let c' := in_angle u psf P c in let free := weigh (pick (k_vary k) ws) in
  let p := km_make c tf0 k in let p' := km_make c' (free tf0) (with_theta (weigh ws (k_theta k)) k) in
  snd p = snd p' /\ (snd p = Ok tt -> k_model (fst p) = k_model (fst p')) /\ likelihoods c (fst p) tfs = likelihoods c' (fst p') (map free tfs).
Proof. exact angle_fit. Qed.
Print Assumptions C129_fit.

Example C129_example : let th := [Fin 200; Fin (1/2); Fin 50; Fin 0; Fin 1] in let th' := [Fin 200; Fin 30; Fin 50; Fin 0; Fin 1] in
  let c' := in_angle 60 (fun _ _ => Fin 1) (y_disc 60) y_cfg in
  let p := km_make y_cfg (firstn 3 th) (PBright4.z_kin th) in let p' := km_make c' (firstn 3 th') (PBright4.z_kin th') in
  i_slit (c_ins c') = 60 /\ snd p = Ok tt /\ snd p' = Ok tt /\ k_model (fst p) = k_model (fst p') /\
  likelihoods y_cfg (fst p) [[Fin 150; Fin (1/4); Fin 40]; [Fin 90]] = likelihoods c' (fst p') [[Fin 150; Fin 15; Fin 40]; [Fin 90]].
Proof. exact z_angle. Qed.

(** C129: the Gaussian PSF of the package is the same shape in the other unit. *)
Theorem C129_gaussian : forall u sig, 0 < u -> same_psf u 1 (fun x y => gauss_pt sig x y (Fin 0)) (fun x y => gauss_pt (fmul (Fin u) sig) x y (Fin 0)).
Proof. exact angle_gauss. Qed.
Print Assumptions C129_gaussian.

(** C129: and so is the Moffat PSF, up to a factor that the normalisation of the convolved cube removes. *)
Theorem C129_moffat : forall u al be, 0 < u -> same_psf u (/ (u * u)) (fun x y => moffat_pt al be x y (Fin 0)) (fun x y => moffat_pt (fmul (Fin u) al) be x y (Fin 0)).
Proof. exact angle_moffat. Qed.
Print Assumptions C129_moffat.

(** C129: the default disc (arctan rotation, constant dispersion, either light profile) is the same in the other unit if the turnover radius is converted. *)
Theorem C129_disc : forall u nd Ie n re q0 I I' fit fit', 0 < u ->
  ((forall r z, int_fiducial Ie n re q0 r z = Ok (I r z)) /\ (forall r z, int_fiducial Ie n (fmul (Fin u) re) q0 r z = Ok (I' r z)) \/
   (forall r z, int_expscale Ie n re q0 r z = Ok (I r z)) /\ (forall r z, int_expscale Ie n (fmul (Fin u) re) q0 r z = Ok (I' r z))) ->
  same_disc u [1; u] (mkprofs 2 nd vel_arctan disp_const I fit) (mkprofs 2 nd vel_arctan disp_const I' fit').
Proof. exact angle_disc. Qed.
Print Assumptions C129_disc.
