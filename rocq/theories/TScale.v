(* Property theorems: aperture corrections depend on ratios of lengths only (C128). *)
From Coq Require Import Reals List Bool Arith.
From Verif Require Import PyFloat PyBase Arr PyNum MKernels MAper2D MProf MAper1D SScale PAper1D7 PScale.
Import ListNotations.
Local Open Scope R_scope.

(** C128: with every length on the sky (galaxy sizes, slit, PSF, extraction width, radius, offsets) multiplied by one positive number the dispersion models return the same three numbers or the same error, if neither or both sizes call for the finer grid. *)
Theorem C128_dispersion : forall u quad o ins gal, 0 < u -> substitutes u quad ->
  (same_sampling u (circ (l_re gal) (l_q gal)) -> disp_1D quad (dopt_in u o) (ins_in u ins) (gal_in u gal) = disp_1D quad o ins gal) /\
  (same_sampling u (l_re gal) -> disp_misalign_1D quad (dopt_in u o) (ins_in u ins) (gal_in u gal) = disp_misalign_1D quad o ins gal).
Proof. exact scale_disp. Qed.
Print Assumptions C128_dispersion.

Example C128_example : (exists r, disp_1D midpoint (ex_dopt (Fin 1)) ex_ins1 ex_gal1 = Ok r /\ disp_1D midpoint (dopt_in 3 (ex_dopt (Fin 1))) (ins_in 3 ex_ins1) (gal_in 3 ex_gal1) = Ok r) /\
  (exists r, disp_misalign_1D midpoint (ex_dopt (Fin 1)) ex_ins1 ex_gal1 = Ok r /\ disp_misalign_1D midpoint (dopt_in 3 (ex_dopt (Fin 1))) (ins_in 3 ex_ins1) (gal_in 3 ex_gal1) = Ok r).
Proof. exact scale_ex. Qed.

(** C128: the same for the rotation model, turnover radius and light profile included, without the optional velocity shift. *)
Theorem C128_rotation : forall u I o ins gal shift shift', 0 < u -> same_light u (t_int o) I -> t_shift o = false -> t_eff o = false ->
  reported (rot_new shift' (ropt_in u I o) (ins_in u ins) (gal_in u gal)) = reported (rot_new shift o ins gal).
Proof. exact scale_rot. Qed.
Print Assumptions C128_rotation.

Example C128_example_rotation : forall sh, exists x, reported (rot_new sh (ropt_in 3 (fun _ _ => Fin 1) (ex_ropt (Some (Fin 2)) false)) (ins_in 3 ex_ins1) (gal_in 3 ex_galr)) = Ok (Some x) /\
  reported (rot_new sh (ex_ropt (Some (Fin 2)) false) ex_ins1 ex_galr) = Ok (Some x).
Proof. exact scale_ex_rot. Qed.

(** C128: the two light profiles of the package have the same value at u times the radius and height when the galaxy is u times larger. *)
Theorem C128_light : forall u Ie n re q0 r z, 0 < u ->
  int_fiducial Ie n (fmul (Fin u) re) q0 (fmul (Fin u) r) (fmul (Fin u) z) = int_fiducial Ie n re q0 r z /\
  int_expscale Ie n (fmul (Fin u) re) q0 (fmul (Fin u) r) (fmul (Fin u) z) = int_expscale Ie n re q0 r z.
Proof. exact scale_light. Qed.
Print Assumptions C128_light.

(** C128: the exception: at 0.1 arcsec or less the half width has twice as many samples. *)
Theorem C128_sampling : forall u o ins re q dPA g g', 0 < u -> 0 < re ->
  grid_1D o ins (Fin re) q dPA = Ok g -> grid_1D (dopt_in u o) (ins_in u ins) (Fin (u * re)) q dPA = Ok g' ->
  re <= 1 / 10 -> 1 / 10 < u * re -> u_n g = (2 * u_n g')%nat.
Proof. exact scale_sampling. Qed.
Print Assumptions C128_sampling.

(** C128: so the same galaxy expressed in another unit of angle is sampled differently. *)
Theorem C128_refuted : exists u o ins re g g', 0 < u /\ grid_1D o ins (Fin re) (Fin 1) (Fin 0) = Ok g /\
  grid_1D (dopt_in u o) (ins_in u ins) (fmul (Fin u) (Fin re)) (Fin 1) (Fin 0) = Ok g' /\ u_n g = 4%nat /\ u_n g' = 2%nat.
Proof. exact scale_refuted. Qed.
Print Assumptions C128_refuted.
