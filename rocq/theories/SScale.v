(* Specification vocabulary: all angles on the sky multiplied by one number. *)
From Coq Require Import Reals List Bool Arith.
From Verif Require Import PyFloat PyBase Arr PyNum MKernels MAper2D MProf MAper1D.
Import ListNotations.
Local Open Scope R_scope.

(** PSF, instrument, galaxy and options with every length in arcsec multiplied by [u]; pure numbers and angles stay. *)
Definition psf_in (u : R) (p : psf) : psf := mkpsf (psf_fam p) (option_map (fmul (Fin u)) (psf_fwhm p)) (option_map (fmul (Fin u)) (psf_dither p)).
Definition ins_in (u : R) (i : ins1) : ins1 := mkins1 (fmul (Fin u) (j_slit i)) (psf_in u (j_psf i)).
Definition gal_in (u : R) (g : gal1) : gal1 :=
  mkgal1 (fmul (Fin u) (l_re g)) (l_q g) (l_q0 g) (fmul (Fin u) (l_remass g)) (l_qmass g) (l_n g) (l_dPA g).
Definition dopt_in (u : R) (o : dopt) : dopt :=
  mkdopt (d_npix o) (d_method o) (option_map (fmul (Fin u)) (d_ew o)) (option_map (fmul (Fin u)) (d_rad o))
    (fmul (Fin u) (d_xc o)) (fmul (Fin u) (d_yc o)) (d_rcore o) (d_slope o) (d_Ie o).
(** [I] is the light profile of the enlarged galaxy. *)
Definition ropt_in (u : R) (I : fl -> fl -> fl) (o : ropt) : ropt :=
  mkropt (t_npix o) (t_method o) (option_map (fmul (Fin u)) (t_ew o)) (option_map (fmul (Fin u)) (t_rad o))
    (fmul (Fin u) (t_xc o)) (fmul (Fin u) (t_yc o)) (t_pad o) (t_ratio o) (t_va o) (fmul (Fin u) (t_rt o)) (t_shift o) (t_eff o) I.
(** The same light at [u] times the radius and height. *)
Definition same_light (u : R) (I I' : fl -> fl -> fl) : Prop := forall r z, I' (fmul (Fin u) r) (fmul (Fin u) z) = I r z.

(** A value multiplied by a number, errors passed on. *)
Definition times_res (k : R) (x : res fl) : res fl := match x with Ok v => Ok (fmul (Fin k) v) | Err e => Err e end.
(** An integrator that obeys the change of variable x = u t: an integrand that is [u] times larger at [u] times the
    place has an integral u^2 times larger. *)
Definition substitutes (u : R) (quad : (fl -> res fl) -> fl -> fl -> res fl) : Prop :=
  forall f g b, (forall x, g (fmul (Fin u) x) = times_res u (f x)) -> quad g (Fin 0) (fmul (Fin u) b) = times_res (u * u) (quad f (Fin 0) b).

(** Neither or both sizes call for the finer grid (0.1 arcsec or less). *)
Definition same_sampling (u : R) (re : fl) : Prop := fleb (fmul (Fin u) re) (Fin (1/10)) = fleb re (Fin (1/10)).

(** What AperModel1DRot reports: sigma in the aperture, V_RMS at the reference radius and their ratio, or an error. *)
Definition reported (x : res rot) : res (option out1) := match x with Ok r => Ok (h_out r) | Err e => Err e end.
(** The one-point midpoint rule, an integrator for examples. *)
Definition midpoint (f : fl -> res fl) (a b : fl) : res fl :=
  Ok (fmul (fsub b a) (match f (fmul (Fin (1/2)) (fadd a b)) with Ok v => v | Err _ => NaN end)).
