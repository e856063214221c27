(* Specification vocabulary: the unit of angle of a 2-D model or fit. *)
From Coq Require Import Reals List Bool Arith.
From Verif Require Import PyFloat PyBase Arr PyNum MParams MKernels MAper2D SBright.
Import ListNotations.
Local Open Scope R_scope.

(** The same galaxy and options with the slit width, pixel scale, PSF width and slit offset multiplied by [u];
    the PSF shape and the profiles are given in the new unit. *)
Definition in_angle (u : R) (psf : fl -> fl -> fl) (P : profs) (c : cfg) : cfg :=
  let i := c_ins c in let o := c_opt c in
  mkcfg (c_gal c) (mkinstr (u * i_slit i) (u * i_pix i) (u * i_fwhm i) (i_res i) (i_slitmask i) psf)
    (mkopts (o_nsub o) (o_pad o) (o_rebin o) (o_shift o) (o_eff o) (u * o_xc o) (o_spec o) (o_abs o) (o_adapt o) (o_factor o) (o_floor o)) P.

(** The same PSF shape in the new unit, up to its normalisation. *)
Definition same_psf (u k : R) (psf psf' : fl -> fl -> fl) : Prop :=
  forall x y, psf' (fmul (Fin u) x) (fmul (Fin u) y) = fmul (Fin k) (psf x y).

(** A parameter vector with each entry multiplied by its weight (1 beyond the end of the weights). *)
Definition weigh (ws : list R) (th : list fl) : list fl := mapi (fun i x => fmul (Fin (nth i ws 1)) x) th.

(** The weights of the free parameters. *)
Fixpoint pick (vary : list bool) (ws : list R) : list R :=
  match vary with
  | [] => []
  | true :: v => hd 1 ws :: pick v (tl ws)
  | false :: v => pick v (tl ws)
  end.

(** The same disc in the new unit: light and dispersion at the same place, velocity at the same place for the
    parameters multiplied by their weights, and only parameters of the velocity profile have a weight. *)
Definition same_disc (u : R) (ws : list R) (p P : profs) : Prop :=
  p_nvel P = p_nvel p /\ p_ndisp P = p_ndisp p /\
  (forall i, (p_nvel p <= i)%nat -> nth i ws 1 = 1) /\
  (forall th r z, p_vel P (firstn (p_nvel p) (weigh ws th)) (fmul (Fin u) r) (fmul (Fin u) z) = p_vel p (firstn (p_nvel p) th) r z) /\
  (forall d r z, p_disp P d (fmul (Fin u) r) (fmul (Fin u) z) = p_disp p d r z) /\
  (forall r z, p_int P (fmul (Fin u) r) (fmul (Fin u) z) = p_int p r z).

(** A Gaussian fitter that finds the same height and the same centre and width in the new unit. *)
Definition same_centres (u : R) (fit fit' : list fl -> list fl -> fl * fl * fl) : Prop :=
  forall xs ys A mu fw, fit xs ys = (A, mu, fw) -> fit' (map (fmul (Fin u)) xs) ys = (A, fmul (Fin u) mu, fmul (Fin u) fw).

(** A change of unit of a whole problem. *)
Definition angle_change (u : R) (ws : list R) (psf : fl -> fl -> fl) (P : profs) (c : cfg) : Prop :=
  0 < u /\ (exists k, 0 < k /\ same_psf u k (i_prof (c_ins c)) psf) /\ same_disc u ws (c_prof c) P /\
  (o_shift (c_opt c) || o_eff (c_opt c) = true -> same_centres u (p_lmfit (c_prof c)) (p_lmfit P)).

(** Two constructions end alike but for brightness: both raise the same exception, or the second image is [k] times the first. *)
Definition picture_times (k : R) (p q : res aper) : Prop :=
  match p, q with
  | Ok a, Ok b => a_model b = option_map (times k) (a_model a)
  | Err e, Err e' => e = e'
  | _, _ => False
  end.
