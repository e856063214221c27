(* Specification vocabulary: helper fits and the size of the emission along the slit. *)
From Coq Require Import Reals List Bool Arith.
From Verif Require Import PyFloat PyBase Arr PyNum SPost MFit1D SFit1D MTrim STrim MYprof.
Import ListNotations.
Local Open Scope R_scope.

(** The Gaussian of the helper fits. *)
Definition gaus_value (A mu s x : R) : R := A * (exp (- (x - mu) ^ 2 / (2 * s ^ 2)) / sqrt (2 * PI * s)).

(** A residual: the difference in units of the error, 0 where the error is 0. *)
Definition residual_is (model data err : R) (v : fl) : Prop :=
  (err <> 0 -> v = Fin ((model - data) / err)) /\ (err = 0 -> v = Fin 0).

(** Values of the parameters of a Gaussian; without a constant that is 0. *)
Definition gaus_values (q : gprm) (A mu s c : R) : Prop :=
  p_val (gp_A q) = Fin A /\ p_val (gp_mu q) = Fin mu /\ p_val (gp_sigma q) = Fin s /\
  ((gp_C q = None /\ c = 0) \/ exists p, gp_C q = Some p /\ p_val p = Fin c).

(** The optimiser keeps every parameter within its limits. *)
Definition within_gprm (p r : gprm) : Prop :=
  within_par (gp_mu p) (gp_mu r) /\ within_par (gp_A p) (gp_A r) /\ within_par (gp_sigma p) (gp_sigma r).
Definition keeps_limits (M : gopt) : Prop := forall rf p r, M rf p = Ok r -> within_gprm p r.

(** Ratio of full width at half maximum to standard deviation of a Gaussian, and the extent of the rows. *)
Definition fwhm_ratio : R := 2 * sqrt (2 * ln 2).
Definition window (pix : R) (n : nat) : R := INR (n - 1) * pix.

(** [i] is the width before blurring to [o] by a PSF of full width [F]; 0 if the PSF is wider. *)
Definition deblurred (F o i : R) : Prop :=
  0 <= i /\ ((F / fwhm_ratio) ^ 2 <= o ^ 2 -> i ^ 2 + (F / fwhm_ratio) ^ 2 = o ^ 2) /\ (o ^ 2 < (F / fwhm_ratio) ^ 2 -> i = 0).

(** [e] reaches from [best] down and up to the 15.865 and 84.135 per cent points of [l]. *)
Definition reaches (best : R) (l : list R) (e : fl * fl) : Prop := exists lo hi,
  quantile (15865 / 100000) l lo /\ quantile (84135 / 100000) l hi /\ e = (Fin (best - lo), Fin (hi - best)).

(** A measurement: the width and [k] Monte Carlo widths, all at most that of a Gaussian filling the rows, and what follows from them. *)
Definition measured (pix F : R) (n k : nat) (y : ysize) : Prop := exists o i mc mci e1 e2,
  length mc = k /\ Forall (fun v => 0 <= v <= window pix n / fwhm_ratio) (o :: mc) /\ deblurred F o i /\ Forall2 (deblurred F) mc mci /\
  y_obs y = Fin o /\ reaches o mc (y_obs_err y) /\ y_int y = Fin i /\ reaches i mci (y_int_err y) /\
  y_int_err y = (Fin e1, Fin e2) /\ y_d50 y = Fin (fwhm_ratio * i) /\ y_d50_err y = (Fin (fwhm_ratio * e1), Fin (fwhm_ratio * e2)).

(** No measurement: every attribute is -99. *)
Definition none_measured (y : ysize) : Prop :=
  y_obs y = Fin (-99) /\ y_obs_err y = (Fin (-99), Fin (-99)) /\ y_int y = Fin (-99) /\ y_int_err y = (Fin (-99), Fin (-99)) /\
  y_d50 y = Fin (-99) /\ y_d50_err y = (Fin (-99), Fin (-99)).

(** Two finite images that differ only where [sk] is 0. *)
Definition same_off_sky (sk a b : arr2 fl) : Prop := rows b = rows a /\ cols b = cols a /\
  forall i j, (i < rows a)%nat -> (j < cols a)%nat -> isfinite (at2 a i j) = true /\ isfinite (at2 b i j) = true /\
    (at2 sk i j <> Fin 0 -> at2 a i j = at2 b i j).
(** The spectra agree in all else the measurement reads. *)
Definition same_but_sky (s t : sp2) : Prop := exists sk fx er fx' er',
  q_sky s = Some sk /\ q_sky t = Some sk /\ q_flux s = Some fx /\ q_flux t = Some fx' /\ q_err s = Some er /\ q_err t = Some er' /\
  same_off_sky sk fx fx' /\ same_off_sky sk er er' /\ q_mlims t = q_mlims s /\ q_low_inds t = q_low_inds s /\ q_ypos t = q_ypos s.

(** A spectrum the measurement can be made from: images of [n] rows, at least two, and a position. *)
Definition measurable (s : sp2) (n p : nat) : Prop := q_mlims s = Some n /\ (2 <= n)%nat /\ q_ypos s <> None /\
  exists fx er sk, q_flux s = Some fx /\ q_err s = Some er /\ q_sky s = Some sk /\ shape fx n p /\ shape er n p /\ shape sk n p.

(** The same request with or without a plot. *)
Definition plotted (c : ycfg) (b : bool) : ycfg := mkYcfg (yc_pix c) (yc_fwhm c) b (yc_id c) (yc_slit c).
