(* Property theorems: Theorems: residuals of the helper fits (C107), size of the emission along the slit (C108), its plot (C109). *)
From Coq Require Import String Reals List Bool Arith ZArith.
From Verif Require Import PyFloat PyBase Arr PyNum SPost MFit1D SFit1D MTrim STrim MPrep MYprof SYprof PTrim2 PYprof PYprof2 PYprofEx.
Import ListNotations.
Local Open Scope R_scope.

(** Residual of a Gaussian at every entry. *)
Theorem C107_gaussian : forall q A mu s c xx data err i x d e, gaus_values q A mu s c -> 0 < s ->
  nth_error xx i = Some (Fin x) -> nth_error data i = Some (Fin d) -> nth_error err i = Some (Fin e) ->
  exists v, nth_error (gaus_residual q xx data err) i = Some v /\ residual_is (gaus_value A mu s x + c) d e v.
Proof. exact gaus_residual_entry. Qed.
Print Assumptions C107_gaussian.

(** Residuals of a Gaussian on the rows kept, in the order given. *)
Theorem C107_gaussian_kept : forall q A mu s c xx data err wh r, gaus_values q A mu s c -> 0 < s ->
  gaus_residual_mask q (map Fin xx) (map Fin data) (map Fin err) wh = Ok r ->
  length r = length wh /\ forall i k, nth_error wh i = Some k -> exists x d e v, nth_error xx k = Some x /\ nth_error data k = Some d /\ nth_error err k = Some e /\
    nth_error r i = Some v /\ residual_is (gaus_value A mu s x + c) d e v.
Proof. exact gaus_residual_mask_entry. Qed.
Print Assumptions C107_gaussian_kept.

(** Residual of a straight line; masked entries count nothing. *)
Theorem C107_line : forall a b xx data err mask i x d e m,
  nth_error xx i = Some (Fin x) -> nth_error data i = Some (Fin d) -> nth_error err i = Some (Fin e) -> nth_error mask i = Some m ->
  exists v, nth_error (weighted_linear_residual (Fin a) (Fin b) xx data err mask) i = Some v /\
    (m = Fin 0 -> v = Fin 0) /\ (m <> Fin 0 -> residual_is (a * x + b) d e v).
Proof. exact linear_residual_entry. Qed.
Print Assumptions C107_line.

(** Residual of an emission line between two negative images. *)
Theorem C107_triple : forall A s mu ml mr c xx data err i x d e, 0 < s ->
  nth_error xx i = Some (Fin x) -> nth_error data i = Some (Fin d) -> nth_error err i = Some (Fin e) ->
  exists v, nth_error (vert_triple_gaus_residual (Fin A) (Fin s) (Fin mu) (Fin ml) (Fin mr) (Fin c) xx data err) i = Some v /\
    residual_is (gaus_value A mu s x - gaus_value A ml s x - gaus_value A mr s x + c) d e v.
Proof. exact triple_residual_entry. Qed.
Print Assumptions C107_triple.

(** Whatever the data, a Gaussian of width 0 within the limits fits them without residual. *)
Theorem C107_width_refuted : forall mu0 a b amp n smax p,
  y_start (Fin mu0) (Fin a) (Fin b) amp n smax = Ok p -> a <= b -> amp <> NaN -> (smax = PInf \/ exists r, smax = Fin r /\ 0 <= r) ->
  exists q, within_gprm p q /\ p_val (gp_sigma q) = Fin 0 /\ forall xx data err wh r, gaus_residual_mask q xx data err wh = Ok r -> Forall (eq (Fin 0)) r.
Proof. exact width_zero_allowed. Qed.
Print Assumptions C107_width_refuted.

(** three rows, two kept. *)
Example C107_example : exists r, gaus_residual_mask (mkG (unbounded (Fin 1)) (unbounded (Fin 2)) (nonneg (Fin 3)) None) (map Fin [0; 1; 2]) (map Fin [5; 6; 7]) (map Fin [1; 0; 1]) [0; 1]%nat = Ok r.
Proof. exact ex_residual. Qed.

(** values without a constant. *)
Example C107_example_values : gaus_values (mkG (unbounded (Fin 1)) (unbounded (Fin 2)) (nonneg (Fin 3)) None) 2 1 3 0.
Proof. exact ex_gaus_values. Qed.

(** Either nothing is measured or the attributes are a measurement. *)
Theorem C108_measured : forall M rnd c s pix F n y,
  keeps_limits M -> yc_pix c = Fin pix -> 0 < pix -> yc_fwhm c = Some (Fin F) -> q_mlims s = Some n ->
  fit_emission_y_profile M rnd c s = Ok y -> none_measured y \/ measured pix F n (Z.to_nat 500) y.
Proof. exact method_measured. Qed.
Print Assumptions C108_measured.

(** The size never exceeds the rows; the PSF is removed in quadrature. *)
Theorem C108_bounds : forall M rnd c s pix F n y,
  keeps_limits M -> yc_pix c = Fin pix -> 0 < pix -> yc_fwhm c = Some (Fin F) -> q_mlims s = Some n ->
  fit_emission_y_profile M rnd c s = Ok y -> none_measured y \/ exists o d, y_obs y = Fin o /\ y_d50 y = Fin d /\ 0 <= d <= window pix n /\ 0 <= o <= window pix n / fwhm_ratio /\
  (F ^ 2 <= (fwhm_ratio * o) ^ 2 -> d ^ 2 + F ^ 2 = (fwhm_ratio * o) ^ 2) /\ ((fwhm_ratio * o) ^ 2 < F ^ 2 -> d = 0).
Proof. exact method_bounds. Qed.
Print Assumptions C108_bounds.

(** A prepared spectrum of two rows or more never raises. *)
Theorem C108_never_raises : forall M rnd c s n p pix,
  q_prepared s = true -> measurable s n p -> yc_pix c = Fin pix -> / 10 ^ 12 <= pix ->
  exists y, fit_emission_y_profile M rnd c s = Ok y.
Proof. exact y_total. Qed.
Print Assumptions C108_never_raises.

(** An unprepared spectrum raises. *)
Theorem C108_unprepared : forall M rnd c s, q_prepared s = false -> fit_emission_y_profile M rnd c s = Err ValueError.
Proof. exact y_unprepared. Qed.
Print Assumptions C108_unprepared.

(** Sky pixels have no effect. *)
Theorem C108_sky_ignored : forall M rnd c s t,
  q_prepared t = q_prepared s -> same_but_sky s t -> fit_emission_y_profile M rnd c t = fit_emission_y_profile M rnd c s.
Proof. exact method_sky_ignored. Qed.
Print Assumptions C108_sky_ignored.

(** three rows, measured. *)
Example C108_example : forall rnd, exists y, fit_emission_y_profile stay rnd ex_yc ex_ysp = Ok y /\ y_obs y = Fin (3 / 4).
Proof. exact ex_measures. Qed.

(** this spectrum is measurable. *)
Example C108_example_measurable : measurable ex_ysp 3 1.
Proof. exact ex_measurable. Qed.

(** its optimiser keeps the limits. *)
Example C108_example_optimiser : keeps_limits stay.
Proof. exact stay_keeps. Qed.

(** two spectra that differ at a sky pixel. *)
Example C108_example_sky : exists s t, same_but_sky s t /\ q_flux s <> q_flux t.
Proof. exact ex_same_sky. Qed.

(** With a slit object name and an integer ID the plot changes nothing. *)
Theorem C109_plot_harmless : forall M rnd c s b,
  yc_slit c = true -> yc_id c = IdInt -> fit_emission_y_profile M rnd (plotted c b) s = fit_emission_y_profile M rnd c s.
Proof. exact method_plot_harmless. Qed.
Print Assumptions C109_plot_harmless.

(** Otherwise the plot loses the measurement. *)
Theorem C109_plot_loses : forall M rnd c s y,
  yc_plot c = true -> (yc_slit c = false \/ yc_id c <> IdInt) -> fit_emission_y_profile M rnd c s = Ok y -> none_measured y.
Proof. exact method_plot_loses. Qed.
Print Assumptions C109_plot_loses.

(** A measurement that a plot loses. *)
Theorem C109_plot_refuted : exists M rnd c s y y', keeps_limits M /\ q_prepared s = true /\ measurable s 3 1 /\
  fit_emission_y_profile M rnd (plotted c false) s = Ok y /\ y_obs y = Fin (3 / 4) /\
  fit_emission_y_profile M rnd (plotted c true) s = Ok y' /\ none_measured y'.
Proof. exact plot_refuted. Qed.
Print Assumptions C109_plot_refuted.
