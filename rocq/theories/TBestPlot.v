(* Property theorems: the figures of a 2-D fit (C120, C121). *)
From Coq Require Import String Reals List Bool Arith ZArith.
From Verif Require Import PyFloat PyBase Arr PyNum MProf MKernels MMask MAper1D MGeom MSlitPlot MBestPlot SMask SGeom SSlitPlot SBestPlot PSlitConv PBestPlot.
Import ListNotations.
Local Open Scope R_scope.

(** C120: spectrum, model and their difference are shown, with grey limits that are the extremes of the spectrum outside the sky-line columns. *)
Theorem C120_panels : forall interp pole f stamp g o sigma F, plot_bestfit_model interp pole f stamp g o sigma = Ok F ->
  exists th m, q_kin f = Some (th, m) /\ v_spec F = q_flux f /\ v_model F = m /\ rows (v_resid F) = rows (q_flux f) /\ cols (v_resid F) = cols (q_flux f) /\
  (forall i j, at2 (v_resid F) i j = fsub (at2 (q_flux f) i j) (at2 m i j)) /\
  ((forall i j, (i < rows (q_flux f))%nat -> (j < cols (q_flux f))%nat -> isfinite (at2 (q_flux f) i j) = true) ->
   exists lo hi, v_lim F = (Fin lo, Fin hi) /\
     (forall i j x, (i < rows (q_flux f))%nat -> (j < cols (q_flux f))%nat -> In j (q_nosky f) \/ q_nosky f = [] -> at2 (q_flux f) i j = Fin x -> lo <= x <= hi) /\
     (forall v, v = lo \/ v = hi -> exists i j, (i < rows (q_flux f))%nat /\ (j < cols (q_flux f))%nat /\ (In j (q_nosky f) \/ q_nosky f = []) /\ at2 (q_flux f) i j = Fin v)).
Proof. exact panels. Qed.
Print Assumptions C120_panels.

(** C120: the middle line is at m0 plus the fitted shift, the dotted lines at the projected half-light radius around it. *)
Theorem C120_marked_rows : forall interp pole f stamp g o sigma F th m0 shift w re dPA pix model,
  plot_bestfit_model interp pole f stamp g o sigma = Ok F ->
  q_kin f = Some (th, model) -> match th with Some l => (2 <= length l)%nat /\ nth (length l - 2) l NaN = Fin shift | None => shift = 0 end -> q_m0 f = Fin m0 ->
  psf_fwhm (o_psf o) = Some (Fin w) -> q_re f = Fin re -> q_dPA f = Fin dPA -> o_pix o = Fin pix -> pix <> 0 ->
  let D := sqrt ((w / 2) ^ 2 + re ^ 2) * Rabs (cos (rad dPA)) / pix in
  v_mid F = Fin (m0 + shift) /\ v_re F = (Fin (m0 + shift - D), Fin (m0 + shift + D)).
Proof. exact marked_rows. Qed.
Print Assumptions C120_marked_rows.

(** C120: image panels and spectrum show the same rows: the fitted centre is at the middle line, and the ends of the major axis at the dotted lines. *)
Theorem C120_same_rows : forall interp pole f g o sigma F gal gal' s c0 imgPA serPA q re slitPA yoff pix ipix width len th m0 shift w model,
  plot_bestfit_model interp pole f true g o sigma = Ok F -> scene_is g s c0 imgPA serPA q re slitPA yoff -> optics_are o pix ipix width len ->
  angles gal serPA slitPA imgPA -> slit_offset pole gal = (gal', Ok tt) -> a_dPA gal' = Some (q_dPA f) -> q_re f = Fin re ->
  q_kin f = Some (th, model) -> match th with Some l => (2 <= length l)%nat /\ nth (length l - 2) l NaN = Fin shift | None => shift = 0 end -> q_m0 f = Fin m0 -> psf_fwhm (o_psf o) = Some (Fin w) ->
  let n := rows (q_flux f) in
  exists hi lo, v_high F = Some hi /\ v_low F = Some lo /\
    p_scale lo = Fin pix /\ p_ylim lo = (Fin (- (1 / 2)), Fin (INR n - 1 / 2)) /\
    (exists x axes r, p_ell lo = Some (((x, v_mid F), axes), r)) /\
    (exists x1 y1 x2 y2, p_major lo = [(x1, y1); (x2, y2)] /\ (v_re F = (y1, y2) \/ v_re F = (y2, y1))) /\
    exists bot cx cy axes r, p_scale hi = Fin ipix /\ p_ell hi = Some ((at_ (cx, cy), axes), r) /\ p_ylim hi = (Fin bot, Fin (bot + INR n * pix / ipix)) /\
      cy = bot + (m0 + shift + 1 / 2) * pix / ipix.
Proof. exact same_rows. Qed.
Print Assumptions C120_same_rows.

(** C120: exactly the low-S/N rows are hatched. *)
Theorem C120_hatched : forall interp pole f stamp g o sigma F, plot_bestfit_model interp pole f stamp g o sigma = Ok F ->
  forall y, hatched F y <-> exists r, In r (q_low f) /\ Rabs (y - INR r) <= 1 / 2.
Proof. exact hatch_rows. Qed.
Print Assumptions C120_hatched.

(** C120: a dashed line runs between two rows iff exactly one of them is of low S/N. *)
Theorem C120_edges : forall interp pole f stamp g o sigma F,
  plot_bestfit_model interp pole f stamp g o sigma = Ok F -> ascending (q_low f) -> (forall r, In r (q_low f) -> (r < rows (q_flux f))%nat) ->
  forall e, In e (v_edges F) <-> exists k, e = Fin (INR k + 1 / 2) /\ (S k < rows (q_flux f))%nat /\ (In k (q_low f) <-> ~ In (S k) (q_low f)).
Proof. exact edge_rows. Qed.
Print Assumptions C120_edges.

Example C120_example_figure : exists F, plot_bestfit_model ex_flat (fun _ => true) ex_f true ex_g ex_o (Some (Fin (1 / 5))) = Ok F /\ v_mid F = Fin (9 / 4) /\ v_edges F = [Fin (1 + 1 / 2); Fin (3 - 1 / 2); Fin (3 + 1 / 2)].
Proof. exact ex_figure. Qed.

Example C120_example_angles : angles ex_gal 75 30 10 /\ exists gal', slit_offset (fun _ => true) ex_gal = (gal', Ok tt) /\ a_dPA gal' = Some (q_dPA ex_f).
Proof. exact ex_angles. Qed.

(** C120 refuted: without a model nothing is drawn. *)
Theorem C120_no_model_refuted : forall interp pole f stamp g o sigma F,
  q_kin f = None -> plot_bestfit_model interp pole f stamp g o sigma <> Ok F.
Proof. exact needs_model. Qed.
Print Assumptions C120_no_model_refuted.

(** C120 refuted: with a masked sky column nothing is drawn. *)
Theorem C120_sky_refuted : forall interp pole f stamp g o sigma F,
  q_sky f <> [] -> plot_bestfit_model interp pole f stamp g o sigma <> Ok F.
Proof. exact no_sky. Qed.
Print Assumptions C120_sky_refuted.

(** C121: one axis for each free parameter in order, with its name, showing the samples of every walker and of nothing else. *)
Theorem C121_traces : forall vary names chain nw picked axes,
  plot_trace vary names chain nw picked = Ok axes -> length vary = length names -> (forall w, In w picked -> (w < nw)%nat) ->
  length axes = length (filter (fun b => b) vary) /\
  forall k ax, nth_error axes k = Some ax -> (exists i, free_at vary i k /\ nth_error names i = Some (x_label ax)) /\
    (forall line, In line (x_grey ax ++ x_colour ax) <-> exists w, (w < nw)%nat /\ line = map (fun t => at3 chain w t k) (seq 0 (dim1 chain))) /\
    x_colour ax = map (fun w => map (fun t => at3 chain w t k) (seq 0 (dim1 chain))) picked.
Proof. exact trace_shows. Qed.
Print Assumptions C121_traces.

(** C121: it is drawn for every chain with that many walkers and columns. *)
Theorem C121_total : forall vary names chain nw picked,
  (0 < nw)%nat -> (nw <= dim0 chain)%nat -> length vary = length names -> (length (filter (fun b => b) vary) <= dim2 chain)%nat ->
  (forall w, In w picked -> (w < nw)%nat) -> exists axes, plot_trace vary names chain nw picked = Ok axes.
Proof. exact trace_total. Qed.
Print Assumptions C121_total.

Example C121_example : exists axes, plot_trace [true; false; true] ["a"%string; "b"%string; "c"%string] (mk3 4 2 2 (fun w t k => Fin (INR (w + t + k)))) 4 [1; 3; 1]%nat = Ok axes /\
  map x_label axes = ["a"%string; "c"%string].
Proof. exact ex_trace. Qed.
