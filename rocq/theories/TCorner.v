(* Property theorems: the corner plot (C117). *)
From Coq Require Import String Reals List.
From Verif Require Import PyFloat PyBase Arr PyNum MParams MProf MPost MCorner SParams SPost SCorner PPostEx PCorner.
Import ListNotations.
Local Open Scope R_scope.

(** C117: the notes give V(R_E) with its 1- and 2-sigma ranges, called rot exactly when the range does not cross zero, and the share of samples of opposite sign. *)
Theorem C117_label : forall K f h h' p draw ylim show kp n bfit re c b,
  chain_results K None f h = Ok (h', p) -> f_abs f = false ->
  cols (h_flat h) = nfree (f_vary f) -> length (f_names f) = length (f_vary f) -> ~ In "V_RE"%string (f_names f) ->
  plot_param_corner draw ylim show None kp n bfit re h' p = Ok c -> k_one K (col (h_flat h') (cols (h_flat h))) = Ok (Fin b) ->
  let vs := rcol (h_flat h') (cols (h_flat h)) in
  exists lo2 lo1 hi1 hi2, quantile (15865/100000) vs lo1 /\ quantile (84135/100000) vs hi1 /\ quantile (2275/100000) vs lo2 /\ quantile (97725/100000) vs hi2 /\
    fst (c_one c) = mkSummary (Fin b) (Fin (b - lo1)) (Fin (hi1 - b)) /\ (snd (c_one c) = true <-> one_sided lo1 hi1) /\
    fst (c_two c) = mkSummary (Fin b) (Fin (b - lo2)) (Fin (hi2 - b)) /\ (snd (c_two c) = true <-> one_sided lo2 hi2) /\
    c_opp c = Fin (100 * INR (length (filter (fun x => if Rlt_dec (b * x) 0 then true else false) vs)) / INR (rows (h_flat h'))).
Proof. exact chain_label. Qed.
Print Assumptions C117_label.

(** C117: the plot of an analysed chain is drawn when a free parameter is called sigma0. *)
Theorem C117_plotted : forall K f h h' p draw ylim show kp n bfit re,
  chain_results K None f h = Ok (h', p) -> f_abs f = false ->
  cols (h_flat h) = nfree (f_vary f) -> length (f_names f) = length (f_vary f) -> (forall s t, draw s t = Ok tt) ->
  (exists i, free (f_vary f) i /\ nth_error (f_names f) i = Some "sigma0"%string) -> exists c, plot_param_corner draw ylim show None kp n bfit re h' p = Ok c.
Proof. exact chain_plot. Qed.
Print Assumptions C117_plotted.

Example C117_example_plot : exists h' p c, chain_results ex_kde None (ex_disc "sigma0") ex_samples = Ok (h', p) /\
  plot_param_corner ex_draw (fun _ => (Fin 1, Fin 2)) true None fiducial 5 [Fin 1; Fin 1; Fin 1; Fin 0; Fin 2] (Fin 1) h' p = Ok c /\ length (c_titles c) = 5%nat.
Proof. exact ex_plot. Qed.

(** C117: samples, lines and titles are those of the free parameters, V(R_E) and V_2.2, in the order of the names. *)
Theorem C117_shown : forall draw ylim show links kp n bfit re h p c,
  plot_param_corner draw ylim show links kp n bfit re h p = Ok c ->
  length (c_titles c) = (length (p_best p) - 2)%nat /\ c_truths c = firstn (length (p_best p) - 2) (p_best p) /\
  rows (c_samples c) = rows (h_flat h) /\ cols (c_samples c) = (cols (h_flat h) - 2)%nat /\
  (forall k j, at2 (c_samples c) k j = at2 (h_flat h) k j) /\
  forall i, (i < length (p_best p) - 2)%nat -> exists nm b e, nth_error (c_titles c) i = Some (nm, mkSummary b (fst e) (snd e)) /\
    nth_error (h_names h) i = Some nm /\ nth_error (p_best p) i = Some b /\ nth_error (p_err1 p) i = Some e.
Proof. exact shown. Qed.
Print Assumptions C117_shown.

(** C117: the dispersion note is that of sigma0. *)
Theorem C117_sigma : forall draw ylim show links kp n bfit re h p c,
  plot_param_corner draw ylim show links kp n bfit re h p = Ok c ->
  exists k b e, nth_error (h_names h) k = Some "sigma0"%string /\ nth_error (p_best p) k = Some b /\ nth_error (p_err1 p) k = Some e /\
    c_sigma c = mkSummary b (fst e) (snd e).
Proof. exact sigma_shown. Qed.
Print Assumptions C117_sigma.

(** C117: a linked group shows one pair of curves. *)
Theorem C117_curves : forall draw ylim kp n bfit re h p c j,
  plot_param_corner draw ylim true (Some [LinkInds [0%nat; j]]) kp n bfit re h p = Ok c ->
  exists v nx, c_curves c = [v] /\ one_curve kp ylim (cols (h_flat h) - 2) n bfit re (firstn (length (p_best p) - 2) (p_best p)) (LinkInds [0%nat; j]) None = Ok (v, nx).
Proof. exact curves_shown. Qed.
Print Assumptions C117_curves.

(** C117: along the first curve of a group starting with the first parameter the velocity at galaxy.re_arcsec is the best V(R_E). *)
Theorem C117_on_curve : forall p ylim nc j bfit re truths c nx vre,
  (0 < j < length bfit)%nat -> (0 < kp_nv p)%nat -> proportional p ->
  one_curve p ylim nc (length bfit) bfit re truths (LinkInds [0%nat; j]) None = Ok (c, nx) -> getz truths (-2) = Ok (Fin vre) ->
  forall k y th v, nth_error (v_y c) k = Some y -> moved bfit (Fin 1) j y th -> kp_vel p (firstn (kp_nv p) th) re = Fin v -> v <> 0 ->
  exists x th', nth_error (v_re c) k = Some (Fin x) /\ moved bfit (Fin x) j y th' /\ kp_vel p (firstn (kp_nv p) th') re = Fin vre.
Proof. exact on_curve. Qed.
Print Assumptions C117_on_curve.

(** C117: and along the second the velocity at 2.2 scale lengths is the best V_2.2. *)
Theorem C117_on_curve22 : forall p ylim nc j bfit re truths c nx v22,
  (0 < j < length bfit)%nat -> (0 < kp_nv p)%nat -> proportional p ->
  one_curve p ylim nc (length bfit) bfit re truths (LinkInds [0%nat; j]) None = Ok (c, nx) -> getz truths (-1) = Ok (Fin v22) ->
  let r22 := fmul (Fin (22 / 10 / (1676 / 1000))) re in
  forall k y th v, nth_error (v_y c) k = Some y -> moved bfit (Fin 1) j y th -> kp_vel p (firstn (kp_nv p) th) r22 = Fin v -> v <> 0 ->
  exists x th', nth_error (v_22 c) k = Some (Fin x) /\ moved bfit (Fin x) j y th' /\ kp_vel p (firstn (kp_nv p) th') r22 = Fin v22.
Proof. exact on_curve22. Qed.
Print Assumptions C117_on_curve22.

(** C117: the arctan profile is proportional to its first parameter. *)
Theorem C117_arctan : proportional fiducial.
Proof. exact fiducial_proportional. Qed.
Print Assumptions C117_arctan.

Example C117_example_curve : exists c nx, one_curve fiducial (fun _ => (Fin 1, Fin 2)) 5 5 [Fin 1; Fin 1; Fin 50; Fin 0; Fin 2] (Fin 1) [Fin 1; Fin 1; Fin 50; Fin 1; Fin 1] (LinkInds [0%nat; 1%nat]) None = Ok (c, nx) /\
  proportional fiducial /\ nth_error (v_y c) 0 = Some (Fin 1) /\ moved [Fin 1; Fin 1; Fin 50; Fin 0; Fin 2] (Fin 1) 1 (Fin 1) [Fin 1; Fin 1; Fin 50; Fin 0; Fin 2] /\
  kp_vel fiducial [Fin 1; Fin 1] (Fin 1) = Fin (2 / PI * 1 * atan (1 / 1)) /\ nth_error (v_re c) 0 = Some (Fin 2).
Proof. exact ex_on_curve. Qed.

(** C117 refuted: with a dispersion parameter of another name no plot is drawn. *)
Theorem C117_sigma0_refuted : exists f h h' p, f_prof f = fiducial /\ f_names f = ["V_a"; "r_t"; "sigma"; "m0_shift"; "z"]%string /\ chain_results ex_kde None f h = Ok (h', p) /\
  forall draw ylim show links kp n bfit re, exists e, plot_param_corner draw ylim show links kp n bfit re h' p = Err e.
Proof. exact sigma0_refuted. Qed.
Print Assumptions C117_sigma0_refuted.

(** C117 refuted: nor with the group 'all'. *)
Theorem C117_all_refuted : forall draw ylim kp n bfit re h p,
  exists e, plot_param_corner draw ylim true (Some [LinkAll]) kp n bfit re h p = Err e.
Proof. exact all_refuted. Qed.
Print Assumptions C117_all_refuted.

(** C117 refuted: with a mass radius that differs from the light radius the curve for the V(R_E) of the best fit misses the best fit. *)
Theorem C117_radius_refuted : exists re rm bfit truths c nx x, getz truths (-2) = Ok (kp_vel fiducial (firstn 2 bfit) (Fin rm)) /\
  one_curve fiducial (fun _ => (Fin 1, Fin 2)) 5 5 bfit (Fin re) truths (LinkInds [0%nat; 1%nat]) None = Ok (c, nx) /\
  nth_error bfit 1 = nth_error (v_y c) 0 /\ nth_error (v_re c) 0 = Some (Fin x) /\ nth_error bfit 0 <> Some (Fin x).
Proof. exact other_radius_refuted. Qed.
Print Assumptions C117_radius_refuted.
