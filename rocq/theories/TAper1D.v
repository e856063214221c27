(* Property theorems: the 1-D aperture models (C27-C32, C88, C89). *)
From Coq Require Import Reals List Bool Arith.
From Verif Require Import PyFloat PyBase Arr PyNum MKernels MAper2D MProf MAper1D SAper1D
  PAper1D3 PAper1D4 PAper1D5 PAper1D6 PAper1D7.
Import ListNotations.
Local Open Scope R_scope.

(** C27: the central 2n+1 samples tile the slit width and the extraction width, with n+1 samples of
    padding on each side. *)
Theorem C27_window : forall o ins re q a W xc yc F, 0 < re -> 0 < q ->
  j_slit ins = Fin W -> d_xc o = Fin xc -> d_yc o = Fin yc -> psf_fwhm (j_psf ins) = Some (Fin F) ->
  (d_ew o = None \/ exists H, d_ew o = Some (Fin H) /\ 0 < H) ->
  exists g cx cy, let n := half_samples o re in let H := width o re q a F in
    grid_1D o ins (Fin re) (Fin q) (Fin a) = Ok g /\
    length (u_x g) = ((n + 1) + (2 * n + 1) + (n + 1))%nat /\
    length (u_y g) = ((n + 1) + (2 * n + 1) + (n + 1))%nat /\
    u_padX g = (n + 1)%nat /\ u_padY g = (n + 1)%nat /\
    u_dx g = Fin (W / INR (2 * n + 1)) /\ u_dy g = Fin (H / INR (2 * n + 1)) /\
    (forall i, (i < length (u_x g))%nat -> lnth (u_x g) i = Fin (cx i)) /\
    (forall i, (i < length (u_y g))%nat -> lnth (u_y g) i = Fin (cy i)) /\
    tiles cx (n + 1) (2 * n + 1) (W / INR (2 * n + 1)) (- W / 2 - xc) (W / 2 - xc) /\
    tiles cy (n + 1) (2 * n + 1) (H / INR (2 * n + 1)) (- H / 2 - yc) (H / 2 - yc).
Proof. exact grid_window. Qed.
Print Assumptions C27_window.

(** C27: exactly the cells of that window enter the sums of both dispersion models; without a PSF the
    result is the weighted mean over them. *)
Theorem C27_sum : forall quad o ins gal re q rm qm n a c W xc yc r,
  physical o ins gal re q rm qm n a c W xc yc 0 ->
  (disp_1D quad o ins gal = Ok r -> exists s, x_ap r = Fin s /\ 0 < s /\
    let N := half_samples o (re * sqrt q) in let H := width o (re * sqrt q) 1 0 0 in
    let d j i := ell ((INR i - INR N) * (W / INR (2 * N + 1)) - xc) ((INR j - INR N) * (H / INR (2 * N + 1)) - yc) 1 0 in
    let I j i := row_weight (d_method o) N j * sers (re * sqrt q) n c (d j i) in
    s ^ 2 = rsum2 (2 * N + 1) (2 * N + 1) (fun j i => vds (rm * sqrt qm) c (-89/1000) (d j i) ^ 2 * I j i) /
            rsum2 (2 * N + 1) (2 * N + 1) I) /\
  (disp_misalign_1D quad o ins gal = Ok r -> exists s, x_ap r = Fin s /\ 0 < s /\
    let N := half_samples o re in let H := width o re q a 0 in
    let d j i := ell ((INR i - INR N) * (W / INR (2 * N + 1)) - xc) ((INR j - INR N) * (H / INR (2 * N + 1)) - yc) q a in
    let I j i := row_weight (d_method o) N j * sers (re * sqrt q) n c (d j i) in
    s ^ 2 = rsum2 (2 * N + 1) (2 * N + 1) (fun j i => vds (rm * sqrt qm) c (-89/1000) (d j i) ^ 2 * I j i) /
            rsum2 (2 * N + 1) (2 * N + 1) I).
Proof. exact window_sum. Qed.
Print Assumptions C27_sum.

(** Settings meeting the hypotheses: an inclined galaxy, default extraction width, Gaussian PSF. *)
Example C27_example : physical (mkdopt 2 Optimal None None (Fin 0) (Fin 0) (Fin (1/10)) (Fin 0) (Fin 1)) ex_ins1
  (mkgal1 (Fin 1) (Fin (1/2)) (Fin 0) (Fin 4) (Fin 1) (Fin 1) (Fin 30)) 1 (1/2) 4 1 1 30 (1/10) 1 0 0 1.
Proof. exact ex_grid_hyps. Qed.

(** C28: for a round galaxy both dispersion models return the same result, at every angle. *)
Theorem C28_round : forall quad o ins gal re rm qm n a c W xc yc F,
  physical o ins gal re 1 rm qm n a c W xc yc F -> disp_misalign_1D quad o ins gal = disp_1D quad o ins gal.
Proof. exact round_same. Qed.
Print Assumptions C28_round.

Example C28_example : forall d, physical (ex_dopt d) ex_ins1 ex_gal1 1 1 4 1 1 30 (1/10) 1 0 0 1.
Proof. exact ex_physical. Qed.

(** C29: both dispersion models exist whenever the reference integrals do, and their aperture dispersion
    is an average of the local one. *)
Theorem C29_exists : forall quad o ins gal re q rm qm n a c W xc yc F,
  physical o ins gal re q rm qm n a c W xc yc F ->
  (forall f R0, exists v, quad f (Fin 0) R0 = Ok v) ->
  (exists r, disp_1D quad o ins gal = Ok r) /\ (exists r, disp_misalign_1D quad o ins gal = Ok r).
Proof. exact disp_exists. Qed.
Print Assumptions C29_exists.
Theorem C29_average : forall quad o ins gal re q rm qm n a c W xc yc F r,
  physical o ins gal re q rm qm n a c W xc yc F ->
  (disp_1D quad o ins gal = Ok r -> exists s, x_ap r = Fin s /\ x_ratio r = fdiv (Fin s) (x_e r) /\
     average_of (d_method o) (re * sqrt q) n (rm * sqrt qm) c F W (width o (re * sqrt q) 1 0 F) xc yc 1 0
              (half_samples o (re * sqrt q)) s) /\
  (disp_misalign_1D quad o ins gal = Ok r -> exists s, x_ap r = Fin s /\ x_ratio r = fdiv (Fin s) (x_e r) /\
     average_of (d_method o) (re * sqrt q) n (rm * sqrt qm) c F W (width o re q a F) xc yc q a
              (half_samples o re) s).
Proof. exact disp_average. Qed.
Print Assumptions C29_average.

(** C29: the rotation model averages dispersion and line-of-sight speed in quadrature; [v0] and [sg] are
    the velocity and dispersion realised for the requested ratio (C31). *)
Theorem C29_rotation : forall shift o ins gal re q q0 a W xc yc pad F H va rt R0 v0 sg,
  physical_rot o ins gal re q q0 a W xc yc pad F H va rt -> ref_radius o re R0 ->
  update_kinProfile o (Fin R0) = ([Fin v0; Fin rt], [Fin sg]) ->
  exists st i s, rot_new shift o ins gal = Ok st /\ inclined q q0 i /\
    rot_average v0 rt sg a i W H xc yc (pad * F) s /\
    h_out st = Some (mkout1 (Fin s) (Fin (sqrt (rotation v0 rt R0 ^ 2 + sg ^ 2)))
                      (fdiv (Fin s) (Fin (sqrt (rotation v0 rt R0 ^ 2 + sg ^ 2))))).
Proof. exact rot_run. Qed.
Print Assumptions C29_rotation.

(** C29: without rotation the correction is exactly one. *)
Theorem C29_no_rotation : forall shift o ins gal re q q0 a W xc yc pad F H va rt R0,
  physical_rot o ins gal re q q0 a W xc yc pad F H va rt -> ref_radius o re R0 -> t_ratio o = Some (Fin 0) -> 0 < va ->
  exists st, rot_new shift o ins gal = Ok st /\ h_out st = Some (mkout1 (Fin va) (Fin va) (Fin 1)).
Proof. exact no_rotation. Qed.
Print Assumptions C29_no_rotation.

Example C29_example : forall b, physical_rot (ex_ropt b false) ex_ins1 ex_galr 1 (1/2) (1/5) 20 1 0 0 (1/2) 1 2 100 (1/2).
Proof. exact ex_physical_rot. Qed.

(** C30: the slope option does not change the aperture dispersion of either model. *)
Theorem C30_slope_ignored : forall quad quad' o ins gal d r r',
  (disp_1D quad o ins gal = Ok r -> disp_1D quad' (with_slope o d) ins gal = Ok r' -> x_ap r' = x_ap r) /\
  (disp_misalign_1D quad o ins gal = Ok r -> disp_misalign_1D quad' (with_slope o d) ins gal = Ok r' -> x_ap r' = x_ap r).
Proof. exact slope_unused. Qed.
Print Assumptions C30_slope_ignored.

(** C30: with slope zero the local dispersion is one everywhere and so is the reference value, for any
    integrator, yet the aperture dispersion and the ratio exceed one. *)
Theorem C30_refuted : exists o ins gal, d_slope o = Fin 0 /\
  (forall r, 0 <= r -> sigma_profile (Fin r) (circ (l_remass gal) (l_qmass gal)) (d_slope o) (d_rcore o) = Fin 1) /\
  forall quad,
    (forall f g R0, (forall r, 0 <= r -> f (Fin r) = g (Fin r)) -> quad f (Fin 0) R0 = quad g (Fin 0) R0) ->
    (forall f R0, exists v, quad f (Fin 0) R0 = Ok (Fin v) /\ 0 < v) ->
    exists r s, disp_1D quad o ins gal = Ok r /\ x_ap r = Fin s /\ x_e r = Fin 1 /\ x_ratio r = Fin s /\ 1 < s.
Proof. exact slope_refuted. Qed.
Print Assumptions C30_refuted.

(** C31: the requested ratio of rotation to dispersion at the reference radius is realised. *)
Theorem C31_ratio : forall o va rt R0, t_va o = Fin va -> t_rt o = Fin rt -> rt <> 0 ->
  (forall b, t_ratio o = Some (Fin b) -> b <> 0 ->
     update_kinProfile o (Fin R0) = ([Fin va; Fin rt], [Fin (rotation va rt R0 / b)])) /\
  (t_ratio o = None -> update_kinProfile o (Fin R0) = ([Fin va; Fin rt], [Fin 0])) /\
  (t_ratio o = Some (Fin 0) -> update_kinProfile o (Fin R0) = ([Fin 0; Fin rt], [Fin va])).
Proof. exact realised. Qed.
Print Assumptions C31_ratio.
Theorem C31_profile : forall o va rt R0 b vth dth, t_va o = Fin va -> t_rt o = Fin rt -> rt <> 0 ->
  t_ratio o = Some (Fin b) -> b <> 0 -> update_kinProfile o (Fin R0) = (vth, dth) ->
  exists v s, vel_arctan vth (Fin R0) (Fin 0) = Fin v /\ disp_const dth (Fin R0) (Fin 0) = Fin s /\ v = b * s /\
    forall r z, disp_const dth (Fin r) z = Fin s.
Proof. exact realised_profile. Qed.
Print Assumptions C31_profile.

Example C31_example : t_va (ex_ropt (Some (Fin 2)) false) = Fin 100 /\ t_rt (ex_ropt (Some (Fin 2)) false) = Fin (1/2) /\
  update_kinProfile (ex_ropt (Some (Fin 2)) false) (Fin (1/2)) = ([Fin 100; Fin (1/2)], [Fin 25]).
Proof. exact ex_ratio. Qed.

(** C32: for a point of the midplane of a disc of axis ratio cos i, the elliptical radius of the 1-D
    models is the circularised radius of the 2-D transform with the opposite angle ... *)
Theorem C32_opposite_angle : forall x y z a i, 0 < cos i ->
  forall X Y, transform_int_3d (Fin x) (Fin y) (Fin z) (Fin (- a)) (Fin i) = (Fin X, Fin Y, Fin 0) ->
  r_int_ellip (Fin x) (Fin y) (Fin (cos i)) (Fin a) = Fin (sqrt (cos i * (X ^ 2 + Y ^ 2))).
Proof. exact ell_disc. Qed.
Print Assumptions C32_opposite_angle.

(** C32: ... and not with the same angle. *)
Theorem C32_refuted : exists x y z a i X Y, 0 < cos i /\
  transform_int_3d (Fin x) (Fin y) (Fin z) (Fin a) (Fin i) = (Fin X, Fin Y, Fin 0) /\
  r_int_ellip (Fin x) (Fin y) (Fin (cos i)) (Fin a) <> Fin (sqrt (cos i * (X ^ 2 + Y ^ 2))).
Proof. exact ell_disc_refuted. Qed.
Print Assumptions C32_refuted.

Example C32_example : transform_int_3d (Fin (- 2 * sin (- (30) * (PI / 180)))) (Fin (2 * cos (- (30) * (PI / 180)))) (Fin 0) (Fin (- (30))) (Fin (PI / 3))
  = (Fin 0, Fin 2, Fin 0).
Proof. exact ex_major. Qed.

(** C88: the default extraction width is twice the larger of the blurred minor axis and the projected
    blurred major axis; it covers the PSF and the galaxy. *)
Theorem C88_default_width : forall re q a F, 0 < re -> 0 < q ->
  default_width (Fin re) (Fin q) (Fin a) (Fin F) = Fin (wide re q a F) /\ 0 < wide re q a F.
Proof. exact width_value. Qed.
Print Assumptions C88_default_width.
Theorem C88_bounds : forall re q a F, 0 < re -> 0 < q -> 0 <= F ->
  2 * F <= wide re q a F /\ 4 * q * re <= wide re q a F /\
  4 * re * Rabs (cos (a * PI / 180)) <= wide re q a F /\
  wide re q a F <= 2 * Rmax 1 q * sqrt ((2 * re) ^ 2 + F ^ 2).
Proof. exact width_bounds. Qed.
Print Assumptions C88_bounds.

Example C88_example : default_width (Fin 1) (Fin 1) (Fin 0) (Fin 0) = Fin 4.
Proof. exact ex_width. Qed.

(** C89: recalculating the correction of an object changes nothing when the optional velocity shift and
    effective resolution are off ... *)
Theorem C89_recalculate : forall shift o ins gal st, t_shift o = false -> t_eff o = false ->
  rot_new shift o ins gal = Ok st -> calc_aper_correction shift o ins st = (st, Ok tt).
Proof. exact rebuilt_same. Qed.
Print Assumptions C89_recalculate.

(** C89: ... and always fails when one of them is on. *)
Theorem C89_shift_fails : forall shift o ins gal st, t_shift o = true \/ t_eff o = true ->
  rot_new shift o ins gal = Ok st -> snd (calc_aper_correction shift o ins st) = Err AttributeError.
Proof. exact rebuilt_fails. Qed.
Print Assumptions C89_shift_fails.
Theorem C89_refuted : exists shift o ins gal st, rot_new shift o ins gal = Ok st /\
  snd (calc_aper_correction shift o ins st) = Err AttributeError.
Proof. exact recalc_refuted. Qed.
Print Assumptions C89_refuted.
