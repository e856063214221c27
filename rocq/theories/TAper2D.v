(* Property theorems about the 2-D aperture model and the kinematic model object. *)
From Coq Require Import Reals Lra List Bool Arith ZArith Lia.
From Verif Require Import PyFloat PyBase Arr PyNum MParams MKernels MAper2D MCube3D SParams SKernels SAper2D
  PAper2D PAper2DHist PAper2DGrid PAper2DOk PAper2DVal PAper2DGeo PAper2DEx PAper2DEff PAper2DTop PCube3D PSlit PAper2DEx2 SAper1D SLine SLos SReach PReach2 PReach3.
Import ListNotations.
Local Open Scope R_scope.

(** C05: a wrong number of free values is rejected and changes nothing. *)
Theorem C05_wrong_length : forall c x k,
  length (args x) <> nfree (k_vary k) -> run c x k = (k, Err ValueError).
Proof. exact guard_same. Qed.
Print Assumptions C05_wrong_length.

(** C05: with the right number the parameters become the supplied ones whether or not the
    evaluation that follows succeeds; fixed parameters stay. *)
Theorem C05_right_length : forall c x k,
  length (k_vary k) = length (k_theta k) -> length (args x) = nfree (k_vary k) ->
  let k' := fst (run c x k) in
  k_vary k' = k_vary k /\ length (k_theta k') = length (k_theta k) /\
  (forall m, free (k_vary k) m -> nth_error (k_theta k') m = nth_error (args x) (rank (k_vary k) m)) /\
  (forall m, ~ free (k_vary k) m -> nth_error (k_theta k') m = nth_error (k_theta k) m).
Proof. exact call_params. Qed.
Print Assumptions C05_right_length.

Example C05_example : length (args (CMake [Fin 1])) = nfree (k_vary w_k0) /\
  length (args (CUpdate [Fin 1; Fin 2])) <> nfree (k_vary w_k0).
Proof. split; [reflexivity|discriminate]. Qed.

(** C06: with redshift and offset fixed, any call after any history gives what a fresh model
    gives for the same argument: same outcome, and on success the same state. *)
Theorem C06_history_independent : forall c k0 k x,
  offsets_fixed k0 -> fresh k0 -> history c k0 k ->
  snd (run c x k) = snd (km_make c (args x) k0) /\
  (snd (run c x k) = Ok tt -> fst (run c x k) = fst (km_make c (args x) k0)).
Proof. exact history_independent. Qed.
Print Assumptions C06_history_independent.

(** C06: without adaptive up-sampling this even holds after evaluations that failed. *)
Theorem C06_history_independent_after_errors : forall c k0 k x,
  offsets_fixed k0 -> fresh k0 -> o_adapt (c_opt c) = false -> history_any c k0 k ->
  snd (run c x k) = snd (km_make c (args x) k0) /\
  (snd (run c x k) = Ok tt -> fst (run c x k) = fst (km_make c (args x) k0)).
Proof. exact history_independent_any. Qed.
Print Assumptions C06_history_independent_after_errors.

Example C06_example : exists k, offsets_fixed w_kf /\ fresh w_kf /\ history w_cfg w_kf k.
Proof. exact w_history. Qed.

(** C07: update_model only reads the profile parameters, so two vectors that differ in the
    redshift and vertical offset alone give the same image ... *)
Theorem C07_update_reads_profiles_only : forall c k a tf tf',
  k_aper k = Some a -> length (k_vary k) = length (k_theta k) ->
  length tf = nfree (k_vary k) -> length tf' = nfree (k_vary k) ->
  (forall i, (i < p_nvel (c_prof c) + p_ndisp (c_prof c))%nat -> free (k_vary k) i ->
     nth_error tf (rank (k_vary k) i) = nth_error tf' (rank (k_vary k) i)) ->
  snd (km_update c tf k) = snd (km_update c tf' k) /\
  k_model (fst (km_update c tf k)) = k_model (fst (km_update c tf' k)).
Proof. exact update_reads_profiles. Qed.
Print Assumptions C07_update_reads_profiles_only.

(** ... although a fresh model depends on the redshift. *)
Theorem C07_redshift_refuted : exists c k0 k1 tf0,
  fresh k0 /\ km_make c tf0 k0 = (k1, Ok tt) /\
  ~ (forall tf, length tf = nfree (k_vary k0) ->
       k_model (fst (km_update c tf k1)) = k_model (fst (km_make c tf k0))).
Proof. exact redshift_ignored. Qed.
Print Assumptions C07_redshift_refuted.

Example C07_example : exists k m, km_make w_cfg [Fin 1] w_k0 = (k, Ok tt) /\ k_model k = Some m /\ at2 m 0 0 = Fin 0.
Proof. destruct (w_make 1 (or_intror eq_refl)) as (k&m&A&B&C&_). exists k, m. rewrite C. repeat split; auto. f_equal. lra. Qed.

(** C08: up-sampling an evenly spaced grid by a whole factor. *)
Theorem C08_upsampled_grid : forall c th a0 a w0 d N f,
  setup_calcs c th = Ok a0 -> a_su a = a_su a0 -> a_wv a = a_wv a0 -> o_adapt (c_opt c) = true ->
  g_wave (c_gal c) = uniform w0 d N -> 0 < d -> (2 <= N)%nat ->
  o_factor (c_opt c) = INR f -> (1 <= f)%nat ->
  abs_lt_truth (a_disp a) (s_up (a_su a)) = Ok true ->
  exists a', check_do_upsample_wave c a = (a', Ok tt) /\
    w_n (a_wv a') = (N * f)%nat /\ length (w_arr (a_wv a')) = (N * f)%nat /\
    w_d (a_wv a') = Fin (d / INR f) /\
    (forall k, (k < N * f)%nat ->
       lnth (w_arr (a_wv a')) k = Fin (w0 - (d - d / INR f) / 2 + INR k * (d / INR f))) /\
    (forall i, (i < N)%nat ->
       fsumn f (fun s => lnth (w_arr (a_wv a')) (i * f + s)) = Fin (INR f * (w0 + INR i * d))).
Proof. exact upsample_uniform. Qed.
Print Assumptions C08_upsampled_grid.

(** C08: dispersions at or above the threshold leave the grid alone. *)
Theorem C08_not_triggered : forall c a s D,
  a_disp a = [Fin s] -> s_up (a_su a) = Some (Fin D) -> D <= Rabs s ->
  check_do_upsample_wave c a = (a, Ok tt).
Proof. exact upsample_not_triggered. Qed.
Print Assumptions C08_not_triggered.

(** C08: after any history of calls the working grid is the galaxy's grid again. *)
Theorem C08_grid_restored : forall c k0 k, fresh k0 -> history c k0 k ->
  exists a, k_aper k = Some a /\ w_arr (a_wv a) = g_wave (c_gal c) /\
    w_n (a_wv a) = length (g_wave (c_gal c)) /\ w_d (a_wv a) = average (diffs (g_wave (c_gal c))).
Proof. exact history_grid. Qed.
Print Assumptions C08_grid_restored.

Example C08_example : exists a0, setup_calcs w_up (w_th 0) = Ok a0 /\
  g_wave (c_gal w_up) = uniform 1 1 2 /\ o_factor (c_opt w_up) = INR 3 /\
  abs_lt_truth [Fin 0] (s_up (a_su a0)) = Ok true.
Proof. exact w_up_triggers. Qed.

(** C24: slit and line-of-sight grids. *)
Theorem C24_x_grid : forall c th g w, setup_model_grid c th = Ok (g, w) ->
  length (x_arr g) = nX g /\
  forall i, (i < nX g)%nat ->
    lnth (x_arr g) i = Fin ((INR i - (INR (nX g) - 1) / 2) * delt_x g - o_xc (c_opt c)).
Proof. exact x_grid_top. Qed.
Print Assumptions C24_x_grid.

Theorem C24_z_grid : forall c th g w, setup_model_grid c th = Ok (g, w) ->
  length (z_arr g) = nZ g /\
  forall i, (i < nZ g)%nat -> lnth (z_arr g) i = Fin ((INR i - (INR (nZ g) - 1) / 2) * delt_z g).
Proof. exact z_grid_top. Qed.
Print Assumptions C24_z_grid.

Theorem C24_slit_tiled : forall c th g w, setup_model_grid c th = Ok (g, w) ->
  0 < i_slit (c_ins c) -> 0 < i_pix (c_ins c) ->
  INR (n_pix_x g) * delt_x g = i_slit (c_ins c) /\ 0 < delt_x g <= delt_y g /\
  ((n_pix_x g > 1)%nat -> delt_y g < 2 * delt_x g).
Proof. exact slit_tiling. Qed.
Print Assumptions C24_slit_tiled.

Example C24_example : exists g w, setup_model_grid w_cfg (w_th 0) = Ok (g, w) /\ 0 < i_slit (c_ins w_cfg) /\ 0 < i_pix (c_ins w_cfg).
Proof. destruct (setup_ok _ _ _ (w_posed 0)) as (g&w&H). exists g, w. cbn. repeat split; auto; lra. Qed.

(** C25: the spatial grid.  Positions are those of the sub-pixel centres plus a stretch that is
    half a detector pixel at either end; the mean position is right; the spacing is not. *)
Theorem C25_y_grid : forall c th g w m0, setup_model_grid c th = Ok (g, w) -> m0_fit g = Fin m0 -> (2 <= nY g)%nat ->
  length (y_arr g) = nY g /\
  (forall j, (j < nY g)%nat ->
    lnth (y_arr g) j = Fin (subpixel_y (o_nsub (c_opt c)) (padY g) (delt_y g) m0 j
       + INR (o_nsub (c_opt c)) * delt_y g * (1/2 - INR j / (INR (nY g) - 1)))) /\
  (forall j, (S j < nY g)%nat ->
    fsub (lnth (y_arr g) (S j)) (lnth (y_arr g) j)
    = Fin (delt_y g * (1 - INR (o_nsub (c_opt c)) / (INR (nY g) - 1)))).
Proof. exact y_grid_top. Qed.
Print Assumptions C25_y_grid.

Theorem C25_y_grid_centre : forall c th g w m0, setup_model_grid c th = Ok (g, w) -> m0_fit g = Fin m0 -> (2 <= nY g)%nat ->
  fsumn (nY g) (fun j => lnth (y_arr g) j)
  = Fin (rsumn (nY g) (subpixel_y (o_nsub (c_opt c)) (padY g) (delt_y g) m0)).
Proof. exact y_grid_centre. Qed.
Print Assumptions C25_y_grid_centre.

Theorem C25_spacing_refuted : forall c th g w m0, setup_model_grid c th = Ok (g, w) -> m0_fit g = Fin m0 -> (2 <= nY g)%nat ->
  0 < i_pix (c_ins c) ->
  forall j, (S j < nY g)%nat ->
    fsub (lnth (y_arr g) (S j)) (lnth (y_arr g) j) <> Fin (i_pix (c_ins c) / INR (o_nsub (c_opt c))).
Proof. exact y_grid_wrong. Qed.
Print Assumptions C25_spacing_refuted.

Example C25_example : exists g w, setup_model_grid w_cfg2 (w_th 0) = Ok (g, w) /\ m0_fit g = Fin (0 + 0) /\ nY g = 4%nat.
Proof. exact w_cfg2_grid. Qed.

(** C26: the model image has the shape of the data after every history of calls. *)
Theorem C26_image_shape : forall c k0 k, fresh k0 -> history c k0 k ->
  exists m, k_model k = Some m /\ rows m = img_rows c /\ cols m = length (g_wave (c_gal c)).
Proof. exact history_shape. Qed.
Print Assumptions C26_image_shape.

Example C26_example : exists k, fresh w_kf /\ history w_cfg w_kf k /\ img_rows w_cfg = 1%nat.
Proof. destruct w_history as (k&_&F&H). exists k. auto. Qed.

(** C33: the reported light offset lies in the slit; light that overlaps the slit has the
    width of the overlap. *)
Theorem C33_offset_in_slit : forall xarr wh A mu f s d w, 0 <= f -> 0 <= s ->
  check_slit_illum xarr wh A (Fin mu) (Fin f) (Fin s) = Ok (d, w) ->
  exists x, d = Fin x /\ - (s / 2) <= x <= s / 2.
Proof. exact slit_offset. Qed.
Print Assumptions C33_offset_in_slit.

Theorem C33_overlap_width : forall xarr wh A mu f s, 0 < f -> 0 < s -> - (s / 2) < mu + f / 2 -> mu - f / 2 < s / 2 ->
  exists d, check_slit_illum xarr wh A (Fin mu) (Fin f) (Fin s) =
    Ok (d, Fin (Rmin (mu + f / 2) (s / 2) - Rmax (mu - f / 2) (- (s / 2)))) /\
    0 < Rmin (mu + f / 2) (s / 2) - Rmax (mu - f / 2) (- (s / 2)) <= Rmin f s.
Proof. exact slit_width. Qed.
Print Assumptions C33_overlap_width.

Theorem C33_width_refuted : exists xarr wh A mu f s d w, 0 < f /\ 0 < s /\
  check_slit_illum xarr wh (Fin A) (Fin mu) (Fin f) (Fin s) = Ok (d, Fin w) /\ w < 0.
Proof. exact slit_width_witness. Qed.
Print Assumptions C33_width_refuted.

Example C33_example : - (1 / 2) < 1/4 + 1 / 2 /\ 1/4 - 1 / 2 < 1 / 2. Proof. lra. Qed.

(** C67: a first call produces a cube exactly when the padded size divides the fine grid, and
    the cube then has the padded size; otherwise it raises ValueError. *)
Theorem C67_cube_when : forall c k tf th l,
  fresh k -> length (k_vary k) = length (k_theta k) -> length tf = nfree (k_vary k) ->
  fst (update_parameters (k_theta k) (k_vary k) tf) = th -> well_posed (cfg3 c) th l ->
  let n := g_rows (c_gal c) in
  let pad := nat_of_round (i_fwhm (c_ins c) * o_pad (c_opt c) / (i_pix (c_ins c) / INR (o_nsub (c_opt c)))) in
  exists k' a, k_aper k' = Some a /\ (exists a0, setup_calcs (cfg3 c) th = Ok a0 /\ evaluated (cfg3 c) a0 a) /\
  ((exists q, (n * o_nsub (c_opt c) = (n + 2 * pad) * q)%nat) ->
     exists cu, km_make3D c tf k = (k', Ok cu) /\
       dim0 cu = length l /\ dim1 cu = (n + 2 * pad)%nat /\ dim2 cu = (n + 2 * pad)%nat) /\
  ((~ exists q, (n * o_nsub (c_opt c) = (n + 2 * pad) * q)%nat) -> km_make3D c tf k = (k', Err ValueError)).
Proof. exact make3D_iff. Qed.
Print Assumptions C67_cube_when.

(** C67: a second call never returns a cube. *)
Theorem C67_second_call_refuted : forall c k tf a,
  k_aper k = Some a -> length (k_vary k) = length (k_theta k) ->
  exists e, snd (km_make3D c tf k) = Err e /\
    (length tf = nfree (k_vary k) ->
     snd (aper_update (cfg3 c) (fst (update_parameters (k_theta k) (k_vary k) tf)) a) = Ok tt ->
     e = UnboundLocalError).
Proof. exact make3D_again. Qed.
Print Assumptions C67_second_call_refuted.

(** C67: update_3D_int_model returns the cube on the padded fine grid, before the PSF. *)
Theorem C67_update_shape : forall c k k' tf a cu th l a0,
  k_aper k = Some a -> length (k_vary k) = length (k_theta k) ->
  well_posed (cfg3 c) th l -> setup_calcs (cfg3 c) th = Ok a0 -> evaluated (cfg3 c) a0 a ->
  km_update3D c tf k = (k', Ok cu) ->
  let n := g_rows (c_gal c) in
  let pad := nat_of_round (i_fwhm (c_ins c) * o_pad (c_opt c) / (i_pix (c_ins c) / INR (o_nsub (c_opt c)))) in
  dim1 cu = (n * o_nsub (c_opt c) + 2 * pad)%nat /\ dim2 cu = (n * o_nsub (c_opt c) + 2 * pad)%nat.
Proof. exact update3D_shape. Qed.
Print Assumptions C67_update_shape.

Example C67_example : fresh w_k0 /\ well_posed (cfg3 w_cfg) (w_th 0) [1; 2] /\
  (exists q, (g_rows (c_gal w_cfg) * o_nsub (c_opt w_cfg) = (g_rows (c_gal w_cfg) + 2 * 0) * q)%nat).
Proof. split; [reflexivity|]. split; [exact (w3_posed 0)|exists 1%nat; reflexivity]. Qed.

(** C74: without the position shift the effective-resolution option changes nothing. *)
Theorem C74_no_effect_refuted : forall c th st a0,
  o_shift (c_opt c) = false -> setup_calcs c th = Ok a0 ->
  (exists r, eff_inst_res c (s_grid (a_su a0)) (a_stamp a0) = Ok r) ->
  match aper_new (with_eff false c) th st, aper_new (with_eff true c) th st with
  | (_, Ok a), (_, Ok b) => a_model a = a_model b
  | (_, Err e), (_, Err e') => e = e'
  | _, _ => False
  end.
Proof. exact eff_same_image. Qed.
Print Assumptions C74_no_effect_refuted.

(** C74: with the shift as well, an evaluation that succeeds is one in which the smallest
    width is not positive, so that no broadening was applied; otherwise the step raises. *)
Theorem C74_step_with_shift : forall c a d mn m,
  o_shift (c_opt c) = true -> o_eff (c_opt c) = true -> o_spec (c_opt c) <> Velocity ->
  a_idw a = IdwArr d -> np_min d = Ok mn -> a_out a = Some m ->
  convolve_instrument_resolution c a = (a, if fgtb mn (Fin 0) then Err ValueError else Ok tt).
Proof. exact both_on. Qed.
Print Assumptions C74_step_with_shift.

Theorem C74_success_with_shift : forall c th a0 b,
  o_shift (c_opt c) = true -> o_eff (c_opt c) = true ->
  setup_calcs c th = Ok a0 -> do_model_calcs c a0 = (b, Ok tt) ->
  exists v d mn, eff_inst_res c (s_grid (a_su a0)) (a_stamp a0) = Ok (v, d) /\
    np_min d = Ok mn /\ fgtb mn (Fin 0) = false.
Proof. exact both_on_eval. Qed.
Print Assumptions C74_success_with_shift.

Example C74_example : exists a0 r, o_shift (c_opt w_cfg) = false /\ setup_calcs w_cfg (w_th 0) = Ok a0 /\
  eff_inst_res w_cfg (s_grid (a_su a0)) (a_stamp a0) = Ok r.
Proof. exact w_eff_ok. Qed.

(** C76: a well-posed evaluation never raises and yields an image of the right shape. *)
Theorem C76_well_posed_succeeds : forall c k tf th l,
  fresh k -> length (k_vary k) = length (k_theta k) -> length tf = nfree (k_vary k) ->
  fst (update_parameters (k_theta k) (k_vary k) tf) = th -> well_posed c th l ->
  (k_noscale k = true \/
   (rows (flux (g_data (c_gal c))) = img_rows c /\ rows (ferr (g_data (c_gal c))) = img_rows c /\
    cols (flux (g_data (c_gal c))) = length l /\ cols (ferr (g_data (c_gal c))) = length l /\
    cols_ok (length l) (wh_nosky (g_data (c_gal c))))) ->
  exists k' m, km_make c tf k = (k', Ok tt) /\ k_model k' = Some m /\ rows m = img_rows c /\ cols m = length l.
Proof. exact make_ok. Qed.
Print Assumptions C76_well_posed_succeeds.

Example C76_example : fresh w_k0 /\ well_posed w_cfg (w_th 1) [1; 2] /\ k_noscale w_k0 = true.
Proof. split; [reflexivity|]. split; [apply w_posed|reflexivity]. Qed.

(** C77: with no blurring and zero dispersion every detector row carries exactly the line flux
    of its sub-pixels. *)
Theorem C77_row_flux : forall c th l ra (Iv : nat -> nat -> nat -> R),
  well_posed c th l -> unblurred c -> g_ratio (c_gal c) = map Fin ra ->
  (forall g w, setup_model_grid c th = Ok (g, w) -> forall m j k, (m < nZ g)%nat -> (j < nY g)%nat -> (k < nX g)%nat ->
    p_disp (c_prof c) (firstn 1 (skipn (p_nvel (c_prof c)) th)) (at3 (r_cube g) m j k) (at3 (zint g) m j k) = Fin 0 /\
    at3 (I_wide g) m j k = Fin (Iv m j k)) ->
  exists a0 b g w m, setup_model_grid c th = Ok (g, w) /\ setup_calcs c th = Ok a0 /\
    do_model_calcs c a0 = (b, Ok tt) /\ a_model b = Some m /\
    rows m = g_rows (c_gal c) /\ cols m = length l /\
    forall i, (i < g_rows (c_gal c))%nat ->
      fsumn (length l) (fun q => at2 m i q) =
      Fin (rsumn (length (g_rest (c_gal c))) (fun n => nth n ra 0) *
           (delt_x g * delt_z g *
            rsumn (o_nsub (c_opt c)) (fun s => rsumn (nX g) (fun k => rsumn (nZ g) (fun z =>
              Iv z (i * o_nsub (c_opt c) + s)%nat k))))).
Proof. exact plain_flux. Qed.
Print Assumptions C77_row_flux.

Example C77_example : well_posed (y_wide_cfg (3/5)) (y_flat 0) y_wide /\ unblurred (y_wide_cfg (3/5)) /\ g_ratio (c_gal (y_wide_cfg (3/5))) = map Fin [1] /\
  exists Iv, forall g w, setup_model_grid (y_wide_cfg (3/5)) (y_flat 0) = Ok (g, w) ->
  forall m j k, (m < nZ g)%nat -> (j < nY g)%nat -> (k < nX g)%nat ->
    p_disp (c_prof (y_wide_cfg (3/5))) (firstn 1 (skipn (p_nvel (c_prof (y_wide_cfg (3/5)))) (y_flat 0))) (at3 (r_cube g) m j k) (at3 (zint g) m j k) = Fin 0 /\
    at3 (I_wide g) m j k = Fin (Iv m j k).
Proof. split; [apply (y_wide_disc (3/5) 0); lra|]. split; [apply (y_wide_disc (3/5) 0); lra|]. split; [reflexivity|exact flux_cells]. Qed.

(** C77: the light of every row of a plain disc with zero dispersion is the summed intensity of its cells,
    times the sum of the line ratios. *)
Theorem C77_disc : forall c th l d q q0 m0 z rest ratio vr hr,
  plain_disc c th l d q q0 m0 z rest ratio vr hr -> no_dispersion c th ->
  exists m inc n nx dx, image_is c th m /\ inclined q q0 inc /\ turning_axis d inc n /\ fills_slit c nx dx /\
    forall i, (i < g_rows (c_gal c))%nat ->
      fsumn (length l) (at2 m i) = Fin (fold_right Rplus 0 (firstn (length rest) ratio) * row_sum c nx dx m0 i (fun p => hr (from_axis n p) (height n p))).
Proof. exact disc_flux. Qed.
Print Assumptions C77_disc.

Example C77_disc_example : plain_disc (y_wide_cfg (3/5)) (y_flat 0) y_wide 30 (3/5) 0 1 1 [6565] [1] (fun r _ => 2 / PI * 200 * atan (r / (1/2))) (fun r _ => exp (- r)) /\
  no_dispersion (y_wide_cfg (3/5)) (y_flat 0).
Proof. split; [apply y_wide_disc; lra|intros r h; cbn; f_equal; lra]. Qed.
