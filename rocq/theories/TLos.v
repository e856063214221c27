(* Property theorems: light of the turning disc in the model image *)
From Coq Require Import Reals List Bool Arith ZArith.
From Verif Require MProf.
From Verif Require Import PyFloat PyBase Arr PyNum MParams MKernels MAper2D SParams SKernels SAper2D SAper1D SLine SLos SLos2 PKernels PLos PLos2 PLos3.
Import ListNotations.
Local Open Scope R_scope.

(** The whole image without blurring, for any profiles. *)
Theorem C112_image : forall c th l d q q0 m0 z (rest ratio : list R) (vr hr sr : R -> R -> R),
  well_posed c th l -> unblurred c ->
  g_dPA (c_gal c) = Fin d -> g_q (c_gal c) = Fin q -> g_q0 (c_gal c) = Fin q0 -> 0 <= q0 < 1 -> 0 <= q <= 1 ->
  fadd (g_m0 (c_gal c)) (nth (length th - 2) th NaN) = Fin m0 -> nth (length th - 1) th NaN = Fin z -> 1 + z <> 0 ->
  g_rest (c_gal c) = map Fin rest -> g_ratio (c_gal c) = map Fin ratio -> (forall x, In x rest -> x <> 0) ->
  (forall r h, p_vel (c_prof c) (firstn (p_nvel (c_prof c)) th) (Fin r) (Fin h) = Fin (vr r h)) ->
  (forall r h, p_int (c_prof c) (Fin r) (Fin h) = Fin (hr r h)) ->
  (forall r h, p_disp (c_prof c) (firstn 1 (skipn (p_nvel (c_prof c)) th)) (Fin r) (Fin h) = Fin (sr r h) /\ sr r h <> 0) ->
  let ns := o_nsub (c_opt c) in let ny := (g_rows (c_gal c) * ns)%nat in let dy := i_pix (c_ins c) / INR ns in
  exists a0 b m inc n nx dx,
    setup_calcs c th = Ok a0 /\ do_model_calcs c a0 = (b, Ok tt) /\ a_model b = Some m /\
    rows m = g_rows (c_gal c) /\ cols m = length l /\
    inclined q q0 inc /\ turning_axis d inc n /\
    INR nx * dx = i_slit (c_ins c) /\ 0 < dx <= dy /\ ((nx > 1)%nat -> dy < 2 * dx) /\
    forall i t, (i < g_rows (c_gal c))%nat -> (t < length l)%nat ->
      at2 m i t = Fin (dx * dy * tot ns (fun s => tot nx (fun k => tot ny (fun o =>
        let j := (i * ns + s)%nat in
        let p := (cell_centre nx dx k - o_xc (c_opt c),
                  subpixel_y ns 0 dy m0 j + INR ns * dy * (1/2 - (if Nat.eqb ny 1 then 0 else INR j / (INR ny - 1))),
                  cell_centre ny dy o) in
        let R := from_axis n p in let H := height n p in
        hr R H * spectrum rest ratio z (along_sight n (vr R H) p) (sr R H) (nth t l 0))))).
Proof. exact plain_emission. Qed.
Print Assumptions C112_image.

(** The same for the arctan rotation curve and the constant dispersion shipped with the code. *)
Theorem C112_arctan : forall c l d q q0 m0 z va rt sg dm (rest ratio : list R) (hr : R -> R -> R),
  let th := [Fin va; Fin rt; Fin sg; Fin dm; Fin z] in
  well_posed c th l -> unblurred c ->
  p_nvel (c_prof c) = 2%nat -> p_vel (c_prof c) = MProf.vel_arctan -> p_disp (c_prof c) = MProf.disp_const ->
  g_dPA (c_gal c) = Fin d -> g_q (c_gal c) = Fin q -> g_q0 (c_gal c) = Fin q0 -> 0 <= q0 < 1 -> 0 <= q <= 1 ->
  g_m0 (c_gal c) = Fin m0 -> 1 + z <> 0 -> rt <> 0 -> sg <> 0 ->
  g_rest (c_gal c) = map Fin rest -> g_ratio (c_gal c) = map Fin ratio -> (forall x, In x rest -> x <> 0) ->
  (forall r h, p_int (c_prof c) (Fin r) (Fin h) = Fin (hr r h)) ->
  let ns := o_nsub (c_opt c) in let ny := (g_rows (c_gal c) * ns)%nat in let dy := i_pix (c_ins c) / INR ns in
  exists a0 b m inc n nx dx,
    setup_calcs c th = Ok a0 /\ do_model_calcs c a0 = (b, Ok tt) /\ a_model b = Some m /\
    rows m = g_rows (c_gal c) /\ cols m = length l /\
    inclined q q0 inc /\ turning_axis d inc n /\
    INR nx * dx = i_slit (c_ins c) /\ 0 < dx <= dy /\ ((nx > 1)%nat -> dy < 2 * dx) /\
    forall i t, (i < g_rows (c_gal c))%nat -> (t < length l)%nat ->
      at2 m i t = Fin (dx * dy * tot ns (fun s => tot nx (fun k => tot ny (fun o =>
        let j := (i * ns + s)%nat in
        let p := (cell_centre nx dx k - o_xc (c_opt c),
                  subpixel_y ns 0 dy (m0 + dm) j + INR ns * dy * (1/2 - (if Nat.eqb ny 1 then 0 else INR j / (INR ny - 1))),
                  cell_centre ny dy o) in
        let R := from_axis n p in
        hr R (height n p) * spectrum rest ratio z (along_sight n (2 / PI * va * atan (R / rt)) p) sg (nth t l 0))))).
Proof. exact arctan_emission. Qed.
Print Assumptions C112_arctan.

(** Axis ratio 3/5, position angle 30 degrees, three rows, two sub-pixels per row. *)
Example C112_example : let th := [Fin 200; Fin (1/2); Fin 50; Fin 0; Fin 1] in
  well_posed y_cfg th [13126; 13134] /\ unblurred y_cfg /\
  exists a0 b m inc n, setup_calcs y_cfg th = Ok a0 /\ do_model_calcs y_cfg a0 = (b, Ok tt) /\ a_model b = Some m /\
    rows m = 3%nat /\ sin inc = 4/5 /\ turning_axis 30 inc n /\ exists f, at2 m 0 0 = Fin f.
Proof. exact y_example. Qed.

(** The light position used is the fitted centre moved to the nearest edge of the slit. *)
Theorem C113_clamped : forall xarr wh A mu f s d w, 0 <= f -> 0 <= s ->
  check_slit_illum xarr wh A (Fin mu) (Fin f) (Fin s) = Ok (d, w) -> d = Fin (Rmax (- (s / 2)) (Rmin mu (s / 2))).
Proof. exact slit_clamp. Qed.
Print Assumptions C113_clamped.

(** Velocity offsets and widths of the rows. *)
Theorem C113_rows : forall c g st v d rs lam, eff_inst_res c g st = Ok (v, d) ->
  i_res (c_ins c) = Fin rs -> 0 < rs -> lam0_primary g = Fin lam -> lam <> 0 -> 0 < i_slit (c_ins c) ->
  (forall xs ys, exists A mu fw, p_lmfit (c_prof c) xs ys = (A, Fin mu, Fin fw) /\ 0 <= fw) ->
  let s := i_slit (c_ins c) in
  length v = nY g /\ length d = nY g /\
  exists conv, PSF_convolve (mk3 1 (nY g) (nX g) (fun _ j k => fsumn (nZ g) (fun m => at3 (I_wide g) m j k))) (Fin (i_fwhm (c_ins c))) st = Ok (Some conv) /\
  forall j, (j < nY g)%nat -> exists xs A mu fw off wd,
    take (x_arr g) (seq (padX g) (n_pix_x g)) = Ok xs /\
    p_lmfit (c_prof c) xs (map (fun i => at3 conv 0 j i) (seq (padX g) (n_pix_x g))) = (A, Fin mu, Fin fw) /\
    check_slit_illum (x_arr g) (seq (padX g) (n_pix_x g)) A (Fin mu) (Fin fw) (Fin s) = Ok (off, wd) /\
    lnth v j = Fin (Rmax (- (s / 2)) (Rmin mu (s / 2)) / s * (rs * fwhm_factor)) /\
    (forall y, wd = Fin y -> lnth d j = Fin (y / s * (rs / c_kms * lam))).
Proof. exact eff_rows. Qed.
Print Assumptions C113_rows.

(** The cube with the light-position shift. *)
Theorem C113_shift : forall c th l a0 b g w d q q0 m0 z rs (rest ratio : list R) (vr hr sr : R -> R -> R) (px py pz : nat -> R),
  setup_model_grid c th = Ok (g, w) -> setup_calcs c th = Ok a0 ->
  o_shift (c_opt c) = true -> o_abs (c_opt c) = false -> o_floor (c_opt c) = false -> o_spec (c_opt c) = Wave ->
  cube_run c a0 = (b, Ok tt) ->
  0 < i_slit (c_ins c) -> 0 < i_pix (c_ins c) -> (1 <= g_rows (c_gal c))%nat -> g_wave (c_gal c) = map Fin l ->
  p_ndisp (c_prof c) = 1%nat -> (2 <= length th)%nat ->
  g_dPA (c_gal c) = Fin d -> g_q (c_gal c) = Fin q -> g_q0 (c_gal c) = Fin q0 -> 0 <= q0 < 1 -> 0 <= q <= 1 ->
  fadd (g_m0 (c_gal c)) (nth (length th - 2) th NaN) = Fin m0 -> nth (length th - 1) th NaN = Fin z -> 1 + z <> 0 ->
  g_rest (c_gal c) = map Fin rest -> g_ratio (c_gal c) = map Fin ratio -> (forall x, In x rest -> x <> 0) ->
  i_res (c_ins c) = Fin rs -> 0 < rs ->
  (forall r h, p_vel (c_prof c) (firstn (p_nvel (c_prof c)) th) (Fin r) (Fin h) = Fin (vr r h)) ->
  (forall r h, p_int (c_prof c) (Fin r) (Fin h) = Fin (hr r h)) ->
  (forall r h, p_disp (c_prof c) (firstn 1 (skipn (p_nvel (c_prof c)) th)) (Fin r) (Fin h) = Fin (sr r h) /\ sr r h <> 0) ->
  (forall xs ys, exists A mu fw, p_lmfit (c_prof c) xs ys = (A, Fin mu, Fin fw) /\ 0 <= fw) ->
  (forall k, (k < nX g)%nat -> lnth (x_arr g) k = Fin (px k)) ->
  (forall k, (k < nY g)%nat -> lnth (y_arr g) k = Fin (py k)) ->
  (forall k, (k < nZ g)%nat -> lnth (z_arr g) k = Fin (pz k)) ->
  exists inc n conv cube sh,
    inclined q q0 inc /\ turning_axis d inc n /\ a_cube b = Some cube /\
    PSF_convolve (mk3 1 (nY g) (nX g) (fun _ j k => fsumn (nZ g) (fun o => at3 (I_wide g) o j k))) (Fin (i_fwhm (c_ins c))) (a_stamp a0) = Ok (Some conv) /\
    (forall o j k, (o < nZ g)%nat -> (j < nY g)%nat -> (k < nX g)%nat ->
       at3 (I_wide g) o j k = Fin (hr (from_axis n (px k, py j, pz o)) (height n (px k, py j, pz o)))) /\
    (forall j, (j < nY g)%nat -> exists A mu fw,
       p_lmfit (c_prof c) (map (fun k => Fin (px k)) (seq (padX g) (n_pix_x g))) (map (fun k => at3 conv 0 j k) (seq (padX g) (n_pix_x g))) = (A, Fin mu, Fin fw) /\
       sh j = Rmax (- (i_slit (c_ins c) / 2)) (Rmin mu (i_slit (c_ins c) / 2)) / i_slit (c_ins c) * (rs * fwhm_factor)) /\
    (forall t j k, (t < length l)%nat -> (j < nY g)%nat -> (k < nX g)%nat ->
      at3 cube t j k = Fin (delt_z g * tot (nZ g) (fun o =>
        let p := (px k, py j, pz o) in
        let R := from_axis n p in let H := height n p in
        hr R H * spectrum rest ratio z (along_sight n (vr R H) p + sh j) (sr R H) (nth t l 0)))).
Proof. exact shifted_emission. Qed.
Print Assumptions C113_shift.

(** An evenly lit slit, one column wide, with the object a quarter of the slit off its centre: the line is shifted although the light is centred in the slit. *)
Theorem C113_off_centre_refuted : exists a0 b g w v, setup_model_grid (u_cfg true) u_th = Ok (g, w) /\ setup_calcs (u_cfg true) u_th = Ok a0 /\
  cube_run (u_cfg true) a0 = (b, Ok tt) /\ n_pix_x g = 1%nat /\ nX g = 1%nat /\ delt_x g = 1 /\
  (forall r h, p_int (c_prof (u_cfg true)) r h = Fin 1) /\
  (forall x ys, p_lmfit (c_prof (u_cfg true)) [Fin x] ys = (Fin 1, Fin x, Fin (1/10))) /\
  a_dvel b = Some v /\ lnth v 0 = Fin (- (1/4) * (30 * fwhm_factor)).
Proof. exact u_shift. Qed.
Print Assumptions C113_off_centre_refuted.

(** The two dispersion thresholds. *)
Theorem C114_thresholds : forall c th a0 l lam,
  setup_calcs c th = Ok a0 -> g_wave (c_gal c) = map Fin l -> (2 <= length l)%nat ->
  o_spec (c_opt c) = Wave -> lam0_primary (s_grid (a_su a0)) = Fin lam -> lam <> 0 ->
  (o_adapt (c_opt c) = true -> o_factor (c_opt c) <> 0) ->
  let pix := pixel_velocity l lam / (235 / 100) in
  s_up (a_su a0) = (if o_adapt (c_opt c) then Some (Fin pix) else None) /\
  s_floor (a_su a0) = (if o_floor (c_opt c) then Some (Fin (if o_adapt (c_opt c) then 3 / 4 * (pix / o_factor (c_opt c)) else pix)) else None).
Proof. exact sigma_thresholds. Qed.
Print Assumptions C114_thresholds.

(** When the wavelength grid is refined. *)
Theorem C114_refined : forall c th a0 a l lam f sg,
  setup_calcs c th = Ok a0 -> g_wave (c_gal c) = map Fin l -> (2 <= length l)%nat -> increasing l ->
  o_spec (c_opt c) = Wave -> lam0_primary (s_grid (a_su a0)) = Fin lam -> lam <> 0 ->
  o_adapt (c_opt c) = true -> (2 <= f)%nat -> o_factor (c_opt c) = INR f ->
  p_ndisp (c_prof c) = 1%nat -> nth_error th (p_nvel (c_prof c)) = Some (Fin sg) ->
  bindS (update_theta c) (fun _ => check_do_upsample_wave c) a0 = (a, Ok tt) ->
  (w_n (a_wv a) = (length l * f)%nat \/ w_n (a_wv a) = length l) /\
  (w_n (a_wv a) <> length l <-> Rabs sg < pixel_velocity l lam / (235 / 100)).
Proof. exact refined_iff. Qed.
Print Assumptions C114_refined.

(** The cube is that of the plain model with the dispersion replaced. *)
Theorem C114_dispersion_used : forall c pre post sg F a0 b, let th := pre ++ Fin sg :: post in
  length pre = p_nvel (c_prof c) -> (2 <= length post)%nat -> p_ndisp (c_prof c) = 1%nat ->
  setup_calcs c th = Ok a0 -> (o_floor (c_opt c) = true -> s_floor (a_su a0) = Some (Fin F)) ->
  cube_run c a0 = (b, Ok tt) ->
  let used := if o_floor (c_opt c) then (if Rltb (Rabs sg) F then F else if o_abs (c_opt c) then Rabs sg else sg)
              else if o_abs (c_opt c) then Rabs sg else sg in
  exists a0' b', setup_calcs (plain_sigma c) (pre ++ Fin used :: post) = Ok a0' /\
    cube_run (plain_sigma c) a0' = (b', Ok tt) /\
    a_cube b' = a_cube b.
Proof. exact sigma_used. Qed.
Print Assumptions C114_dispersion_used.

(** A dispersion of -10 km/s on pixels of 183 km/s: six wavelengths instead of two. *)
Example C114_refined_example : exists a0 a, setup_calcs (f_cfg true false) f_th = Ok a0 /\ lam0_primary (s_grid (a_su a0)) = Fin 13130 /\
  bindS (update_theta (f_cfg true false)) (fun _ => check_do_upsample_wave (f_cfg true false)) a0 = (a, Ok tt) /\ w_n (a_wv a) = 6%nat.
Proof. exact f_refined. Qed.

(** The floor applies. *)
Example C114_floor_example : exists a0 b F, setup_calcs (f_cfg false true) f_th = Ok a0 /\ s_floor (a_su a0) = Some (Fin F) /\ Rabs (-10) < F /\
  cube_run (f_cfg false true) a0 = (b, Ok tt).
Proof. exact f_floor. Qed.
