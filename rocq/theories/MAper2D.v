(* Model: misfit/model/aper_model.py AperModel2D and misfit/model/kin_model.py KinModel2D as a
   state machine, with the whole numeric pipeline from parameters to the 2-D model image. *)
From Coq Require Import Reals List Bool Arith ZArith.
From Verif Require Import PyFloat PyBase Arr PyNum MParams MKernels.
Import ListNotations.
Local Open Scope R_scope.

(** What the 2-D model reads from the galaxy object (misfit/model/aper_model.py:656-748,
    misfit/model/kin_model.py:141-157).  [g_rows] is spec2D.flux.shape[0], or spec2D.shape[0]
    when galaxy.generate_model is set. *)
Record gal : Type := mkgal
  { g_q : fl; g_q0 : fl; g_dPA : fl; g_rows : nat; g_wave : list fl; g_m0 : fl;
    g_rest : list fl; g_ratio : list fl; g_data : data2 }.

(** The instrument (misfit/instrument.py:73-131); geometry is finite.  [i_prof x y] is the PSF
    profile that generate_conv_stamp samples (misfit/instrument.py:137-186). *)
Record instr : Type := mkinstr
  { i_slit : R; i_pix : R; i_fwhm : R; i_res : fl; i_slitmask : bool; i_prof : fl -> fl -> fl }.

(** Options of AperModel2D (misfit/model/aper_model.py:517-553); integer sub-pixel count. *)
Record opts : Type := mkopts
  { o_nsub : nat; o_pad : R; o_rebin : bool; o_shift : bool; o_eff : bool; o_xc : R;
    o_spec : spec_type; o_abs : bool; o_adapt : bool; o_factor : R; o_floor : bool }.

(** The kinematic and intensity profiles (misfit/model/kin_classes.py): functions of the
    profile's parameter slice and position, and the two slice lengths; the row-wise Gaussian
    fitter lmfit_gaussian (misfit/model/kin_functions.py:528-538) is a parameter. *)
Record profs : Type := mkprofs
  { p_nvel : nat; p_ndisp : nat;
    p_vel : list fl -> fl -> fl -> fl; p_disp : list fl -> fl -> fl -> fl;
    p_int : fl -> fl -> fl;
    p_lmfit : list fl -> list fl -> fl * fl * fl }.

(** Everything AperModel2D is constructed from (misfit/model/aper_model.py:517-558). *)
Record cfg : Type := mkcfg { c_gal : gal; c_ins : instr; c_opt : opts; c_prof : profs }.

(** misfit/model/kin_functions.py:42-69 [transform_int_3d], one point. *)
Definition transform_int_3d (x y z deltPA i_rad : fl) : fl * fl * fl :=
  let th := fmul deltPA (Fin (PI / 180)) in
  let xp := fadd (fmul x (fcos th)) (fmul y (fsin th)) in
  let yp := fadd (fmul (fneg x) (fsin th)) (fmul y (fcos th)) in
  let zp := z in
  (fadd (fmul (fcos i_rad) xp) (fmul (fsin i_rad) zp),
   yp,
   fadd (fmul (fneg (fsin i_rad)) xp) (fmul (fcos i_rad) zp)).

(** misfit/model/kin_functions.py:516-522 [sin_i]. *)
Definition sin_i (q q0 : fl) : fl :=
  if fltb q q0 then Fin 1
  else fsqrt (fdiv (fsub (Fin 1) (fsq q)) (fsub (Fin 1) (fsq q0))).

(** Quantities fixed by setup_model_grid (misfit/model/aper_model.py:654-748). *)
Record grid : Type := mkgrid
  { sini : fl; n_pix_y_whole : nat; n_pix_y : nat; n_pix_x : nat; n_pix_z : nat;
    delt_x : R; delt_y : R; delt_z : R; padX : nat; padY : nat; nX : nat; nY : nat; nZ : nat;
    x_arr : list fl; y_arr : list fl; z_arr : list fl; gz : fl; m0_fit : fl;
    lam0_primary : fl; r_cube : arr3 fl; yint : arr3 fl; zint : arr3 fl; I_wide : arr3 fl }.

(** The wavelength-dependent attributes that are replaced and restored together:
    wave_arr, nWave, delt_wave, I_matrix, wave_ref_matrix.
    misfit/model/aper_model.py:577-579, 741-764, 889-894. *)
Record wv : Type := mkwv
  { w_arr : list fl; w_n : nat; w_d : fl; w_I4 : arr4 fl; w_ref : arr4 fl }.

(** misfit/model/aper_model.py:746-748 and 762-764: np.tile of the intensity cube and
    np.repeat of the wavelengths, for the current wavelength array. *)
Definition tile_I (I : arr3 fl) (nw : nat) : arr4 fl :=
  mk4 nw (dim0 I) (dim1 I) (dim2 I) (fun _ m j k => at3 I m j k).
(** misfit/model/aper_model.py:747-748, 763-764. *)
Definition repeat_wave (wave : list fl) (g0 g1 g2 : nat) : arr4 fl :=
  mk4 (length wave) g0 g1 g2 (fun w _ _ _ => lnth wave w).

(** int(np.round(x)) of a non-negative value (misfit/model/aper_model.py:690-691). *)
Definition nat_of_round (x : R) : nat := Z.to_nat (Rround x).
(** int(np.ceil(x)) of a non-negative value (misfit/model/aper_model.py:674). *)
Definition nat_of_ceil (x : R) : nat := Z.to_nat (Rceil x).

(** Slit-direction grid numbers, misfit/model/aper_model.py:674-680: number of samples. *)
Definition slit_npix (ins : instr) (o : opts) (n_whole : nat) : nat :=
  let n_y := (n_whole * o_nsub o)%nat in
  let dy := i_pix ins / INR (o_nsub o) in
  let n0 := nat_of_ceil (i_slit ins / dy) in
  if Reqb (INR n_y * dy) (i_slit ins) then n_y else n0.

(** misfit/model/aper_model.py:654-748 [setup_model_grid]: the grid and the initial
    wavelength attributes.  nSubpixels = 0 and an empty slit are divisions of Python floats by
    zero.  theta[-1], theta[-2] raise IndexError on short vectors. *)
Definition setup_model_grid (c : cfg) (theta : list fl) : res (grid * wv) :=
  let g := c_gal c in let ins := c_ins c in let o := c_opt c in
  let si := sin_i (g_q g) (g_q0 g) in
  let i_rad := fasin si in
  let nw := g_rows g in
  let ns := INR (o_nsub o) in
  if Nat.eqb (o_nsub o) 0 then Err ZeroDivisionError else
  let n_y := (nw * o_nsub o)%nat in
  let dy := i_pix ins / ns in
  let n_x := slit_npix ins o nw in
  if Nat.eqb n_x 0 then Err ZeroDivisionError else
  let dx := i_slit ins / INR n_x in
  let n_z := n_y in
  let dz := dy in
  let pY := nat_of_round (i_fwhm ins * o_pad o / dy) in
  let pX := nat_of_round (i_fwhm ins * o_pad o / dx) in
  let NX := (n_x + 2 * pX)%nat in
  let NY := (n_y + 2 * pY)%nat in
  let NZ := n_z in
  let hx := (INR n_x / 2 + INR pX - 1/2) * dx in
  let xs := map (fun x => fsub x (Fin (o_xc o))) (linspace (Fin (- hx)) (Fin hx) NX) in
  let hz := (INR n_z / 2 - 1/2) * dz in
  let zs := linspace (Fin (- hz)) (Fin hz) NZ in
  do z <- getz theta (-1);
  do sh <- getz theta (-2);
  let m0f := fadd (g_m0 g) sh in
  let ys0 := linspace (Fin (- (INR pY - 1/2) * dy))
                      (Fin (((INR nw - 1) * ns + INR pY - 1/2) * dy)) NY in
  let ys := map (fun y => fsub y (fmul (fmul m0f (Fin ns)) (Fin dy))) ys0 in
  do lam0 <- (match o_spec o with
              | Wave => do l <- getn (g_rest g) 0; Ok (fmul l (fadd (Fin 1) z))
              | _ => Ok (Fin 1)
              end);
  let pt m j k := transform_int_3d (lnth xs k) (lnth ys j) (lnth zs m) (g_dPA g) i_rad in
  let xi := mk3 NZ NY NX (fun m j k => fst (fst (pt m j k))) in
  let yi := mk3 NZ NY NX (fun m j k => snd (fst (pt m j k))) in
  let zi := mk3 NZ NY NX (fun m j k => snd (pt m j k)) in
  let rr := mk3 NZ NY NX (fun m j k => fsqrt (fadd (fsq (at3 xi m j k)) (fsq (at3 yi m j k)))) in
  let II := mk3 NZ NY NX (fun m j k => p_int (c_prof c) (at3 rr m j k) (at3 zi m j k)) in
  let wave := g_wave g in
  Ok (mkgrid si nw n_y n_x n_z dx dy dz pX pY NX NY NZ xs ys zs z m0f lam0 rr yi zi II,
      mkwv wave (length wave) (average (diffs wave)) (tile_I II (length wave))
           (repeat_wave wave NZ NY NX)).

(** AperModel2D attributes fixed by setup_calcs (misfit/model/aper_model.py:564-598). *)
Record setup : Type := mksetup
  { s_grid : grid; s_floor : option fl; s_up : option fl; s_real : option wv }.

(** The object: part that changes from evaluation to evaluation.  [a_vel], [a_disp] are the
    parameter slices held by the shared kinProfile; [a_stamp] is instrument.PSF._conv_stamp.
    misfit/model/aper_model.py:526-562. *)
Record aper : Type := mkaper
  { a_su : setup; a_theta : list fl; a_vel : list fl; a_disp : list fl; a_wv : wv;
    a_dvel : option (list fl); a_idw : idw; a_cube : option (arr3 fl);
    a_conv : option (arr3 fl); a_out : option (arr2 fl); a_model : option (arr2 fl);
    a_stamp : stamp }.

(** self.theta = theta (misfit/model/aper_model.py:560-562 [setAttr], 628-629). *)
Definition set_theta t a := mkaper (a_su a) t (a_vel a) (a_disp a) (a_wv a) (a_dvel a) (a_idw a) (a_cube a) (a_conv a) (a_out a) (a_model a) (a_stamp a).
(** rebinding the profiles' theta arrays (misfit/model/kin_classes.py:125-137; misfit/model/aper_model.py:785-789). *)
Definition set_prof v d a := mkaper (a_su a) (a_theta a) v d (a_wv a) (a_dvel a) (a_idw a) (a_cube a) (a_conv a) (a_out a) (a_model a) (a_stamp a).
(** assignments to wave_arr, nWave, delt_wave, I_matrix, wave_ref_matrix (misfit/model/aper_model.py:750-765, 886-894). *)
Definition set_wv w a := mkaper (a_su a) (a_theta a) (a_vel a) (a_disp a) w (a_dvel a) (a_idw a) (a_cube a) (a_conv a) (a_out a) (a_model a) (a_stamp a).
(** assignments to delta_position_velspace, inst_disp_wave (misfit/model/aper_model.py:795-814, 865-883). *)
Definition set_dvel v i a := mkaper (a_su a) (a_theta a) (a_vel a) (a_disp a) (a_wv a) v i (a_cube a) (a_conv a) (a_out a) (a_model a) (a_stamp a).
(** self.spectra_cube = ... (misfit/model/aper_model.py:824-830). *)
Definition set_cube x a := mkaper (a_su a) (a_theta a) (a_vel a) (a_disp a) (a_wv a) (a_dvel a) (a_idw a) x (a_conv a) (a_out a) (a_model a) (a_stamp a).
(** self.spectra_cube_conv = ... (misfit/model/aper_model.py:838, 852-853). *)
Definition set_conv x a := mkaper (a_su a) (a_theta a) (a_vel a) (a_disp a) (a_wv a) (a_dvel a) (a_idw a) (a_cube a) x (a_out a) (a_model a) (a_stamp a).
(** self.model_out = ... (misfit/model/aper_model.py:856-861, 875-883, 887). *)
Definition set_out x a := mkaper (a_su a) (a_theta a) (a_vel a) (a_disp a) (a_wv a) (a_dvel a) (a_idw a) (a_cube a) (a_conv a) x (a_model a) (a_stamp a).
(** self.model = self.model_out.T (misfit/model/aper_model.py:651). *)
Definition set_model x a := mkaper (a_su a) (a_theta a) (a_vel a) (a_disp a) (a_wv a) (a_dvel a) (a_idw a) (a_cube a) (a_conv a) (a_out a) x (a_stamp a).

(** The PSF stamp, misfit/model/aper_model.py:600-619: sampled at the grid points within one
    FWHM of the grid centre (the points themselves are not re-centred), with a leading axis. *)
Definition near (fwhm : R) (l : list fl) : list fl :=
  filter (fun x => fleb (fabs (fsub x (average l))) (Fin fwhm)) l.
(** misfit/model/aper_model.py:600-619, the stamp itself. *)
Definition make_stamp (ins : instr) (g : grid) : stamp :=
  let xs := near (i_fwhm ins) (x_arr g) in
  let ys := near (i_fwhm ins) (y_arr g) in
  Stamp3 (mk3 1 (length ys) (length xs) (fun _ j i => i_prof ins (lnth xs i) (lnth ys j))).

(** misfit/model/aper_model.py:564-598 [setup_calcs], the dispersion thresholds:
    (sigma_floor_value, sigma_upsample_value).  235/100 is the code's 2.35. *)
Definition thresholds (o : opts) (dw lam0 : fl) : option fl * option fl :=
  let one d := match o_spec o with
               | Wave => Some (fdiv (fmul (fdiv d lam0) (Fin c_kms)) (Fin (235/100)))
               | Velocity => Some (fdiv d (Fin (235/100)))
               | OtherSpec => None
               end in
  let f1 := if o_floor o && negb (o_adapt o) then one dw else None in
  if o_adapt o then
    let up := one dw in
    let fine := fdiv dw (Fin (o_factor o)) in
    let f2 := if o_floor o then
                match o_spec o with
                | Wave => Some (fdiv (fmul (fmul (Fin (3/4)) (fdiv fine lam0)) (Fin c_kms)) (Fin (235/100)))
                | Velocity => Some (fdiv (fmul (Fin (3/4)) fine) (Fin (235/100)))
                | OtherSpec => None
                end
              else f1 in
    (f2, up)
  else (f1, None).

(** misfit/model/aper_model.py:564-620 [setup_calcs] on a fresh object with parameters
    [theta]; the profile slices are set later, by do_model_calcs. *)
Definition setup_calcs (c : cfg) (theta : list fl) : res aper :=
  do gw <- setup_model_grid c theta;
  let (g, w) := (gw : grid * wv) in
  let o := c_opt c in
  let th := thresholds o (w_d w) (lam0_primary g) in
  Ok (mkaper (mksetup g (fst th) (snd th) (if o_adapt o then Some w else None))
        theta [] [] w None IdwNone None None None None (make_stamp (c_ins c) g)).

(** misfit/model/aper_model.py:751, 788, if np.abs(theta) < value: a one-element array is its element, an empty one is False, a
    longer one has no truth value; comparison with None is a TypeError. *)
Definition abs_lt_truth (th : list fl) (v : option fl) : res bool :=
  match v with
  | None => Err TypeError
  | Some v =>
      match th with
      | [] => Ok false
      | [x] => Ok (fltb (fabs x) v)
      | _ => Err ValueError
      end
  end.

(** misfit/model/kin_classes.py:125-137 [KinProfile.update_theta]. *)
Definition update_theta (c : cfg) : ST aper unit :=
  modS (fun a =>
    let nv := p_nvel (c_prof c) in let nd := p_ndisp (c_prof c) in
    set_prof (firstn nv (a_theta a)) (firstn nd (skipn nv (a_theta a))) a).

(** misfit/model/aper_model.py:750-765 [check_do_upsample_wave]. *)
Definition check_do_upsample_wave (c : cfg) : ST aper unit :=
  sdo a <- getS;
  sdo b <- liftR (abs_lt_truth (a_disp a) (s_up (a_su a)));
  if b then
    match s_real (a_su a) with
    | None => raise AttributeError
    | Some re =>
        let dr := w_d re in
        let d := fdiv dr (Fin (o_factor (c_opt c))) in
        let w := a_wv a in
        sdo u0 <- putS (set_wv (mkwv (w_arr w) (w_n w) d (w_I4 w) (w_ref w)) a);
        sdo mn <- liftR (np_min (w_arr w));
        sdo mx <- liftR (np_max (w_arr w));
        let half := fmul (Fin (1/2)) (fsub dr d) in
        let nwmin := fsub mn half in
        let nwmax := fadd mx half in
        sdo num <- liftR (int_round (fadd (fdiv (fsub nwmax nwmin) d) (Fin 1)));
        if (num <? 0)%Z then raise ValueError
        else
          let wave := linspace nwmin nwmax (Z.to_nat num) in
          let g := s_grid (a_su a) in
          putS (set_wv (mkwv wave (length wave) d (tile_I (I_wide g) (length wave))
                             (repeat_wave wave (nZ g) (nY g) (nX g))) a)
    end
  else ret tt.

(** np.argmax (used at misfit/model/kin_functions.py:308): first nan if any, else first largest. *)
Fixpoint argmax_ (n : nat) (f : nat -> fl) : nat :=
  match n with
  | O => O
  | S k => let m := argmax_ k f in
           if isnan (f m) then m
           else if isnan (f (S k)) then S k
           else if fltb (f m) (f (S k)) then S k else m
  end.

(** misfit/model/kin_functions.py:260-356 [check_slit_illum]: (light offset, effective
    width).  [xarr] is the slit grid, [wh] the indices inside the slit. *)
Definition check_slit_illum (xarr : list fl) (wh : list nat) (A mu fwhm slit : fl)
  : res (fl * fl) :=
  let half := fmul (Fin (1/2)) slit in
  let nhalf := fmul (Fin (-1/2)) slit in
  let x_l0 := fsub mu (fmul (Fin (1/2)) fwhm) in
  let x_u0 := fadd mu (fmul (Fin (1/2)) fwhm) in
  let m1 := fltb x_l0 nhalf in
  let x_l1 := if m1 then nhalf else x_l0 in
  let m2 := fgtb x_u0 half in
  let x_u1 := if m2 then half else x_u0 in
  let wrong := fgtb x_l1 x_u1 in
  let m3 := wrong && fltb x_u1 nhalf in
  let x_u := if m3 then nhalf else x_u1 in
  let m4 := wrong && fgtb x_l1 half in
  let x_l := if m4 then half else x_l1 in
  if m1 || m2 || m3 || m4 then
    let w := fsub x_u x_l in
    do width <- (if feqb w (Fin 0) then
        do xs <- take xarr wh;
        let vals := map (fun x => fmul A (gaus_from_fwhm x fwhm mu)) xs in
        do valmax <- np_max vals;
        let dist := map (fun v => fabs (fsub v (fmul (Fin (1/2)) valmax))) vals in
        do dmin <- np_min dist;
        do h <- getn (where_ (fun v => feqb v dmin) dist) 0;
        let am := argmax_ (length vals - 1) (lnth vals) in
        Ok (fsub (lnth xs am) (lnth xs h))
      else Ok w);
    let d1 := if fgtb mu half then half else mu in
    let d2 := if fltb d1 nhalf then nhalf else d1 in
    Ok (d2, width)
  else Ok (mu, fwhm).

(** A Python loop collecting results (misfit/model/kin_functions.py:224-240), stopping at the
    first exception. *)
Fixpoint mapR {A B} (f : A -> res B) (l : list A) : res (list B) :=
  match l with
  | [] => Ok []
  | a :: l => do b <- f a; do r <- mapR f l; Ok (b :: r)
  end.

(** misfit/model/kin_functions.py:170-257 [calculate_effective_inst_res_lam_shift] with the
    arguments passed at misfit/model/aper_model.py:794-814: (velocity offset per row, width
    per row).  The multiplication by the slit mask only affects columns that are not read. *)
Definition eff_inst_res (c : cfg) (g : grid) (st : stamp) : res (list fl * list fl) :=
  let ins := c_ins c in
  let R_ := fdiv (Fin c_kms) (fmul (i_res ins) (Fin fwhm_factor)) in
  let slit := Fin (i_slit ins) in
  let I2 := mk3 1 (nY g) (nX g) (fun _ j k => fsumn (nZ g) (fun m => at3 (I_wide g) m j k)) in
  do cv <- PSF_convolve I2 (Fin (i_fwhm ins)) st;
  match cv with
  | None => Err IndexError
  | Some conv =>
      let wh := seq (padX g) (n_pix_x g) in
      do rows <- mapR (fun k =>
        do xs <- take (x_arr g) wh;
        let '(A, mu, fw) := p_lmfit (c_prof c) xs (map (fun i => at3 conv 0 k i) wh) in
        check_slit_illum (x_arr g) wh A mu fw slit) (seq 0 (nY g));
      let Rw := fmul R_ slit in
      let disp := map (fun r => fdiv (fdiv (lam0_primary g) (fdiv Rw (snd r))) (Fin fwhm_factor)) rows in
      let del_lam := fdiv (lam0_primary g) (fdiv Rw slit) in
      let scale := fdiv del_lam slit in
      let vel := map (fun r => fmul (fdiv (fmul (fst r) scale) (lam0_primary g)) (Fin c_kms)) rows in
      Ok (vel, disp)
  end.

(** misfit/model/aper_model.py:775-779: the line-of-sight velocity cube. *)
Definition V_cube (c : cfg) (a : aper) : arr3 fl :=
  let g := s_grid (a_su a) in
  mk3 (nZ g) (nY g) (nX g) (fun m j k =>
    let r := at3 (r_cube g) m j k in
    let cosphi := if feqb r (Fin 0) then Fin 0 else fdiv (at3 (yint g) m j k) r in
    fmul (fmul (p_vel (c_prof c) (a_vel a) r (at3 (zint g) m j k)) cosphi) (sini g)).

(** misfit/model/aper_model.py:785-789, inside calculate_spectral_cube: absolute value and
    floor of the dispersion parameter. *)
Definition sigma_options (c : cfg) : ST aper unit :=
  sdo u1 <- (if o_abs (c_opt c)
             then modS (fun a => set_prof (a_vel a) (map fabs (a_disp a)) a) else ret tt);
  if o_floor (c_opt c) then
    sdo a <- getS;
    sdo b <- liftR (abs_lt_truth (a_disp a) (s_floor (a_su a)));
    match b, s_floor (a_su a) with
    | true, Some v => putS (set_prof (a_vel a) [v] a)
    | _, _ => ret tt
    end
  else ret tt.

(** misfit/model/aper_model.py:794-814, inside calculate_spectral_cube: offsets and widths are
    computed only while one of the two attributes is None. *)
Definition shift_cache (c : cfg) : ST aper unit :=
  if o_shift (c_opt c) || o_eff (c_opt c) then
    sdo a <- getS;
    match a_dvel a, a_idw a with
    | Some _, IdwFloat _ | Some _, IdwArr _ => ret tt
    | _, _ =>
        sdo r <- liftR (eff_inst_res c (s_grid (a_su a)) (a_stamp a));
        putS (set_dvel (Some (fst r)) (IdwArr (snd r)) a)
    end
  else ret tt.

(** misfit/model/aper_model.py:818-821: V_wide[:,i,:] += delta_position_velspace[i]. *)
Definition shift_V (c : cfg) (a : aper) (V : arr3 fl) : res (arr3 fl) :=
  let g := s_grid (a_su a) in
  if o_shift (c_opt c) then
    match a_dvel a with
    | None => Err TypeError
    | Some dv =>
        if Nat.ltb (length dv) (nY g) then Err IndexError
        else Ok (mk3 (nZ g) (nY g) (nX g) (fun m j k => fadd (at3 V m j k) (lnth dv j)))
    end
  else Ok V.

(** misfit/model/aper_model.py:768-830 [calculate_spectral_cube]. *)
Definition calculate_spectral_cube (c : cfg) : ST aper unit :=
  sdo a <- getS;
  let g := s_grid (a_su a) in
  let V := V_cube c a in
  sdo u1 <- sigma_options c;
  sdo a2 <- getS;
  let S_ := mk3 (nZ g) (nY g) (nX g) (fun m j k =>
              p_disp (c_prof c) (a_disp a2) (at3 (r_cube g) m j k) (at3 (zint g) m j k)) in
  sdo u2 <- shift_cache c;
  sdo a3 <- getS;
  sdo V2 <- liftR (shift_V c a3 V);
  let w := a_wv a3 in
  sdo cube <- liftR (add_sigma_collapse_z (I_wide g) V2 S_ (w_arr w) (gz g)
      (g_rest (c_gal c)) (g_ratio (c_gal c)) (w_n w) (nZ g) (nY g) (nX g) (Fin (delt_z g))
      (w_I4 w) (w_ref w) (o_spec (c_opt c)));
  modS (set_cube (Some cube)).

(** misfit/model/aper_model.py:836-838 [convolve_spectral_cube_PSF].  A [None] cube stands for
    the empty 1-D array. *)
Definition convolve_spectral_cube_PSF (c : cfg) : ST aper unit :=
  sdo a <- getS;
  match a_cube a with
  | None => raise AttributeError
  | Some cube =>
      sdo r <- liftR (PSF_convolve cube (Fin (i_fwhm (c_ins c))) (a_stamp a));
      putS (set_conv r a)
  end.

(** numpy slice (misfit/model/aper_model.py:849-853) a:b of an axis of length n: first index and length (non-negative bounds). *)
Definition cut (n a b : nat) : nat * nat := (Nat.min a n, Nat.min b n - Nat.min a n)%nat.

(** misfit/model/aper_model.py:842-861 [trim_downsample_spectral_cube]. *)
Definition trim_downsample_spectral_cube (c : cfg) : ST aper unit :=
  sdo a <- getS;
  if i_slitmask (c_ins c) then raise ValueError else
  let g := s_grid (a_su a) in
  match a_conv a with
  | None => raise IndexError
  | Some cv =>
      let (y0, ny) := cut (dim1 cv) (padY g) (n_pix_y g + padY g) in
      let (x0, nx) := cut (dim2 cv) (padX g) (n_pix_x g + padX g) in
      let t := mk3 (dim0 cv) ny nx (fun w j k => at3 cv w (y0 + j) (x0 + k)) in
      let out := mk2 (dim0 cv) ny (fun w j =>
                   fmul (fsumn nx (fun k => at3 t w j k)) (Fin (delt_x g))) in
      sdo u <- putS (set_out (Some out) (set_conv (Some t) a));
      if o_rebin (c_opt c) then
        sdo b <- liftR (rebin2 out (w_n (a_wv a)) (n_pix_y_whole g));
        modS (set_out (Some b))
      else ret tt
  end.

(** misfit/model/aper_model.py:865-883 [convolve_instrument_resolution]. *)
Definition convolve_instrument_resolution (c : cfg) : ST aper unit :=
  sdo a <- getS;
  let o := c_opt c in
  let g := s_grid (a_su a) in
  let lamw := fmul (fdiv (i_res (c_ins c)) (Fin c_kms)) (lam0_primary g) in
  let run a pos :=
    if pos : bool then
      match a_out a with
      | None => raise AttributeError
      | Some m =>
          sdo r <- liftR (inst_convol_complete m (w_arr (a_wv a)) (a_idw a));
          modS (set_out (Some r))
      end
    else ret tt in
  if o_shift o then
    match o_spec o with
    | Velocity => raise ValueError
    | _ =>
        sdo u <- (if negb (o_eff o) then modS (fun a => set_dvel (a_dvel a) (IdwFloat lamw) a)
                  else ret tt);
        sdo a1 <- getS;
        sdo mn <- liftR (match a_idw a1 with
                         | IdwNone => Err AttributeError
                         | IdwFloat x => Ok x
                         | IdwArr l => np_min l
                         end);
        run a1 (fgtb mn (Fin 0))
    end
  else
    let w := match o_spec o with Wave => lamw | _ => i_res (c_ins c) end in
    sdo u <- modS (fun a => set_dvel (a_dvel a) (IdwFloat w) a);
    sdo a1 <- getS;
    run a1 (fgtb w (Fin 0)).

(** misfit/model/aper_model.py:886-894 [downsample_to_real_wave]. *)
Definition downsample_to_real_wave (c : cfg) : ST aper unit :=
  sdo a <- getS;
  match s_real (a_su a), a_out a with
  | Some re, Some m =>
      sdo b <- liftR (rebin2 m (w_n re) (n_pix_y_whole (s_grid (a_su a))));
      putS (set_wv (mkwv (w_arr re) (w_n re) (w_d re) (w_I4 re) (w_ref re)) (set_out (Some b) a))
  | _, _ => raise AttributeError
  end.

(** ndarray.T (misfit/model/aper_model.py:651). *)
Definition transpose {A} (a : arr2 A) : arr2 A := mk2 (cols a) (rows a) (fun i j => at2 a j i).

(** misfit/model/aper_model.py:633-651 [do_model_calcs]. *)
Definition do_model_calcs (c : cfg) : ST aper unit :=
  sdo u0 <- update_theta c;
  sdo u1 <- (if o_adapt (c_opt c) then check_do_upsample_wave c else ret tt);
  sdo u2 <- calculate_spectral_cube c;
  sdo u3 <- convolve_spectral_cube_PSF c;
  sdo u4 <- trim_downsample_spectral_cube c;
  sdo u5 <- convolve_instrument_resolution c;
  sdo u6 <- (if o_adapt (c_opt c) then downsample_to_real_wave c else ret tt);
  sdo a <- getS;
  match a_out a with
  | None => raise AttributeError
  | Some m => putS (set_model (Some (transpose m)) a)
  end.

(** misfit/model/aper_model.py:628-631 [AperModel2D.update_model] with theta. *)
Definition aper_update (c : cfg) (theta : list fl) : ST aper unit :=
  sdo u <- modS (set_theta theta);
  do_model_calcs c.

(** AperModel2D(...) (misfit/model/aper_model.py:517-558, 622-626): setup, then a first
    evaluation.  Also returns what instrument.PSF._conv_stamp holds afterwards, since the
    instrument outlives a failed construction. *)
Definition aper_new (c : cfg) (theta : list fl) (st0 : stamp) : stamp * res aper :=
  match setup_calcs c theta with
  | Err e => (st0, Err e)
  | Ok a0 =>
      match do_model_calcs c a0 with
      | (a, Ok _) => (a_stamp a, Ok a)
      | (a, Err e) => (a_stamp a, Err e)
      end
  end.

(** KinModel2D (misfit/model/kin_model.py:58-208).  [k_aper]'s stamp is the instrument's;
    [k_stamp] is the instrument's stamp while there is no aperture model. *)
Record kinmodel : Type := mkkm
  { k_theta : list fl; k_vary : list bool; k_noscale : bool;
    k_aper : option aper; k_model : option (arr2 fl); k_stamp : stamp }.

(** misfit/model/kin_model.py:188-191 and 204-208: copy the image and scale it. *)
Definition store_model (c : cfg) (k : kinmodel) (a : aper) : kinmodel * res unit :=
  match a_model a with
  | None => (k, Err AttributeError)
  | Some m =>
      if k_noscale k then (mkkm (k_theta k) (k_vary k) (k_noscale k) (k_aper k) (Some m) (k_stamp k), Ok tt)
      else
        match scale_model (g_data (c_gal c)) m with
        | Ok m' => (mkkm (k_theta k) (k_vary k) (k_noscale k) (k_aper k) (Some m') (k_stamp k), Ok tt)
        | Err e => (mkkm (k_theta k) (k_vary k) (k_noscale k) (k_aper k) (Some m) (k_stamp k), Err e)
        end
  end.

(** misfit/model/kin_model.py:203-208: run the aperture model's update and store the result. *)
Definition km_update_aper (c : cfg) (k : kinmodel) : kinmodel * res unit :=
  match k_aper k with
  | None => (k, Err AttributeError)
  | Some a =>
      let (a', r) := aper_update c (k_theta k) a in
      let k' := mkkm (k_theta k) (k_vary k) (k_noscale k) (Some a') (k_model k) (a_stamp a') in
      match r with
      | Ok _ => store_model c k' a'
      | Err e => (k', Err e)
      end
  end.

(** misfit/model/kin_model.py:193-208 [KinModel2D.update_model]. *)
Definition km_update (c : cfg) (tf : list fl) (k : kinmodel) : kinmodel * res unit :=
  if negb (Nat.eqb (length tf) (n_free_param (k_vary k))) then (k, Err ValueError)
  else
    let (th, r) := update_parameters (k_theta k) (k_vary k) tf in
    let k1 := mkkm th (k_vary k) (k_noscale k) (k_aper k) (k_model k) (k_stamp k) in
    match r with
    | Err e => (k1, Err e)
    | Ok _ => km_update_aper c k1
    end.

(** misfit/model/kin_model.py:160-191 [KinModel2D.make_model]; update_profiles only rebinds
    kinProfile slices that do_model_calcs sets again before they are read. *)
Definition km_make (c : cfg) (tf : list fl) (k : kinmodel) : kinmodel * res unit :=
  if negb (Nat.eqb (length tf) (n_free_param (k_vary k))) then (k, Err ValueError)
  else
    let (th, r) := update_parameters (k_theta k) (k_vary k) tf in
    let k1 := mkkm th (k_vary k) (k_noscale k) (k_aper k) (k_model k) (k_stamp k) in
    match r with
    | Err e => (k1, Err e)
    | Ok _ =>
        match k_aper k1 with
        | Some _ => km_update_aper c k1
        | None =>
            let (st, ra) := aper_new c th (k_stamp k1) in
            match ra with
            | Err e => (mkkm th (k_vary k) (k_noscale k) None (k_model k) st, Err e)
            | Ok a => store_model c (mkkm th (k_vary k) (k_noscale k) (Some a) (k_model k) st) a
            end
        end
    end.

(** misfit/fit/fit_core.py:150-166 [lnlike]: update the model, then its log-likelihood. *)
Definition km_llike (c : cfg) (k : kinmodel) (tf : list fl) : kinmodel * res fl :=
  match km_update c tf k with
  | (k', Err e) => (k', Err e)
  | (k', Ok _) =>
      match k_model k' with
      | None => (k', Err TypeError)
      | Some m => (k', Ok (model_llike (g_data (c_gal c)) m))
      end
  end.
