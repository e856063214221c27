(* Model: the 1-D aperture models of misfit/model/aper_model.py (AperModel1DDisp,
   AperModel1DDispMisalign, AperModel1DRot) and the functions of
   misfit/model/kin_functions.py they use. *)
From Coq Require Import Reals List Bool Arith ZArith.
From Verif Require Import PyFloat PyBase Arr PyNum MKernels MAper2D MProf.
Import ListNotations.
Local Open Scope R_scope.

(** What the 1-D models read from the galaxy (misfit/model/aper_model.py:154-181, 192-220,
    326-349); re_mass_arcsec and q_mass are the mass profile's size and axis ratio. *)
Record gal1 : Type := mkgal1
  { l_re : fl; l_q : fl; l_q0 : fl; l_remass : fl; l_qmass : fl; l_n : fl; l_dPA : fl }.

(** extraction_method (misfit/model/aper_model.py:26; kin_functions.py:639-651). *)
Inductive method : Type := Optimal | Boxcar | OtherMethod.

(** Slit width and PSF of the instrument (misfit/instrument.py:73-131). *)
Record ins1 : Type := mkins1 { j_slit : fl; j_psf : psf }.

(** Options of the dispersion models (misfit/model/aper_model.py:21-58). *)
Record dopt : Type := mkdopt
  { d_npix : nat; d_method : method; d_ew : option fl; d_rad : option fl; d_xc : fl; d_yc : fl;
    d_rcore : fl; d_slope : fl; d_Ie : fl }.

(** PSF_FWHM used in arithmetic or a comparison: None is a TypeError.
    E.g. misfit/model/aper_model.py:76-78 and misfit/model/kin_functions.py:623. *)
Definition need (o : option fl) : res fl :=
  match o with Some v => Ok v | None => Err TypeError end.

(** misfit/general/general_utils.py:148-152 [y_proj_major]. *)
Definition y_proj_major (re dPA : fl) : fl := fabs (fmul re (fcos (fmul dPA (Fin (PI / 180))))).

(** misfit/model/aper_model.py:75-92 and 326-343: the default extraction width. *)
Definition default_width (re q dPA fwhm : fl) : fl :=
  let rc := fmul (Fin (1/2)) (fsqrt (fadd (fsq (fmul (Fin 2) re)) (fsq fwhm))) in
  let mc := fmul (Fin (1/2)) (fsqrt (fadd (fsq (fmul (fmul (Fin 2) q) re)) (fsq fwhm))) in
  let qc := fdiv mc rc in
  let yp := y_proj_major rc dPA in
  let yp := if fltb yp (fmul rc qc) then fmul rc qc else yp in
  fmul (Fin 4) yp.

(** Attributes set by AperModel1DDispBase.setup_model_grid (misfit/model/aper_model.py:62-114). *)
Record grid1 : Type := mkgrid1
  { u_n : nat; u_nX : nat; u_nY : nat; u_padX : nat; u_padY : nat;
    u_ew : fl; u_aper : fl; u_dx : fl; u_dy : fl; u_x : list fl; u_y : list fl }.

(** misfit/model/aper_model.py:62-114 [AperModel1DDispBase.setup_model_grid].  x_proj_conv
    (80) is computed and never used. *)
Definition grid_1D (o : dopt) (ins : ins1) (re q dPA : fl) : res grid1 :=
  let n := if fleb re (Fin (1/10)) then (2 * d_npix o)%nat else d_npix o in
  let nX := (4 * n + 3)%nat in
  do ew <- match d_ew o with
           | Some w => Ok w
           | None => do f <- need (psf_fwhm (j_psf ins)); Ok (default_width re q dPA f)
           end;
  let h := Fin (INR n + 1/2) in
  let dx := fdiv (fmul (Fin (1/2)) (j_slit ins)) h in
  let dy := fdiv (fmul (Fin (1/2)) ew) h in
  let lo := Fin (- 2 * INR n - 1) in
  let hi := Fin (2 * INR n + 1) in
  let xs := map (fun x => fsub x (d_xc o)) (linspace (fmul lo dx) (fmul hi dx) nX) in
  let ys := map (fun y => fsub y (d_yc o)) (linspace (fmul lo dy) (fmul hi dy) nX) in
  Ok (mkgrid1 n nX nX (n + 1) (n + 1) ew (j_slit ins) dx dy xs ys).

(** misfit/model/aper_model.py:165-169 and 204-208: the PSF stamp on the centred grid. *)
Definition stamp_1D (ins : ins1) (g : grid1) : res stamp :=
  let cx := average (u_x g) in
  let cy := average (u_y g) in
  do k <- generate_conv_stamp (j_psf ins) (map (fun x => fsub x cx) (u_x g))
            (map (fun y => fsub y cy) (u_y g)) None;
  Ok (match k with Some a => Stamp2 a | None => NoStamp end).

(** misfit/model/kin_functions.py:599-606 and 680-691: local dispersion squared and intensity
    on the tiled grid (rows are y, columns x).  Igal fails for n = 0 only, for every sample. *)
Definition sig2_image (g : grid1) (q dPA remass rcore : fl) : arr2 fl :=
  mk2 (length (u_y g)) (length (u_x g)) (fun j i =>
    disp_square (lnth (u_x g) i) (lnth (u_y g) j) q dPA remass rcore).
(** misfit/model/kin_functions.py:604-606 and 687-691. *)
Definition I_image (g : grid1) (q dPA re n rcore : fl) : res (arr2 fl) :=
  do _ <- py_inv n;
  Ok (mk2 (length (u_y g)) (length (u_x g)) (fun j i =>
    match Igal (lnth (u_x g) i) (lnth (u_y g) j) re n q dPA rcore with
    | Ok v => v | Err _ => NaN end)).

(** Elementwise product of two arrays of one shape (misfit/model/kin_functions.py:608,696). *)
Definition mul2 (a b : arr2 fl) : arr2 fl :=
  mk2 (rows a) (cols a) (fun i j => fmul (at2 a i j) (at2 b i j)).

(** a[y0:y1,x0:x1] (misfit/model/kin_functions.py:637-641, 806-807; aper_model.py:482-483). *)
Definition sub2z (a : arr2 fl) (y0 y1 x0 x1 : Z) : arr2 fl :=
  let ly := slice_bound (rows a) y0 in
  let lx := slice_bound (cols a) x0 in
  mk2 (slice_bound (rows a) y1 - ly) (slice_bound (cols a) x1 - lx)
      (fun j i => at2 a (ly + j) (lx + i)).

(** Slicing the result of fftconvolve, which is an empty 1-D array (IndexError) when an input
    has no samples. misfit/model/kin_functions.py:624-640 and misfit/model/aper_model.py:470-490. *)
Definition sub2o (a : option (arr2 fl)) (y0 y1 x0 x1 : Z) : res (arr2 fl) :=
  match a with Some a => Ok (sub2z a y0 y1 x0 x1) | None => Err IndexError end.

(** scipy.stats.norm.pdf(x, 0, s): nan unless s is positive
    (misfit/model/kin_functions.py:653, 825; aper_model.py:493). *)
Definition norm_pdf (x s : fl) : fl :=
  if fltb (Fin 0) s
  then fdiv (fdiv (fexp (fdiv (fneg (fsq (fdiv x s))) (Fin 2))) (Fin (sqrt (2 * PI)))) s
  else NaN.

(** Row weights, misfit/model/kin_functions.py:646-656, 818-828; aper_model.py:488-498: the
    array G_y for an image of [nr] rows; its entries depend on the row only. *)
Definition row_weights (m : method) (ew dy : fl) (nr : nat) : res (list fl) :=
  match m with
  | Optimal =>
      let ps := fdiv (fdiv (fmul (Fin (1/2)) ew) dy) (Fin fwhm_factor) in
      let g := map (fun j => norm_pdf (Fin (INR j - (INR nr - 1) / 2)) ps) (seq 0 nr) in
      Ok (map (fun v => fdiv v (fsum g)) g)
  | Boxcar => Ok (repeat (Fin 1) nr)
  | OtherMethod => Err ValueError
  end.

(** misfit/model/kin_functions.py:644-667, 816-836 and aper_model.py:485-505: the weighted
    sum over the trimmed images. *)
Definition aperture_sigma (m : method) (ew dx dy : fl) (sI I : arr2 fl) : res fl :=
  do w <- row_weights m ew dy (rows I);
  let tot (a : arr2 fl) := sum2 (mk2 (rows a) (cols a) (fun j i =>
                             fmul (fmul (fmul (at2 a j i) (lnth w j)) dx) dy)) in
  Ok (fsqrt (fdiv (tot sI) (tot I))).

(** misfit/model/kin_functions.py:594-670 [sigma_aper_dispersion] (re, remass circularised). *)
Definition sigma_aper (o : dopt) (ins : ins1) (g : grid1) (st : stamp) (n re remass : fl) : res fl :=
  let s2 := sig2_image g (Fin 1) (Fin 0) remass (d_rcore o) in
  do I <- I_image g (Fin 1) (Fin 0) re n (d_rcore o);
  do f <- need (psf_fwhm (j_psf ins));
  do sIc <- PSF_convolve_flat (mul2 s2 I) f st;
  do Ic <- PSF_convolve_flat I f st;
  let a := (Z.of_nat (u_n g) + 1)%Z in
  let b := (3 * Z.of_nat (u_n g) + 2)%Z in
  do sIt <- sub2o sIc a b a b;
  do It <- sub2o Ic a b a b;
  aperture_sigma (d_method o) (u_ew g) (u_dx g) (u_dy g) sIt It.

(** misfit/model/kin_functions.py:675-842 [sigma_aper_dispersion_misalign].  The updated nX
    (789) is not read again. *)
Definition sigma_aper_misalign (o : dopt) (ins : ins1) (g : grid1) (st : stamp)
           (gal : gal1) (re remass : fl) : res fl :=
  let s2 := sig2_image g (l_q gal) (l_dPA gal) remass (d_rcore o) in
  do I <- I_image g (l_q gal) (l_dPA gal) re (l_n gal) (d_rcore o);
  do f <- need (psf_fwhm (j_psf ins));
  do sIc <- PSF_convolve_flat (mul2 s2 I) f st;
  do Ic <- PSF_convolve_flat I f st;
  do npx <- int_round (fsub (fdiv (fmul (Fin (1/2)) (u_aper g)) (u_dx g)) (Fin (1/2)));
  let dx := fdiv (fmul (Fin (1/2)) (u_aper g)) (Fin (IZR npx + 1/2)) in
  let padX := (npx + 1)%Z in
  let npy := Z.of_nat (u_n g) in
  let padY := Z.of_nat (u_padY g) in
  do sIt <- sub2o sIc padY (2 * npy + padY + 1) padX (2 * npx + padX + 1);
  do It <- sub2o Ic padY (2 * npy + padY + 1) padX (2 * npx + padX + 1);
  aperture_sigma (d_method o) (u_ew g) dx (u_dy g) sIt It.

(** misfit/model/kin_functions.py:582-587, the integrands.  [quad f a b] is the first
    component of scipy.integrate.quad(f, a, b); an exception of the integrand is passed on. *)
Definition I_integrand (re n Ie rcore r : fl) : res fl :=
  do v <- I_sersic r re n Ie rcore; Ok (fmul (fmul v (Fin (2 * PI))) r).
(** misfit/model/kin_functions.py:582-587, the second integrand. *)
Definition sigsq_I_integrand (re n Ie d rcore remass r : fl) : res fl :=
  do v <- I_sersic r re n Ie rcore;
  Ok (fmul (fmul (fmul (fsq (sigma_profile r remass d rcore)) v) (Fin (2 * PI))) r).

(** misfit/model/kin_functions.py:555-566 [sigma_e_dispersion]. *)
Definition sigma_e (quad : (fl -> res fl) -> fl -> fl -> res fl) (o : dopt) (n re remass router : fl)
  : res fl :=
  do a <- quad (sigsq_I_integrand re n (d_Ie o) (d_slope o) (d_rcore o) remass) (Fin 0) router;
  do b <- quad (I_integrand re n (d_Ie o) (d_rcore o)) (Fin 0) router;
  Ok (fsqrt (fdiv a b)).

(** sigma_ap, sigma_e and disp_aper_ratio (misfit/model/aper_model.py:169-181, 208-220). *)
Record out1 : Type := mkout1 { x_ap : fl; x_e : fl; x_ratio : fl }.

(** misfit/model/aper_model.py:156-157, 194-195. *)
Definition circ (re q : fl) : fl := fmul re (fsqrt q).

(** misfit/model/aper_model.py:147-181 [AperModel1DDisp]: construction. *)
Definition disp_1D quad (o : dopt) (ins : ins1) (gal : gal1) : res out1 :=
  let rc := circ (l_re gal) (l_q gal) in
  let mc := circ (l_remass gal) (l_qmass gal) in
  let rad := match d_rad o with Some r => r | None => rc end in
  do g <- grid_1D o ins rc (Fin 1) (Fin 0);
  do st <- stamp_1D ins g;
  do ap <- sigma_aper o ins g st (l_n gal) rc mc;
  do e <- sigma_e quad o (l_n gal) rc mc rad;
  Ok (mkout1 ap e (fdiv ap e)).

(** misfit/model/aper_model.py:185-220 [AperModel1DDispMisalign]: construction. *)
Definition disp_misalign_1D quad (o : dopt) (ins : ins1) (gal : gal1) : res out1 :=
  let rc := circ (l_re gal) (l_q gal) in
  let mc := circ (l_remass gal) (l_qmass gal) in
  let rad := match d_rad o with Some r => r | None => rc end in
  do g <- grid_1D o ins (l_re gal) (l_q gal) (l_dPA gal);
  do st <- stamp_1D ins g;
  do ap <- sigma_aper_misalign o ins g st gal rc mc;
  do e <- sigma_e quad o (l_n gal) rc mc rad;
  Ok (mkout1 ap e (fdiv ap e)).

(* ------------------------------------------------------------------ *)
(* AperModel1DRot                                                       *)

(** Options of AperModel1DRot (misfit/model/aper_model.py:22-38, 223-250); theta is
    [V/sigma or None, V_a, r_t]; [o1_shift] and [o1_eff] are do_position_wave_shift and
    do_inst_res_conv_effective; the kinematic profile is KinProfileFiducial, the intensity
    profile is any function. *)
Record ropt : Type := mkropt
  { t_npix : nat; t_method : method; t_ew : option fl; t_rad : option fl; t_xc : fl; t_yc : fl;
    t_pad : fl; t_ratio : option fl; t_va : fl; t_rt : fl; t_shift : bool; t_eff : bool;
    t_int : fl -> fl -> fl }.

(** Division of Python numbers (misfit/model/aper_model.py:355-361). *)
Definition py_div (a b : fl) : res fl := if feqb b (Fin 0) then Err ZeroDivisionError else Ok (fdiv a b).

(** Attributes set by AperModel1DRot.setup_model_grid (misfit/model/aper_model.py:323-405). *)
Record grid1r : Type := mkgrid1r
  { e_sini : fl; e_ew : fl; e_ny : nat; e_nx : nat; e_padX : nat; e_padY : nat;
    e_dx : fl; e_dy : fl; e_x : list fl; e_y : list fl;
    e_r : arr3 fl; e_yint : arr3 fl; e_zint : arr3 fl; e_I : arr3 fl }.

(** misfit/model/aper_model.py:323-405 [AperModel1DRot.setup_model_grid].  A negative pixel
    count (negative width or padding) is reported as ValueError, as np.linspace does when the
    total is negative; the redshift and rest wavelength (399-405) enter only the optional
    velocity shift. *)
Definition grid_1R (o : ropt) (ins : ins1) (gal : gal1) : res grid1r :=
  do f <- need (psf_fwhm (j_psf ins));
  let ew := match t_ew o with Some w => w | None => default_width (l_re gal) (l_q gal) (l_dPA gal) f end in
  let si := sin_i (l_q gal) (l_q0 gal) in
  let irad := fasin si in
  let ny := t_npix o in
  do dy <- py_div ew (Fin (INR ny));
  do q <- py_div (j_slit ins) dy;
  do nxz <- int_ceil q;
  do dx <- py_div (j_slit ins) (Fin (IZR nxz));
  do py <- py_div (fmul f (t_pad o)) dy;
  do px <- py_div (fmul f (t_pad o)) dx;
  do padY <- int_round py;
  do padX <- int_round px;
  if (nxz <? 0)%Z || (padX <? 0)%Z || (padY <? 0)%Z then Err ValueError else
  let nx := Z.to_nat nxz in
  let pX := Z.to_nat padX in
  let pY := Z.to_nat padY in
  let NX := (nx + 2 * pX)%nat in
  let NY := (ny + 2 * pY)%nat in
  let hx := fmul (Fin (INR nx / 2 + INR pX - 1/2)) dx in
  let hz := fmul (Fin (INR ny / 2 - 1/2)) dy in
  let hy := fmul (Fin (INR ny / 2 + INR pY - 1/2)) dy in
  let xs := map (fun x => fsub x (t_xc o)) (linspace (fneg hx) hx NX) in
  let zs := linspace (fneg hz) hz ny in
  let ys := map (fun y => fsub y (t_yc o)) (linspace (fneg hy) hy NY) in
  let pt k j i := transform_int_3d (lnth xs i) (lnth ys j) (lnth zs k) (l_dPA gal) irad in
  let mk f := mk3 ny NY NX f in
  let xi := mk (fun k j i => fst (fst (pt k j i))) in
  let yi := mk (fun k j i => snd (fst (pt k j i))) in
  let zi := mk (fun k j i => snd (pt k j i)) in
  let r := mk (fun k j i => fsqrt (fadd (fsq (at3 xi k j i)) (fsq (at3 yi k j i)))) in
  let I := mk (fun k j i => t_int o (at3 r k j i) (at3 zi k j i)) in
  Ok (mkgrid1r si ew ny nx pX pY dx dy xs ys r yi zi I).

(** misfit/model/aper_model.py:264-275: the stamp on the samples within one FWHM of the mean. *)
Definition stamp_1R (ins : ins1) (g : grid1r) : res stamp :=
  do f <- need (psf_fwhm (j_psf ins));
  let trim l := filter (fun x => fleb (fabs (fsub x (average l))) f) l in
  do k <- generate_conv_stamp (j_psf ins) (trim (e_x g)) (trim (e_y g)) None;
  Ok (match k with Some a => Stamp2 a | None => NoStamp end).

(** misfit/model/aper_model.py:298-320 [update_kinProfile]: the parameters of the velocity
    and of the dispersion profile, for the aperture radius [rad]. *)
Definition update_kinProfile (o : ropt) (rad : fl) : list fl * list fl :=
  match t_ratio o with
  | None => ([t_va o; t_rt o], [Fin 0])
  | Some a =>
      if feqb a (Fin 0) then ([Fin 0; t_rt o], [t_va o])
      else ([t_va o; t_rt o], [fdiv (vel_arctan [t_va o; t_rt o] rad (Fin 0)) a])
  end.

(** misfit/model/aper_model.py:412-458 [calculate_kin_cube] after the shift has been decided
    ([dv] is None when do_position_wave_shift is off): sigsq_I_coll and I_coll. *)
Definition kin_cube (g : grid1r) (vth dth : list fl) (dv : option (list fl)) : arr2 fl * arr2 fl :=
  let nz := dim0 (e_I g) in
  let V k j i :=
    let r := at3 (e_r g) k j i in
    let c := if feqb r (Fin 0) then Fin 0 else fdiv (at3 (e_yint g) k j i) r in
    let v := fmul (fmul (vel_arctan vth r (at3 (e_zint g) k j i)) c) (e_sini g) in
    match dv with None => v | Some l => fadd v (lnth l j) end in
  let rms2 k j i := fadd (fsq (V k j i)) (fsq (disp_const dth (at3 (e_r g) k j i) (at3 (e_zint g) k j i))) in
  let mk f := mk2 (dim1 (e_I g)) (dim2 (e_I g)) f in
  (mk (fun j i => fmul (fsumn nz (fun k => fmul (rms2 k j i) (at3 (e_I g) k j i))) (e_dy g)),
   mk (fun j i => fmul (fsumn nz (fun k => at3 (e_I g) k j i)) (e_dy g))).

(** misfit/model/aper_model.py:460-505 [convolve_kin_arr_PSF] and [trim_sum_aperture]. *)
Definition rot_aperture (o : ropt) (ins : ins1) (g : grid1r) (st : stamp) (sI I : arr2 fl) : res fl :=
  do f <- need (psf_fwhm (j_psf ins));
  do sIc <- PSF_convolve_flat sI f st;
  do Ic <- PSF_convolve_flat I f st;
  let y0 := Z.of_nat (e_padY g) in
  let y1 := Z.of_nat (e_ny g + e_padY g) in
  let x0 := Z.of_nat (e_padX g) in
  let x1 := Z.of_nat (e_nx g + e_padX g) in
  do It <- sub2o Ic y0 y1 x0 x1;
  do sIt <- sub2o sIc y0 y1 x0 x1;
  aperture_sigma (t_method o) (e_ew g) (e_dx g) (e_dy g) sIt It.

(** State of an AperModel1DRot object: the fixed grid and stamp, the cached velocity shift
    (delta_position_velspace) and the results sigma_aper, V_RMS_aper, disp_aper_ratio.
    misfit/model/aper_model.py:225-295. *)
Record rot : Type := mkrot
  { h_g : grid1r; h_st : stamp; h_rad : fl; h_dv : option (list fl); h_out : option out1 }.

(** misfit/model/aper_model.py:278-295 [calc_aper_correction].  [shift g st] is the value of
    calculate_effective_inst_res_lam_shift (435-443).  The cache test (424) reads
    self.inst_disp_wave, an attribute that is never set, when the first half is false. *)
Definition calc_aper_correction (shift : grid1r -> stamp -> res (list fl)) (o : ropt) (ins : ins1)
  : ST rot unit :=
  sdo s <- getS;
  let th := update_kinProfile o (h_rad s) in
  let set_dv d := mkrot (h_g s) (h_st s) (h_rad s) d (h_out s) in
  sdo dv <-
    (if t_shift o || t_eff o then
       match h_dv s with
       | None => sdo l <- liftR (shift (h_g s) (h_st s));
                 sdo _ <- putS (set_dv (Some l));
                 ret (if t_shift o then Some l else None)
       | Some _ => raise AttributeError
       end
     else ret None);
  let c := kin_cube (h_g s) (fst th) (snd th) dv in
  sdo ap <- liftR (rot_aperture o ins (h_g s) (h_st s) (fst c) (snd c));
  let v := vel_arctan (fst th) (h_rad s) (Fin 0) in
  let sg := disp_const (snd th) (h_rad s) (Fin 0) in
  let vrms := fsqrt (fadd (fsq v) (fsq sg)) in
  modS (fun s => mkrot (h_g s) (h_st s) (h_rad s) (h_dv s) (Some (mkout1 ap vrms (fdiv ap vrms)))).

(** misfit/model/aper_model.py:223-275: construction. *)
Definition rot_new (shift : grid1r -> stamp -> res (list fl)) (o : ropt) (ins : ins1) (gal : gal1)
  : res rot :=
  let rad := match t_rad o with Some r => r | None => l_re gal end in
  do g <- grid_1R o ins gal;
  do st <- stamp_1R ins g;
  match calc_aper_correction shift o ins (mkrot g st rad None None) with
  | (s, Ok _) => Ok s
  | (_, Err e) => Err e
  end.
