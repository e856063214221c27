(* Model: the three-dimensional (integral-field) entry points of misfit/model/kin_model.py. *)
From Coq Require Import Reals List Bool Arith ZArith.
From Verif Require Import PyFloat PyBase Arr PyNum MParams MKernels MAper2D.
Import ListNotations.
Local Open Scope R_scope.

(** misfit/model/kin_model.py:226-250: the configuration make_3D_int_model builds its aperture
    model from: slit width set to the slit length, adaptive_upsample_factor not passed on (the
    default 3 of misfit/model/aper_model.py:552 applies). *)
Definition cfg3 (c : cfg) : cfg :=
  let i := c_ins c in let o := c_opt c in
  mkcfg (c_gal c)
    (mkinstr (INR (g_rows (c_gal c)) * i_pix i) (i_pix i) (i_fwhm i) (i_res i) (i_slitmask i) (i_prof i))
    (mkopts (o_nsub o) (o_pad o) true (o_shift o) (o_eff o) 0 (o_spec o) (o_abs o) (o_adapt o) 3 (o_floor o))
    (c_prof c).

(** misfit/model/kin_model.py:259-267: the rebinning of the convolved cube. *)
Definition cube3 (c : cfg) (a : aper) : res (arr3 fl) :=
  let n := g_rows (c_gal c) in
  let g := s_grid (a_su a) in
  match a_conv a with
  | None => Err AttributeError
  | Some cv => rebin3 cv (length (g_wave (c_gal c))) (n + 2 * padY g) (n + 2 * padX g)
  end.

(** misfit/model/kin_model.py:212-272 [KinModel2D.make_3D_int_model] with debug off: the new
    object state and model_cube.  When an aperture model exists already the local variables
    n_pix_y_whole, n_pix_x_whole are read without having been assigned (line 267). *)
Definition km_make3D (c : cfg) (tf : list fl) (k : kinmodel) : kinmodel * res (arr3 fl) :=
  if negb (Nat.eqb (length tf) (n_free_param (k_vary k))) then (k, Err ValueError)
  else
    let (th, r) := update_parameters (k_theta k) (k_vary k) tf in
    match r with
    | Err e => (mkkm th (k_vary k) (k_noscale k) (k_aper k) (k_model k) (k_stamp k), Err e)
    | Ok _ =>
        match k_aper k with
        | Some a =>
            let (a', ra) := aper_update (cfg3 c) th a in
            (mkkm th (k_vary k) (k_noscale k) (Some a') (k_model k) (a_stamp a'),
             match ra with Err e => Err e | Ok _ => Err UnboundLocalError end)
        | None =>
            let (st, ra) := aper_new (cfg3 c) th (k_stamp k) in
            match ra with
            | Err e => (mkkm th (k_vary k) (k_noscale k) None (k_model k) st, Err e)
            | Ok a => (mkkm th (k_vary k) (k_noscale k) (Some a) (k_model k) st, cube3 c a)
            end
        end
    end.

(** misfit/model/kin_model.py:274-290 [KinModel2D.update_3D_int_model]: model_cube is a copy of
    the cube before convolution with the PSF, at the working resolution. *)
Definition km_update3D (c : cfg) (tf : list fl) (k : kinmodel) : kinmodel * res (arr3 fl) :=
  if negb (Nat.eqb (length tf) (n_free_param (k_vary k))) then (k, Err ValueError)
  else
    let (th, r) := update_parameters (k_theta k) (k_vary k) tf in
    match r with
    | Err e => (mkkm th (k_vary k) (k_noscale k) (k_aper k) (k_model k) (k_stamp k), Err e)
    | Ok _ =>
        match k_aper k with
        | None => (mkkm th (k_vary k) (k_noscale k) None (k_model k) (k_stamp k), Err AttributeError)
        | Some a =>
            let (a', ra) := aper_update (cfg3 c) th a in
            (mkkm th (k_vary k) (k_noscale k) (Some a') (k_model k) (a_stamp a'),
             match ra with
             | Err e => Err e
             | Ok _ => match a_cube a' with None => Err AttributeError | Some cu => Ok cu end
             end)
        end
    end.
