(* Model of misfit/mock/generate_basic.py: a simulated slit observation. *)
From Coq Require Import Reals List Bool Arith ZArith.
From Verif Require Import PyFloat PyBase Arr PyNum MParams MKernels MAper2D MGeom.
Import ListNotations.
Local Open Scope R_scope.

(** Arguments of generate_mock_slit_obs (misfit/mock/generate_basic.py:18-45).  [ma_rest] and [ma_ratio] are
    what initialize_lineset assigns (line 71-72); [ma_prof] are the profiles after update_values and with
    galaxy.n, re_arcsec, q0 (line 79); [ma_psf] is the PSF profile; pixel scale, slit width and PSF width
    are finite.  Names and labels are left out. *)
Record mockargs : Type := mkma
  { ma_z : fl; ma_va : fl; ma_rt : fl; ma_sigma0 : fl; ma_yshift : fl;
    ma_q : fl; ma_q0 : fl; ma_dPA : fl; ma_dither : bool; ma_wave : list fl;
    ma_pix : R; ma_slit_w : R; ma_slit_len : fl; ma_nymin : Z;
    ma_fwhm : R; ma_psf : fl -> fl -> fl; ma_res : fl; ma_spec : spec_type;
    ma_rest : list fl; ma_ratio : list fl;
    ma_nsub : nat; ma_pad : R; ma_shift : bool; ma_eff : bool; ma_prof : profs }.

(** misfit/mock/generate_basic.py:47-85 with misfit/model/kin_model.py:29-43 and
    misfit/model/aper_model.py:517-553: galaxy, instrument and options of the mock.  KinModel2DOptions is
    given the first four options only, the others have their defaults. [d] stands for the data arrays, which
    do not exist for a mock and are not read. *)
Definition mock_cfg (a : mockargs) (m : mock) (d : data2) : cfg :=
  mkcfg (mkgal (ma_q a) (ma_q0 a) (ma_dPA a) (Z.to_nat (k_rows m)) (ma_wave a) (k_m0 m) (ma_rest a) (ma_ratio a) d)
    (mkinstr (ma_slit_w a) (ma_pix a) (ma_fwhm a) (ma_res a) false (ma_psf a))
    (mkopts (ma_nsub a) (ma_pad a) true (ma_shift a) (ma_eff a) 0 (ma_spec a) false true 3 true)
    (ma_prof a).

(** misfit/mock/generate_basic.py:131-138 [generate_mock_slit_obs]: generate_mock_basis, then make_model with
    no free parameters on a new model object without row scaling (lines 103-112). *)
Definition mock_slit_obs (a : mockargs) (d : data2) : res (option (arr2 fl)) :=
  do m <- generate_mock (ma_z a) (ma_va a) (ma_rt a) (ma_sigma0 a) (ma_yshift a) (ma_dither a) (length (ma_wave a))
            (Fin (ma_pix a)) (ma_slit_len a) (ma_nymin a);
  let (k, r) := km_make (mock_cfg a m d) [] (mkkm (MGeom.k_theta m) (MGeom.k_vary m) true None None NoStamp) in
  do _ <- r; Ok (MAper2D.k_model k).
