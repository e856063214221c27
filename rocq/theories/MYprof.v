(* Model: the residual functions of the helper fits (misfit/general/general_utils.py:28-114) and the size of
   the line emission along the slit (misfit/general/galaxy_utils.py:1476-1687 [fit_emission_y_profile]). *)
From Coq Require Import Reals List Bool Arith ZArith.
From Verif Require Import PyFloat PyBase Arr PyNum MMask MPost MFit1D MVert MTrim MPrep.
Import ListNotations.
Local Open Scope R_scope.

(** resid[~np.isfinite(resid)] = 0. (misfit/general/general_utils.py:33, 80, 88, 112) *)
Definition zero_bad (l : list fl) : list fl := map (fun v => if isfinite v then v else Fin 0) l.
(** (model-data)/err for arrays of one length (misfit/general/general_utils.py:31, 79, 87, 111). *)
Definition resid3 (model data err : list fl) : list fl :=
  map (fun t => fdiv (fsub (fst t) (fst (snd t))) (snd (snd t))) (combine model (combine data err)).

(** misfit/general/general_utils.py:28-35 [weighted_linear_residual] at slope [a] and intercept [b]. *)
Definition weighted_linear_residual (a b : fl) (xx data err mask : list fl) : list fl :=
  zero_bad (map (fun t => if feqb (snd t) (Fin 0) then Fin 0 else fst t) (combine (resid3 (line_at a b xx) data err) mask)).

(** The lmfit parameters of a Gaussian (misfit/general/general_utils.py:62-72; misfit/general/galaxy_utils.py:1365-1368, 1521-1524);
    C may be absent. *)
Record gprm : Type := mkG { gp_mu : par; gp_A : par; gp_sigma : par; gp_C : option par }.

(** misfit/general/general_utils.py:48-59, 62-75 [gaus_profile] *)
Definition gaus_profile (q : gprm) (xx : list fl) : list fl :=
  map (fun x => let g := gaus_simple (p_val (gp_A q)) (p_val (gp_mu q)) (p_val (gp_sigma q)) x in
                match gp_C q with None => g | Some c => fadd g (p_val c) end) xx.

(** misfit/general/general_utils.py:77-82 [gaus_residual] *)
Definition gaus_residual (q : gprm) (xx data err : list fl) : list fl := zero_bad (resid3 (gaus_profile q xx) data err).

(** misfit/general/general_utils.py:85-89 [gaus_residual_mask] *)
Definition gaus_residual_mask (q : gprm) (xx data err : list fl) (wh : list nat) : res (list fl) :=
  do g <- take (gaus_profile q xx) wh;
  do d <- take data wh;
  do e <- take err wh;
  Ok (zero_bad (resid3 g d e)).

(** misfit/general/general_utils.py:92-107 [vert_triple_gaus_profile]: a positive image and two negative ones.
    Adding to zeros is left out. *)
Definition vert_triple_gaus_profile (A sigma mu mu_l mu_r C : fl) (xx : list fl) : list fl :=
  map (fun x => fadd (fadd (fadd (gaus_simple A mu sigma x) (gaus_simple (fneg A) mu_l sigma x)) (gaus_simple (fneg A) mu_r sigma x)) C) xx.
(** misfit/general/general_utils.py:109-114 [vert_triple_gaus_residual] *)
Definition vert_triple_gaus_residual (A sigma mu mu_l mu_r C : fl) (xx data err : list fl) : list fl :=
  zero_bad (resid3 (vert_triple_gaus_profile A sigma mu mu_l mu_r C xx) data err).

(** Parameters.add(name, value, min, max) (misfit/general/galaxy_utils.py:1521-1523, 1536-1538): lmfit rejects equal
    limits and moves the value inside them. *)
Definition lm_par (v lo hi : fl) : res par :=
  do _ <- lm_bounds lo hi;
  let v1 := if fgtb v hi then hi else v in
  Ok (mkPar (if fltb v1 lo then lo else v1) lo hi).

(** lmfit.minimize(residual, params).params (misfit/general/galaxy_utils.py:1532, 1541, 1596, 1606): any function of
    the residual function and the parameters. *)
Definition gopt : Type := (gprm -> res (list fl)) -> gprm -> res gprm.

(** What the measurement reads besides the spectrum (misfit/general/galaxy_utils.py:1476-1661): inst.pixscale,
    inst.PSF.PSF_FWHM (None: no PSF), whether a plot is wanted, galaxy.ID, and whether the attribute slitobjname, which
    no code sets, was set on the spectrum by the user. *)
Record ycfg : Type := mkYcfg { yc_pix : fl; yc_fwhm : option fl; yc_plot : bool; yc_id : galid; yc_slit : bool }.

(** The attributes set (misfit/general/galaxy_utils.py:1566-1571, 1633-1635). *)
Record ysize : Type := mkYs { y_obs : fl; y_obs_err : fl * fl; y_int : fl; y_int_err : fl * fl; y_d50 : fl; y_d50_err : fl * fl }.
(** misfit/general/galaxy_utils.py:1668-1674, 1677-1683 *)
Definition ymissing : ysize :=
  let m := Fin (-99) in mkYs m (m, m) m (m, m) m (m, m).

(** std2FWHM (misfit/general/galaxy_utils.py:1518) *)
Definition std2fwhm : R := 2 * sqrt (2 * ln 2).

(** yy_arr (misfit/general/galaxy_utils.py:1489-1490): np.linspace(0, n*pixscale, num=n, endpoint=False); m_lims is
    (0, n) after the spatial trim. *)
Definition y_grid (pix : fl) (n : nat) : list fl :=
  map (fun i => fmul (Fin (INR i)) (fdiv (fmul (Fin (INR n)) pix) (Fin (INR n)))) (seq 0 n).

(** The starting parameters (misfit/general/galaxy_utils.py:1521-1523, 1536-1538, 1590-1592, 1600-1602); [smax] is the
    upper limit of sigma. *)
Definition y_start (mu0 ymin ymax amp : fl) (rows_ : nat) (smax : fl) : res gprm :=
  do mu <- lm_par mu0 ymin ymax;
  do sg <- lm_par (fdiv (Fin (INR rows_)) (Fin 4)) (Fin 0) smax;
  Ok (mkG mu (unbounded amp) sg None).

(** One fit, repeated with a limit on sigma if that is exceeded
    (misfit/general/galaxy_utils.py:1532-1542 and 1596-1607). *)
Definition y_fit (M : gopt) (mu0 ymin ymax amp : fl) (rows_ : nat) (maxs : fl) (resid : gprm -> res (list fl)) : res gprm :=
  do p <- y_start mu0 ymin ymax amp rows_ PInf;
  do r <- M resid p;
  if fgtb (p_val (gp_sigma r)) maxs then
    do p <- y_start mu0 ymin ymax amp rows_ maxs;
    M resid p
  else Ok r.

(** sigma_y_emis_int from the observed width (misfit/general/galaxy_utils.py:1567-1569, 1617-1619). *)
Definition y_intrinsic (fwhm obs : fl) : fl :=
  let s := fsqrt (fsub (fsq obs) (fsq (fdiv fwhm (Fin std2fwhm)))) in
  if isfinite s then s else Fin 0.

(** The title of the plot (misfit/general/galaxy_utils.py:1654-1658); what matplotlib does is left out. *)
Definition y_title (c : ycfg) : res unit :=
  do _ <- match yc_id c with IdInt => Ok tt | IdNone => Err TypeError | IdText => Err ValueError end;
  if yc_slit c then Ok tt else Err AttributeError.

(** Best value, and distance to the two percentiles of the Monte Carlo values
    (misfit/general/galaxy_utils.py:1623-1630); np.percentile of no values raises IndexError. *)
Definition y_err (best : fl) (l : list fl) : res (fl * fl) :=
  match l with
  | [] => Err IndexError
  | _ => Ok (fsub best (percentile (15865 / 1000) l), fsub (percentile (84135 / 1000) l) best)
  end.

(** mapM over the Monte Carlo realisations (misfit/general/galaxy_utils.py:1580-1620). *)
Fixpoint y_draws {A} (k : nat) (f : nat -> res A) : res (list A) :=
  match k with O => Ok [] | S k => do l <- y_draws k f; do a <- f k; Ok (l ++ [a]) end.

(** The body of the try block (misfit/general/galaxy_utils.py:1526-1661).  [rnd i j] is the standard normal number
    drawn for row j in realisation i. *)
Definition y_try (M : gopt) (rnd : nat -> nat -> fl) (k : nat) (c : ycfg) (mu0 ymin ymax amp : fl) (rows_ : nat) (maxs : fl)
  (yy prof perr : list fl) (wh : list nat) : res ysize :=
  do fwhm <- need AttributeError (yc_fwhm c);
  do _ <- (if feqb fwhm (Fin 0) then Err ZeroDivisionError else Ok tt);
  do _ <- (if fltb (fdiv (fmul (Fin (INR (length wh))) (yc_pix c)) fwhm) (Fin (8 / 10)) then Err ValueError else Ok tt);
  do r <- y_fit M mu0 ymin ymax amp rows_ maxs (fun q => gaus_residual_mask q yy prof perr wh);
  let obs := p_val (gp_sigma r) in
  let int := y_intrinsic fwhm obs in
  let d50 := fmul int (Fin std2fwhm) in
  do mc <- y_draws k (fun i =>
    let pert := mapi (fun j d => fadd d (fmul (lnth perr j) (rnd i j))) prof in
    do r <- y_fit M mu0 ymin ymax amp rows_ maxs (fun q => gaus_residual_mask q yy pert perr wh);
    Ok (p_val (gp_sigma r)));
  let ints := map (y_intrinsic fwhm) mc in
  do e1 <- y_err obs mc;
  do e2 <- y_err int ints;
  do e3 <- y_err d50 (map (fun v => fmul v (Fin std2fwhm)) ints);
  do _ <- (if yc_plot c then y_title c else Ok tt);
  Ok (mkYs obs e1 int e2 d50 e3).

(** misfit/general/galaxy_utils.py:1476-1687 [fit_emission_y_profile]: the attributes it sets. *)
Definition y_profile (M : gopt) (rnd : nat -> nat -> fl) (k : nat) (c : ycfg) (s : sp2) : res ysize :=
  do fx <- need TypeError (q_flux s);
  do er <- need TypeError (q_err s);
  do sk <- need TypeError (q_sky s);
  do spec <- times2 fx sk;
  do err <- times2 er sk;
  let prof := row_flux spec in
  let perr := row_err err in
  do n <- need TypeError (q_mlims s);
  let yy := y_grid (yc_pix c) n in
  match setdiff_range n (q_low_inds s) with
  | [] => Ok ymissing
  | wh =>
      do ymax <- np_max yy;
      do ymin <- np_min yy;
      let maxs := fdiv (fsub ymax ymin) (Fin std2fwhm) in
      do y <- need TypeError (q_ypos s);
      let mu0 := fmul y (yc_pix c) in
      do amp <- np_max prof;
      do _ <- y_start mu0 ymin ymax amp (rows fx) PInf;
      match y_try M rnd k c mu0 ymin ymax amp (rows fx) maxs yy prof perr wh with
      | Ok r => Ok r
      | Err _ => Ok ymissing
      end
  end.

(** misfit/galaxy.py:924-928 [ObsSpectrum2D.fit_emission_y_profile]; num_MC keeps its default of 500. *)
Definition fit_emission_y_profile (M : gopt) (rnd : nat -> nat -> fl) (c : ycfg) (s : sp2) : res ysize :=
  if q_prepared s then y_profile M rnd (Z.to_nat 500) c s else Err ValueError.
