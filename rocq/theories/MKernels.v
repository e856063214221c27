(* Model: numeric kernels of misfit/model/kin_functions.py and the data terms of
   misfit/model/kin_model.py. *)
From Coq Require Import Reals List Bool Arith.
From Verif Require Import PyFloat PyBase Arr PyNum.
Import ListNotations.
Local Open Scope R_scope.

(** 299792.458 km/s; misfit/model/kin_functions.py:11-12 takes c from astropy, in km/s. *)
Definition c_kms : R := 299792458 / 1000.

(** Row-major flat index of a 2-D array, as used by ndarray.reshape
    (misfit/model/kin_functions.py:409-416). *)
Definition flat2 {A} (a : arr2 A) (k : nat) : A := at2 a (k / cols a) (k mod cols a).

(** misfit/model/kin_functions.py:409-416 [rebin] on a 2-D array.
    factor = int(shape/args); a.reshape(m,f0,n,f1).sum(1).sum(2).  A zero in args makes the
    factor a garbage integer and reshape fails; modelled as ValueError. *)
Definition rebin2 (a : arr2 fl) (m n : nat) : res (arr2 fl) :=
  if Nat.eqb m 0 || Nat.eqb n 0 then Err ValueError
  else
    let f0 := (rows a / m)%nat in
    let f1 := (cols a / n)%nat in
    if Nat.eqb (m * f0 * (n * f1)) (rows a * cols a) then
      Ok (mk2 m n (fun i j =>
        fsumn f1 (fun q => fsumn f0 (fun p =>
          flat2 a (((i * f0 + p) * n + j) * f1 + q)%nat))))
    else Err ValueError.

(** Row-major flat index of a 3-D array (reshape in misfit/model/kin_functions.py:409-416). *)
Definition flat3 {A} (a : arr3 A) (k : nat) : A :=
  at3 a (k / (dim1 a * dim2 a)) (k / dim2 a mod dim1 a) (k mod dim2 a).

(** misfit/model/kin_functions.py:409-416 [rebin] on a 3-D array. *)
Definition rebin3 (a : arr3 fl) (l m n : nat) : res (arr3 fl) :=
  if Nat.eqb l 0 || Nat.eqb m 0 || Nat.eqb n 0 then Err ValueError
  else
    let f0 := (dim0 a / l)%nat in
    let f1 := (dim1 a / m)%nat in
    let f2 := (dim2 a / n)%nat in
    if Nat.eqb (l * f0 * (m * f1) * (n * f2)) (dim0 a * dim1 a * dim2 a) then
      Ok (mk3 l m n (fun i j k =>
        fsumn f2 (fun r => fsumn f1 (fun q => fsumn f0 (fun p =>
          flat3 a (((((i * f0 + p) * m + j) * f1 + q) * n + k) * f2 + r)%nat)))))
    else Err ValueError.

(** All entries finite. Helper of conv3 (misfit/model/kin_functions.py:369). *)
Definition allfin3 (a : arr3 fl) : bool :=
  forallb (fun i => forallb (fun j => forallb (fun k => isfinite (at3 a i j k))
    (seq 0 (dim2 a))) (seq 0 (dim1 a))) (seq 0 (dim0 a)).
(** Helper of conv2 (misfit/model/kin_functions.py:391, 460). *)
Definition allfin2 (a : arr2 fl) : bool :=
  forallb (fun i => forallb (fun j => isfinite (at2 a i j)) (seq 0 (cols a))) (seq 0 (rows a)).

(** One axis of a mode='same' convolution: the kernel sample (of M) that carries input k to
    output i, if any: index i + (M-1)//2 - k of the kernel. misfit/model/kin_functions.py:369, 391, 460. *)
Definition same_idx (M i k : nat) : option nat :=
  let s := (i + (M - 1) / 2)%nat in
  if Nat.leb k s && Nat.ltb (s - k) M then Some (s - k)%nat else None.

(** Helper of conv3 and conv2: zero outside the kernel (misfit/model/kin_functions.py:369). *)
Definition opt_at (o : option nat) (f : nat -> fl) : fl :=
  match o with Some i => f i | None => Fin 0 end.

(** scipy.signal.fftconvolve(a, ker, mode='same') of 3-D arrays, used at
    misfit/model/kin_functions.py:369.  Idealised: the FFT result is the exact convolution
    sum; a non-finite sample anywhere makes every output nan (every output of an FFT depends
    on every input). *)
Definition conv3 (a ker : arr3 fl) : arr3 fl :=
  if allfin3 a && allfin3 ker then
    mk3 (dim0 a) (dim1 a) (dim2 a) (fun w i j =>
      fsumn (dim0 a) (fun v => fsumn (dim1 a) (fun p => fsumn (dim2 a) (fun q =>
        fmul (at3 a v p q)
          (opt_at (same_idx (dim0 ker) w v) (fun kw =>
           opt_at (same_idx (dim1 ker) i p) (fun ki =>
           opt_at (same_idx (dim2 ker) j q) (fun kj => at3 ker kw ki kj))))))))
  else mk3 (dim0 a) (dim1 a) (dim2 a) (fun _ _ _ => NaN).

(** The same for 2-D arrays, used at misfit/model/kin_functions.py:392 and 459. *)
Definition conv2 (a ker : arr2 fl) : arr2 fl :=
  if allfin2 a && allfin2 ker then
    mk2 (rows a) (cols a) (fun i j =>
      fsumn (rows a) (fun p => fsumn (cols a) (fun q =>
        fmul (at2 a p q)
          (opt_at (same_idx (rows ker) i p) (fun ki =>
           opt_at (same_idx (cols ker) j q) (fun kj => at2 ker ki kj))))))
  else mk2 (rows a) (cols a) (fun _ _ => NaN).

(** Elementwise operation on a cube, e.g. misfit/model/kin_functions.py:361-375. *)
Definition map3 (f : fl -> fl) (a : arr3 fl) : arr3 fl :=
  mk3 (dim0 a) (dim1 a) (dim2 a) (fun i j k => f (at3 a i j k)).
(** Elementwise operation on an image, e.g. misfit/model/kin_functions.py:450-466. *)
Definition map2 (f : fl -> fl) (a : arr2 fl) : arr2 fl :=
  mk2 (rows a) (cols a) (fun i j => f (at2 a i j)).

(** What instrument.PSF._conv_stamp can hold (misfit/instrument.py:33,38). *)
Inductive stamp : Type :=
| NoStamp
| Stamp2 (k : arr2 fl)
| Stamp3 (k : arr3 fl).

(** ndarray.size of a cube, decides whether fftconvolve returns an empty array (misfit/model/kin_functions.py:369). *)
Definition size3 {A} (a : arr3 A) : nat := (dim0 a * dim1 a * dim2 a)%nat.
(** ndarray.size of an image (misfit/model/kin_functions.py:391, 460). *)
Definition size2 {A} (a : arr2 A) : nat := (rows a * cols a)%nat.

(** misfit/model/kin_functions.py:361-375 [PSF_convolve] on a cube.  [Ok None] stands for the
    empty 1-D array np.array([]) that fftconvolve returns when either input has no samples
    (the in-place multiplication leaves it empty).  fftconvolve raises ValueError when the
    stamp is not 3-D. *)
Definition PSF_convolve (cube : arr3 fl) (fwhm : fl) (st : stamp) : res (option (arr3 fl)) :=
  if fgtb fwhm (Fin 0) then
    match st with
    | Stamp3 ker =>
        if Nat.eqb (size3 cube) 0 || Nat.eqb (size3 ker) 0 then Ok None
        else
          let cv := conv3 cube ker in
          let s := fdiv (sum3 cube) (sum3 cv) in
          Ok (Some (map3 (fun x => fmul x s) cv))
    | _ => Err ValueError
    end
  else Ok (Some cube).

(** misfit/model/kin_functions.py:380-402 [PSF_convolve_flat]: no renormalisation. *)
Definition PSF_convolve_flat (im : arr2 fl) (fwhm : fl) (st : stamp) : res (option (arr2 fl)) :=
  if fgtb fwhm (Fin 0) then
    match st with
    | Stamp2 ker =>
        if Nat.eqb (size2 im) 0 || Nat.eqb (size2 ker) 0 then Ok None
        else Ok (Some (conv2 im ker))
    | _ => Err ValueError
    end
  else Ok (Some im).

(** 2*sqrt(2*ln 2), the FWHM of a unit Gaussian (misfit/model/kin_functions.py:472,507). *)
Definition fwhm_factor : R := 2 * sqrt (2 * ln 2).

(** misfit/model/kin_functions.py:502-511 [gaus_from_fwhm], one sample. *)
Definition gaus_from_fwhm (x fwhm x0 : fl) : fl :=
  let sig := fdiv fwhm (Fin fwhm_factor) in
  fexp (fdiv (fmul (Fin (-1)) (fsq (fsub x x0))) (fmul (Fin 2) (fsq sig))).

(** misfit/model/kin_functions.py:453-464 [convol_instconstfwhm].  Zero-size input (where
    fftconvolve returns a 1-D empty array) is not modelled: ValueError. *)
Definition convol_instconstfwhm (m : arr2 fl) (xx : list fl) (lam_cent fwhm : fl)
  : res (arr2 fl) :=
  let g := map (fun x => let y := gaus_from_fwhm x fwhm lam_cent in
                         if isfinite y then y else Fin 0) xx in
  let ker := mk2 (length xx) 1 (fun i _ => lnth g i) in
  if Nat.eqb (size2 m) 0 || Nat.eqb (size2 ker) 0 then Err ValueError
  else
    let fluxtot := sum2 m in
    let cv := conv2 m ker in
    let s := fdiv fluxtot (sum2 cv) in
    Ok (map2 (fun x => fmul x s) cv).

(** The instrumental width: unset, one float, or one value per row
    (misfit/model/aper_model.py:538, 795-804, 865-883). *)
Inductive idw : Type :=
| IdwNone
| IdwFloat (x : fl)
| IdwArr (l : list fl).

(** wave_arr[:-1]. misfit/model/kin_functions.py:487-490. *)
Definition droplast {A} (l : list A) : list A := firstn (length l - 1) l.

(** misfit/model/kin_functions.py:470-496 [inst_convol_complete]; the 'variable' branch calls
    [convol_inst] (419-447), which raises ValueError at once. len() of a float raises, which
    selects 'const'.  An empty width array selects 'const' with an empty array; numpy then
    fails to broadcast: ValueError.  None * float is a TypeError. *)
Definition inst_convol_complete (m : arr2 fl) (wave : list fl) (w : idw) : res (arr2 fl) :=
  let xx := if Nat.even (length wave) then droplast wave else wave in
  let lam_cent := average xx in
  match w with
  | IdwNone => Err TypeError
  | IdwArr _ => Err ValueError
  | IdwFloat s => convol_instconstfwhm m xx lam_cent (fmul s (Fin fwhm_factor))
  end.

(** misfit/model/kin_functions.py:137-165 [I_simple_collapse]: nearest wavelength bin.
    The three nested loops add into independent cells, so the cell value is a sum over z. *)
Definition I_simple_collapse (I V : arr3 fl) (wave : list fl) (nWave nZ nY nX : nat)
           (delt_z lam0 : fl) : arr3 fl :=
  mk3 nWave nY nX (fun w j k =>
    fsumn nZ (fun m =>
      let lam := fmul lam0 (fadd (Fin 1) (fdiv (at3 V m j k) (Fin c_kms))) in
      let best := argmin_ (length wave - 1) (fun i => fabs (fsub lam (lnth wave i))) in
      if Nat.eqb best w then fmul (at3 I m j k) delt_z else Fin 0)).

(** 4-D arrays with all entries of a cube repeated along a new leading axis
    (misfit/model/aper_model.py:746-748: np.tile / np.repeat+reshape). *)
Record arr4 (A : Type) : Type :=
  mk4 { d0 : nat; d1 : nat; d2 : nat; d3 : nat; at4 : nat -> nat -> nat -> nat -> A }.
Arguments mk4 {A}. Arguments d0 {A}. Arguments d1 {A}. Arguments d2 {A}. Arguments d3 {A}. Arguments at4 {A}.

(** The attribute spec_type, compared with 'wave' and 'velocity' (misfit/model/kin_functions.py:84-134). *)
Inductive spec_type : Type := Wave | Velocity | OtherSpec.

(** np.abs(a).max() of a cube, flattened. *)
Definition flat_list3 {A} (a : arr3 A) : list A :=
  flat_map (fun i => flat_map (fun j => map (fun k => at3 a i j k) (seq 0 (dim2 a)))
    (seq 0 (dim1 a))) (seq 0 (dim0 a)).

(** The shape test made by broadcasting 4-D arrays (misfit/model/kin_functions.py:99-125). *)
Definition shape4_eqb {A} (a : arr4 A) (n0 n1 n2 n3 : nat) : bool :=
  Nat.eqb (d0 a) n0 && Nat.eqb (d1 a) n1 && Nat.eqb (d2 a) n2 && Nat.eqb (d3 a) n3.

(** One Gaussian line (misfit/model/kin_functions.py:99-110 and 117-125): [centre v] is the
    wavelength (or velocity) of a voxel with velocity v and [width s] its Gaussian width. *)
Definition gauss_line (I4 wref : arr4 fl) (V sigma : arr3 fl) (nWave nZ nY nX : nat)
           (delt_z : fl) (centre width : fl -> fl) : arr3 fl :=
  mk3 nWave nY nX (fun w j k =>
    fmul (fsumn nZ (fun m =>
      let s := width (at3 sigma m j k) in
      let scale := fdiv (Fin 1) (fmul s (Fin (sqrt (2 * PI)))) in
      let gaus := fmul scale
        (fexp (fdiv (fneg (fsq (fsub (centre (at3 V m j k)) (at4 wref w m j k))))
                    (fmul (Fin 2) (fsq s)))) in
      fmul (at4 I4 w m j k) gaus)) delt_z).

(** misfit/model/kin_functions.py:73-132 [add_sigma_collapse_z].  Numpy broadcasting between
    the tiled velocity cube and the two stored 4-D arrays is modelled as a shape check
    (ValueError on mismatch; broadcasting of length-1 axes not modelled).  The loop adds one
    cube per line; a flux_ratio array that is too short raises IndexError (only local
    variables have changed by then). *)
Definition add_sigma_collapse_z (I V sigma : arr3 fl) (wave : list fl) (z : fl)
           (restwave ratio : list fl) (nWave nZ nY nX : nat) (delt_z : fl)
           (I4 wref : arr4 fl) (sp : spec_type) : res (arr3 fl) :=
  let mx := np_max (map fabs (flat_list3 sigma)) in
  let shapes_ok := shape4_eqb I4 nWave nZ nY nX && shape4_eqb wref nWave nZ nY nX in
  match sp with
  | Wave =>
      if Nat.eqb (length restwave) 0 then Ok (mk3 nWave nY nX (fun _ _ _ => Fin 0))
      else
      do m <- mx;
      let gaussian := fgtb m (Fin 0) in
      if gaussian && negb shapes_ok then Err ValueError
      else if Nat.ltb (length ratio) (length restwave) then Err IndexError
      else
        let line i :=
          let lam0 := fmul (lnth restwave i) (fadd (Fin 1) z) in
          if gaussian then
            gauss_line I4 wref V sigma nWave nZ nY nX delt_z
              (fun v => fmul lam0 (fadd (Fin 1) (fdiv v (Fin c_kms))))
              (fun s => fmul (fdiv s (Fin c_kms)) lam0)
          else I_simple_collapse I V wave nWave nZ nY nX delt_z lam0 in
        Ok (mk3 nWave nY nX (fun w j k =>
              fsumn (length restwave) (fun i =>
                fmul (at3 (line i) w j k) (lnth ratio i))))
  | Velocity =>
      do m <- mx;
      if fgtb m (Fin 0) then
        if shapes_ok then
          Ok (gauss_line I4 wref V sigma nWave nZ nY nX delt_z (fun v => v) (fun s => s))
        else Err ValueError
      else Err UnboundLocalError
  | OtherSpec => Ok (mk3 nWave nY nX (fun _ _ _ => Fin 0))
  end.

(** The data a 2-D fit reads (galaxy.spec2D): flux, error, 0/1 mask, weights and the list of
    non-sky columns (misfit/model/kin_model.py:141-157, 336-395). *)
Record data2 : Type := mkdata
  { flux : arr2 fl; ferr : arr2 fl; smask : arr2 fl; fwt : arr2 fl; wh_nosky : list nat }.

(** misfit/model/kin_model.py:141-157 [KinModel2D.scale_model], the factor of one row. *)
Definition scale_ratio (d : data2) (model : arr2 fl) (i : nat) : fl :=
  let num := fsum (map (fun c => fdiv (fmul (at2 (flux d) i c) (at2 model i c))
                                      (fsq (at2 (ferr d) i c))) (wh_nosky d)) in
  let den := fsum (map (fun c => fdiv (fsq (at2 model i c)) (fsq (at2 (ferr d) i c)))
                       (wh_nosky d)) in
  let den0 := feqb (fabs den) (Fin 0) in
  let num1 := if isfinite num then num else Fin 0 in
  let num2 := if den0 then Fin 0 else num1 in
  let den2 := if den0 then Fin (-99) else den in
  fdiv num2 den2.

(** The shape test made by elementwise operations on images (misfit/model/kin_model.py:141-157). *)
Definition same_shape {A B} (a : arr2 A) (b : arr2 B) : bool :=
  Nat.eqb (rows a) (rows b) && Nat.eqb (cols a) (cols b).

(** misfit/model/kin_model.py:141-157: model *= ratio (one factor per row).  Fancy indexing
    raises IndexError for a column outside the image; shapes must agree (ValueError;
    broadcasting of length-1 axes not modelled). *)
Definition scale_model (d : data2) (model : arr2 fl) : res (arr2 fl) :=
  if negb (forallb (fun c => Nat.ltb c (cols (flux d))) (wh_nosky d)) then Err IndexError
  else if negb (forallb (fun c => Nat.ltb c (cols model)) (wh_nosky d)) then Err IndexError
  else if negb (forallb (fun c => Nat.ltb c (cols (ferr d))) (wh_nosky d)) then Err IndexError
  else if negb (Nat.eqb (rows (flux d)) (rows model) && Nat.eqb (rows (ferr d)) (rows model))
  then Err ValueError
  else Ok (mk2 (rows model) (cols model)
             (fun i j => fmul (at2 model i j) (scale_ratio d model i))).

(** misfit/model/kin_model.py:336-350 [_model_llike] (all arrays of one shape). *)
Definition model_llike (d : data2) (model : arr2 fl) : fl :=
  fmul (Fin (-1/2))
    (sum2 (mk2 (rows model) (cols model) (fun i j =>
      fmul (at2 (smask d) i j)
        (fadd (fmul (at2 (fwt d) i j)
                 (fsq (fdiv (fsub (at2 (flux d) i j) (at2 model i j)) (at2 (ferr d) i j))))
              (flog10 (fmul (Fin (2 * PI)) (fsq (at2 (ferr d) i j)))))))).

(** misfit/model/kin_model.py:354-395 [_model_chisq]. *)
Definition model_chisq (d : data2) (model : arr2 fl) : fl :=
  sum2 (mk2 (rows model) (cols model) (fun i j =>
    fmul (fsq (fdiv (fmul (fsub (at2 (flux d) i j) (at2 model i j)) (at2 (smask d) i j))
                    (at2 (ferr d) i j)))
         (at2 (fwt d) i j))).

(** misfit/model/kin_model.py:398-438 [_model_chisq_no_weight]. *)
Definition model_chisq_no_weight (d : data2) (model : arr2 fl) : fl :=
  sum2 (mk2 (rows model) (cols model) (fun i j =>
    fsq (fdiv (fmul (fsub (at2 (flux d) i j) (at2 model i j)) (at2 (smask d) i j))
              (at2 (ferr d) i j)))).

(** number of pixels with mask == 1 (misfit/model/kin_model.py:305-308). *)
Definition n_unmasked (m : arr2 fl) : nat :=
  length (filter (fun p => feqb (at2 m (fst p) (snd p)) (Fin 1))
    (list_prod (seq 0 (rows m)) (seq 0 (cols m)))).

(** misfit/model/kin_model.py:302-310 [model_redchisq]; Python float division by zero of a
    numpy float gives inf/nan. *)
Definition model_redchisq (d : data2) (model : arr2 fl) (nfree : nat) : fl :=
  fdiv (model_chisq d model) (Fin (INR (n_unmasked (smask d)) - INR nfree)).

(** misfit/model/kin_model.py:312-321 [model_redchisq_weight_ref] *)
Definition model_redchisq_weight_ref (d : data2) (nfree : nat) : fl :=
  fdiv (sum2 (fwt d)) (Fin (INR (n_unmasked (smask d)) - INR nfree)).

(** misfit/model/kin_model.py:323-331 [model_redchisq_no_weight] *)
Definition model_redchisq_no_weight (d : data2) (model : arr2 fl) (nfree : nat) : fl :=
  fdiv (model_chisq_no_weight d model) (Fin (INR (n_unmasked (smask d)) - INR nfree)).
