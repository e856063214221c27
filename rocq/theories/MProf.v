(* Model: the kinematic, intensity and PSF profiles of misfit/model/kin_classes.py,
   misfit/model/kin_functions.py and misfit/instrument.py. *)
From Coq Require Import Reals List Bool Arith ZArith.
From Verif Require Import PyFloat PyBase Arr PyNum MKernels MAper2D.
Import ListNotations.
Local Open Scope R_scope.

(** np.power(x, y) as used by misfit/model/kin_classes.py:242, misfit/model/kin_functions.py:1039-1041,1062
    and misfit/instrument.py:66,174-181: C pow().  A negative base with a non-integer exponent
    is nan, a zero base with a negative exponent is inf. *)
Definition fpow (x y : fl) : fl :=
  match x, y with
  | Fin a, Fin b =>
      if Rltb 0 a then Fin (Rpower a b)
      else if Reqb a 0 then (if Rltb 0 b then Fin 0 else if Reqb b 0 then Fin 1 else PInf)
      else if Reqb b (IZR (Int_part b)) then Fin (powerRZ a (Int_part b)) else NaN
  | Fin a, PInf =>
      if Reqb (Rabs a) 1 then Fin 1 else if Rltb 1 (Rabs a) then PInf else Fin 0
  | Fin a, NInf =>
      if Reqb (Rabs a) 1 then Fin 1 else if Rltb 1 (Rabs a) then Fin 0 else PInf
  | Fin a, NaN => if Reqb a 1 then Fin 1 else NaN
  | PInf, Fin b => if Reqb b 0 then Fin 1 else if Rltb 0 b then PInf else Fin 0
  | NInf, Fin b =>
      if Reqb b 0 then Fin 1
      else if Rltb 0 b then
        (if Reqb b (IZR (Int_part b)) && Z.odd (Int_part b) then NInf else PInf)
      else Fin 0
  | PInf, PInf | NInf, PInf => PInf
  | PInf, NInf | NInf, NInf => Fin 0
  | NaN, Fin b => if Reqb b 0 then Fin 1 else NaN
  | _, _ => NaN
  end.

(** np.arccos: nan outside [-1,1] (used at misfit/general/general_utils.py:173-174). *)
Definition facos (x : fl) : fl :=
  match x with Fin r => if Rleb (-1) r && Rleb r 1 then Fin (acos r) else NaN | _ => NaN end.

(** 1./float(x): a Python float division. misfit/model/kin_classes.py:242, misfit/instrument.py:70 and misfit/model/kin_functions.py:1062. *)
Definition py_inv (x : fl) : res fl :=
  match x with
  | Fin a => if Reqb a 0 then Err ZeroDivisionError else Ok (Fin (1 / a))
  | _ => Ok (fdiv (Fin 1) x)
  end.

(** misfit/general/general_utils.py:173-174 [inclination_angle] (numpy scalars). *)
Definition inclination_angle (q q0 : fl) : fl :=
  facos (fsqrt (fdiv (fsub (fsq q) (fsq q0)) (fsub (Fin 1) (fsq q0)))).

(** misfit/model/kin_classes.py:69-73 [VelArctanProfile.vel], one radius.  The bare except
    turns the IndexError of a short parameter vector into np.inf. *)
Definition vel_arctan (theta : list fl) (r z : fl) : fl :=
  match theta with
  | va :: rt :: _ => fmul (fmul (Fin (2 / PI)) va) (fatan (fdiv r rt))
  | _ => PInf
  end.

(** misfit/model/kin_classes.py:93-94 [DispConstProfile.sigma], one radius.  An empty
    parameter vector raises IndexError; the slice installed by KinProfile.update_theta
    (125-137) is empty only if the full vector is shorter than three, which
    setup_model_grid accepts only for two parameters; nan stands for that error. *)
Definition disp_const (theta : list fl) (r z : fl) : fl :=
  match theta with
  | s :: _ => fadd (fmul (Fin 0) r) s
  | [] => NaN
  end.

(** misfit/model/kin_classes.py:239-242 [IntProfileSersic.int], one radius. *)
Definition sersic_int (Ie n re r : fl) : res fl :=
  let b_n := fsub (fmul (Fin 2) n) (Fin (324 / 1000)) in
  do inv <- py_inv n;
  Ok (fmul Ie (fexp (fmul (fneg b_n) (fsub (fpow (fdiv r re) inv) (Fin 1))))).

(** misfit/model/kin_classes.py:251-256 [IntProfileExpZ]: z0 = q0*re. *)
Definition expz_z0 (q0 re : fl) : fl := fmul q0 re.
(** misfit/model/kin_classes.py:266-271 [IntProfileExpZScale]: z0 = q0*(re/1.676). *)
Definition expzscale_z0 (q0 re : fl) : fl := fmul q0 (fdiv re (Fin (1676 / 1000))).
(** misfit/model/kin_classes.py:251-252 and 266-267, one height. *)
Definition expz_int (z0 z : fl) : fl := fexp (fdiv (fneg (fabs z)) z0).

(** misfit/model/kin_classes.py:175-176 [IntensityProfile.int] with the components of
    IntensityProfileFiducial (180-188) or IntensityProfileSersicExpScale (192-201). *)
Definition int_fiducial (Ie n re q0 r z : fl) : res fl :=
  do s <- sersic_int Ie n re r; Ok (fmul s (expz_int (expz_z0 q0 re) z)).
(** misfit/model/kin_classes.py:192-201 with 175-176. *)
Definition int_expscale (Ie n re q0 r z : fl) : res fl :=
  do s <- sersic_int Ie n re r; Ok (fmul s (expz_int (expzscale_z0 q0 re) z)).

(** misfit/model/kin_functions.py:1054-1062 [I_sersic]. *)
Definition I_sersic (r re n Ie r_core : fl) : res fl :=
  let b_n := fsub (fmul (Fin 2) n) (Fin (324 / 1000)) in
  let rc := fmul r_core re in
  do inv <- py_inv n;
  Ok (fmul Ie (fexp (fmul (fneg b_n) (fsub (fpow (fdiv (fadd r rc) re) inv) (Fin 1))))).

(** misfit/model/kin_functions.py:1032-1041 [sigma_profile]. *)
Definition sigma_profile (r re d r_core : fl) : fl :=
  let rc := fmul r_core re in
  let cnst := fdiv (Fin 1) (fpow (fdiv (fadd re rc) re) d) in
  fmul cnst (fpow (fdiv (fadd r rc) re) d).

(** misfit/model/kin_functions.py:1012-1021 [r_int_ellip]. *)
Definition r_int_ellip (x y q dPA : fl) : fl :=
  let t := fmul dPA (Fin (PI / 180)) in
  let yp := fadd (fmul (fsin t) x) (fmul (fcos t) y) in
  let xp := fsub (fmul (fcos t) x) (fmul (fsin t) y) in
  fsqrt (fadd (fmul q (fsq yp)) (fmul (fdiv (Fin 1) q) (fsq xp))).

(** misfit/model/kin_functions.py:998-1006 [disp_square]: the slope d keeps its default. *)
Definition disp_square (x y q dPA re r_core : fl) : fl :=
  fsq (sigma_profile (r_int_ellip x y q dPA) re (Fin (-89 / 1000)) r_core).

(** misfit/model/kin_functions.py:1044-1050 [Igal]. *)
Definition Igal (x y re n q dPA r_core : fl) : res fl :=
  I_sersic (r_int_ellip x y q dPA) re n (Fin 1) r_core.

(* ------------------------------------------------------------------ *)
(* PSF stamps.                                                          *)

(** np.repeat(l, k) of a 1-D array (misfit/instrument.py:145-146, 169-170). *)
Definition np_repeat (l : list fl) (k : nat) : list fl := flat_map (fun a => repeat a k) l.
(** a.reshape((m,n)) of a 1-D array of length m*n (misfit/instrument.py:145-146, 169-170). *)
Definition reshape2 (l : list fl) (m n : nat) : arr2 fl := mk2 m n (fun i j => lnth l (i * n + j)).
(** a.T (misfit/instrument.py:145, 169). *)
Definition transpose (a : arr2 fl) : arr2 fl := mk2 (cols a) (rows a) (fun i j => at2 a j i).

(** misfit/instrument.py:145-146 and 169-170, the two coordinate arrays. *)
Definition xarr_flat (x y : list fl) : arr2 fl :=
  transpose (reshape2 (np_repeat x (length y)) (length x) (length y)).
(** misfit/instrument.py:145-146 and 169-170, the second coordinate array. *)
Definition yarr_flat (x y : list fl) : arr2 fl :=
  reshape2 (np_repeat y (length x)) (length y) (length x).

(** misfit/instrument.py:148-153, the Gaussian at one point, displaced by [s] along y. *)
Definition gauss_pt (sig x y s : fl) : fl :=
  fexp (fdiv (fneg (fadd (fsq x) (fsq (fadd y s)))) (fmul (Fin 2) (fsq sig))).

(** misfit/instrument.py:137-157 [PSF_stamp_gauss]. *)
Definition psf_stamp_gauss (x y : list fl) (fwhm : fl) (dither : option fl) : arr2 fl :=
  let sig := fdiv fwhm (Fin fwhm_factor) in
  let xa := xarr_flat x y in
  let ya := yarr_flat x y in
  mk2 (length y) (length x) (fun j i =>
    let p s := gauss_pt sig (at2 xa j i) (at2 ya j i) s in
    match dither with
    | None => p (Fin 0)
    | Some d => fsub (p (Fin 0)) (fmul (Fin (1/2)) (fadd (p d) (p (fneg d))))
    end).

(** misfit/instrument.py:173-181, the Moffat profile at one point, displaced by [s]. *)
Definition moffat_pt (alpha beta x y s : fl) : fl :=
  fmul (fdiv (fsub beta (Fin 1)) (fmul (Fin PI) (fsq alpha)))
       (fpow (fadd (Fin 1) (fdiv (fadd (fsq x) (fsq (fadd y s))) (fsq alpha))) (fneg beta)).

(** misfit/instrument.py:161-184 [PSF_stamp_moffat]. *)
Definition psf_stamp_moffat (x y : list fl) (alpha beta : fl) (dither : option fl) : arr2 fl :=
  let xa := xarr_flat x y in
  let ya := yarr_flat x y in
  mk2 (length y) (length x) (fun j i =>
    let p s := moffat_pt alpha beta (at2 xa j i) (at2 ya j i) s in
    match dither with
    | None => p (Fin 0)
    | Some d => fsub (p (Fin 0)) (fmul (Fin (1/2)) (fadd (p d) (p (fneg d))))
    end).

(** PSF objects (misfit/instrument.py:15-68): family, FWHM, dither offset and, for Moffat,
    beta.  Attributes are Optional as in the source. *)
Inductive psf_family : Type := PsfPlain | PsfGaussian | PsfMoffat (beta : option fl).
(** A PSF object, misfit/instrument.py:15-68. *)
Record psf : Type := mkpsf { psf_fam : psf_family; psf_fwhm : option fl; psf_dither : option fl }.

(** misfit/instrument.py:37-68 [generate_conv_stamp] of the three classes; [arg] is the
    PSF_FWHM argument.  The base class returns None ([Ok None]).  None in arithmetic is a
    TypeError; 1./beta is a Python float division. *)
Definition generate_conv_stamp (p : psf) (x y : list fl) (arg : option fl)
  : res (option (arr2 fl)) :=
  let f := match arg with Some v => Some v | None => psf_fwhm p end in
  match psf_fam p with
  | PsfPlain => Ok None
  | PsfGaussian =>
      match f with
      | None => Err TypeError
      | Some v => Ok (Some (psf_stamp_gauss x y v (psf_dither p)))
      end
  | PsfMoffat b =>
      match f, b with
      | Some v, Some beta =>
          do inv <- py_inv beta;
          let alpha := fdiv v (fmul (Fin 2) (fsqrt (fsub (fpow (Fin 2) inv) (Fin 1)))) in
          Ok (Some (psf_stamp_moffat x y alpha beta None))
      | _, _ => Err TypeError
      end
  end.

(** misfit/instrument.py:73-92 [Instrument.__init__], choice of the PSF class from the
    PSF_type argument, already stripped and lower-cased: [ty] is None when the argument is
    missing (KeyError).  PSF_beta defaults to 2.5 (55). *)
Inductive psf_type_arg : Type := TyGaussian | TyMoffat | TyOther.
(** misfit/instrument.py:73-92: the choice of the PSF class. *)
Definition instrument_psf (ty : option psf_type_arg) (fwhm dither : option fl)
           (beta : option (option fl)) : res psf :=
  match ty with
  | None => Err KeyError
  | Some TyMoffat =>
      Ok (mkpsf (PsfMoffat (match beta with Some b => b | None => Some (Fin (25/10)) end)) fwhm dither)
  | Some _ => Ok (mkpsf PsfGaussian fwhm dither)
  end.
