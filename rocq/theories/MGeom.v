(* Model: slit geometry, plot rotations, box integration and mock set-up
   (misfit/general/galaxy_utils.py:1311-1324, misfit/general/general_utils.py:136-174,
   misfit/plot/plot_utils.py, misfit/plot/plot_image_slit.py:460-550, misfit/mock/generate_basic.py). *)
From Coq Require Import Reals List Bool Arith ZArith.
From Verif Require Import PyFloat PyBase Arr PyNum MParams MAper1D MFit1D MTrim.
Import ListNotations.
Local Open Scope R_scope.

(** np.tan (misfit/general/galaxy_utils.py:1318, misfit/plot/plot_utils.py:55).  At an odd multiple of
    a right angle the floating-point result is huge, with a sign fixed by rounding: [pole]. *)
Definition ftan (pole : R -> bool) (x : fl) : fl :=
  match x with
  | Fin r => if Req_EM_T (cos r) 0 then (if pole r then PInf else NInf) else Fin (tan r)
  | _ => NaN
  end.

(** np.arctan2 for numbers (misfit/plot/plot_utils.py:42, 55); [nz] says that a zero numerator is a
    negative zero.  Both arguments zero: taken as zero. *)
Definition arctan2 (nz : bool) (y x : R) : R :=
  if Rlt_dec 0 x then atan (y / x)
  else if Rlt_dec x 0 then
    if Rlt_dec 0 y then atan (y / x) + PI
    else if Rlt_dec y 0 then atan (y / x) - PI
    else if nz then - PI else PI
  else if Rlt_dec 0 y then PI / 2 else if Rlt_dec y 0 then - (PI / 2) else 0.

(** np.deg2rad factor: deg2rad = np.pi/180. (misfit/general/general_utils.py:25) *)
Definition d2r : fl := Fin (PI / 180).

(** The attributes of a galaxy that calculate_slit_offset_angles reads and writes: spec2D and its
    slit_PA, pstamp and its img_PA, sersicPA, delt_PA and delt_PA_abs (None: does not exist yet).
    misfit/general/galaxy_utils.py:1311-1325. *)
Record slitgal : Type := mkSlitgal {
  a_gen : bool; a_spec : option (option fl); a_stamp : option (option fl); a_sersic : option fl;
  a_dPA : option fl; a_abs : option fl
}.

(** misfit/general/galaxy_utils.py:1311-1324 [calculate_slit_offset_angles] *)
Definition slit_offset (pole : R -> bool) : ST slitgal unit :=
  sdo g <- getS;
  sdo _ <- (if a_gen g then ret tt else
    sdo sp <- liftR (MTrim.need AttributeError (a_spec g));
    sdo st <- liftR (MTrim.need AttributeError (a_stamp g));
    sdo s <- liftR (MTrim.need TypeError sp);
    sdo i <- liftR (MTrim.need TypeError st);
    sdo p <- liftR (MTrim.need TypeError (a_sersic g));
    let d := fsub p (fsub s i) in
    let d := fdiv (fmul (fatan (ftan pole (fdiv (fmul d (Fin PI)) (Fin 180)))) (Fin 180)) (Fin PI) in
    modS (fun g => mkSlitgal (a_gen g) (a_spec g) (a_stamp g) (a_sersic g) (Some d) (a_abs g)));
  sdo g <- getS;
  sdo d <- liftR (MTrim.need TypeError (a_dPA g));
  modS (fun g => mkSlitgal (a_gen g) (a_spec g) (a_stamp g) (a_sersic g) (a_dPA g) (Some (fabs d))).

(** misfit/general/general_utils.py:136-137 [y_proj_phys] *)
Definition y_proj_phys (re dPA q : fl) : fl :=
  fdiv (fmul q re) (fsqrt (fadd (fsq (fmul q (fcos (fmul dPA d2r)))) (fsq (fsin (fmul dPA d2r))))).
(** misfit/general/general_utils.py:139-140 [x_proj_phys] *)
Definition x_proj_phys (re dPA q : fl) : fl :=
  let a := fmul (fsub (Fin 90) dPA) d2r in
  fdiv (fmul q re) (fsqrt (fadd (fsq (fmul q (fcos a))) (fsq (fsin a)))).
(** misfit/general/general_utils.py:142-146 [x_proj_major] *)
Definition x_proj_major (re dPA : fl) : fl := fabs (fmul re (fsin (fmul dPA d2r))).
(** misfit/general/general_utils.py:154-157 [r_unproj_major] *)
Definition r_unproj_major (y dPA : fl) : fl := fabs (fdiv y (fcos (fmul dPA d2r))).
(** misfit/general/general_utils.py:159-171 [y_proj_major_inslit]; a width of None is a TypeError *)
Definition y_proj_major_inslit (re dPA : fl) (w : option fl) : res fl :=
  do w <- MTrim.need TypeError w;
  let hw := fmul (Fin (1/2)) w in
  let a_slit := fabs (fdiv hw (fsin (fmul dPA d2r))) in
  let xp := fabs (fmul re (fsin (fmul dPA d2r))) in
  if fleb xp hw then Ok (fabs (fmul re (fcos (fmul dPA d2r))))
  else Ok (fabs (fmul a_slit (fcos (fmul dPA d2r)))).

(** misfit/plot/plot_utils.py:22-42 [pstamp_position_angle]: the two header cards, None when missing. *)
Definition pstamp_position_angle (nz : bool) (cd21 cd22 : option R) : R :=
  let a := match cd21 with Some v => v | None => 0 end in
  let b := match cd22 with Some v => v | None => 0 end in
  if Reqb b 0 && Reqb a 0 then 0
  else if Reqb b 0 then 90
  else arctan2 nz a b * 180 / PI.

(** units of pos_angle (misfit/plot/plot_utils.py:58-63) *)
Inductive angunit : Type := Degrees | Radians | OtherUnit.

(** misfit/plot/plot_utils.py:45-63 [pos_angle], for a second declination other than +-90 degrees
    (where the tangent is infinite). *)
Definition pos_angle (nz : bool) (ra1 dec1 ra2 dec2 : R) (u : angunit) : res R :=
  let radiff := ra1 - ra2 in
  let angle := arctan2 nz (- sin radiff) (cos dec1 * tan dec2 - sin dec1 * cos radiff) in
  match u with Degrees => Ok (angle * 180 / PI) | Radians => Ok angle | OtherUnit => Err ValueError end.

(** misfit/plot/plot_utils.py:65-82 [sign_from_pos_angle]: [np] says that the angle is a numpy number,
    which has a copy method; None is the value of a call that reaches its end. *)
Definition sign_from_pos_angle (np : bool) (a : fl) : res (option fl) :=
  let a := if fltb a (Fin 0) then fadd a (Fin 360) else a in
  do a <- (if fgtb a (Fin 180) then (if np then Ok (fsub (Fin 360) a) else Err AttributeError) else Ok a);
  Ok (if fgtb a (Fin 90) then Some (Fin (-1))
      else if fltb a (Fin 90) then Some (Fin 1)
      else if feqb a (Fin 90) then Some (Fin 0) else None).
(** misfit/plot/plot_utils.py:84-86 [y_sign_pos_angle] *)
Definition y_sign_pos_angle (np : bool) (a : fl) : res (option fl) := sign_from_pos_angle np a.
(** misfit/plot/plot_utils.py:88-90 [x_sign_pos_angle] *)
Definition x_sign_pos_angle (np : bool) (a : fl) : res (option fl) := sign_from_pos_angle np (fsub a (Fin 90)).

(** misfit/plot/plot_utils.py:119-132 [rot_coord_angle], for points with two coordinates *)
Definition rot_coord_angle (p : fl * fl) (th x0 y0 : fl) : fl * fl :=
  let dx := fsub (fst p) x0 in
  let dy := fsub (snd p) y0 in
  (fadd (fsub (fmul dx (fcos th)) (fmul dy (fsin th))) x0, fadd (fadd (fmul dx (fsin th)) (fmul dy (fcos th))) y0).

(** Two arrays, or two numbers. The result of misfit/plot/plot_utils.py:134-152. *)
Inductive corners : Type := CArrays (xs ys : list fl) | CNumbers (x y : fl).

(** misfit/plot/plot_utils.py:134-152 [rot_corner_coords]: with one corner the array stays
    one-dimensional, so its first two elements are numbers; with none it has no elements. *)
Definition rot_corner_coords (cs : list (fl * fl)) (th x0 y0 : fl) : res corners :=
  match map (fun c => rot_coord_angle c th x0 y0) cs with
  | [] => Err IndexError
  | [p] => Ok (CNumbers (fst p) (snd p))
  | ps => Ok (CArrays (map fst ps) (map snd ps))
  end.
(** misfit/plot/plot_utils.py:154-156 [rot_object_center] *)
Definition rot_object_center (x0 y0 : fl) (c : fl * fl) (angle : fl) : res corners :=
  rot_corner_coords [(x0, y0)] angle (fst c) (snd c).

(** One bin of box_integrate (misfit/plot/plot_image_slit.py:502-545): each part is skipped when it
    raises.  An empty selection of whole pixels is an array of floats, which cannot index. *)
Definition box_bin (xl xh y : list fl) (dx dn xn : fl) : fl * (option nat * option (list nat)) :=
  let low := fsub xn (fdiv dn (Fin 2)) in
  let high := fadd xn (fdiv dn (Fin 2)) in
  let ic := filter (fun k => memb k (where_ (fun v => fleb v high) xh)) (where_ (fun v => fgeb v low) xl) in
  let whole := match ic with
               | [] => None
               | _ => match take y ic with Ok ys => Some (fmul (fsum ys) dx) | Err _ => None end
               end in
  let il := match rev (where_ (fun v => fleb v low) xl) with k :: _ => Some k | [] => None end in
  let left := match il with
              | Some k => match getn y k, getn xh k with
                          | Ok v, Ok h => Some (fmul v (fsub h low)) | _, _ => None end
              | None => None
              end in
  let ir := match where_ (fun v => fgeb v high) xh with k :: _ => Some k | [] => None end in
  let right := match ir with
               | Some k => match getn y k, getn xl k with
                           | Ok v, Ok l => Some (fmul v (fsub high l)) | _, _ => None end
               | None => None
               end in
  let plus o a := match o with Some v => fadd a v | None => a end in
  (fdiv (plus right (plus left (plus whole (Fin 0)))) dn,
   (match left with Some _ => il | None => None end, match whole with Some _ => Some ic | None => None end)).

(** misfit/plot/plot_image_slit.py:486-550 [box_integrate].  With debug the index lists are printed
    with an integer format: ValueError for the string 'None', TypeError for an array. *)
Definition box_integrate (x y x_new : list fl) (debug : bool) : res (list fl) :=
  let dn := average (diffs x_new) in
  let dx := average (diffs x) in
  let xl := map (fun v => fsub v (fdiv dx (Fin 2))) x in
  let xh := map (fun v => fadd v (fdiv dx (Fin 2))) x in
  mapM (fun xn =>
          let b := box_bin xl xh y dx dn xn in
          if debug then Err (match snd b with (Some _, Some _) => TypeError | _ => ValueError end) else Ok (fst b)) x_new.

(** misfit/plot/plot_image_slit.py:460-481 [box_integrate_pstamp] *)
Definition box_integrate_pstamp (p : arr2 fl) (x y x_new y_new : list fl) : res (arr2 fl) :=
  do cs <- mapM (fun i => if Nat.ltb i (cols p)
                          then box_integrate y (map (fun j => at2 p j i) (seq 0 (rows p))) y_new false
                          else Err IndexError) (seq 0 (length x));
  let tmp := mk2 (length y_new) (length x) (fun j i => lnth (nth i cs []) j) in
  do rs <- mapM (fun j => box_integrate x (map (fun i => at2 tmp j i) (seq 0 (cols tmp))) x_new false)
                (seq 0 (length y_new));
  Ok (mk2 (length y_new) (length x_new) (fun j i => lnth (nth j rs []) i)).

(** What generate_mock_basis fixes about the mock: slit length, spec2D.shape, spec2D.m0 and
    spec2D.ypos, galaxy.dither, and theta with its free/fixed pattern. misfit/mock/generate_basic.py:18-117. *)
Record mock : Type := mkMock {
  k_slit : fl; k_rows : Z; k_cols : nat; k_m0 : fl; k_ypos : fl; k_dither : bool;
  k_theta : list fl; k_vary : list bool
}.

(** np.ceil *)
Definition fceil (x : fl) : fl := match x with Fin r => Fin (IZR (Rceil r)) | v => v end.

(** misfit/mock/generate_basic.py:18-109 [generate_mock_basis]: the geometry and the parameters.  A
    pixel scale of zero is not modelled as an exception. *)
Definition generate_mock (z va rt sigma0 yshift : fl) (dither : bool) (nwave : nat) (pixscale slit_length : fl)
  (nymin : Z) : res mock :=
  let slit := if fltb slit_length (fmul (Fin (IZR nymin)) pixscale) then fmul (Fin (IZR nymin)) pixscale else slit_length in
  do n <- int_ceil (fdiv slit pixscale);
  let m0 := fsub (fdiv (fceil (fdiv slit pixscale)) (Fin 2)) (Fin (1/2)) in
  Ok (mkMock slit n nwave m0 m0 false [va; rt; sigma0; yshift; z] [false; false; false; false; false]).

(** misfit/mock/generate_basic.py:116-128, misfit/model/kin_model.py:126-134: the parameters with which
    generate_mock_slit_obs and generate_mock_IFU_cube evaluate the model (theta_fitting = []). *)
Definition mock_theta (m : mock) : list fl * res unit := update_parameters (k_theta m) (k_vary m) [].
