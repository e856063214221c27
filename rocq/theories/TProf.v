(* Properties C17-C23: geometry, profiles and PSF stamps. *)
From Coq Require Import Reals List Bool Arith ZArith Lra Lia.
From Verif Require Import PyFloat PyBase Arr PyNum MKernels MAper2D MProf SProf PProf PProf2.
Import ListNotations.
Local Open Scope R_scope.

(* ---------------- C17 ---------------- *)

(** Lengths and angles are preserved: inner products are. *)
Theorem C17_isometry : forall x y z x' y' z' a i X Y Z X' Y' Z',
  transform_int_3d (Fin x) (Fin y) (Fin z) (Fin a) (Fin i) = (Fin X, Fin Y, Fin Z) ->
  transform_int_3d (Fin x') (Fin y') (Fin z') (Fin a) (Fin i) = (Fin X', Fin Y', Fin Z') ->
  X * X' + Y * Y' + Z * Z' = x * x' + y * y' + z * z'.
Proof. exact tr_dot. Qed.
Print Assumptions C17_isometry.

(** Orientation is preserved: cross products are. *)
Theorem C17_orientation : forall x y z x' y' z' a i X Y Z X' Y' Z',
  transform_int_3d (Fin x) (Fin y) (Fin z) (Fin a) (Fin i) = (Fin X, Fin Y, Fin Z) ->
  transform_int_3d (Fin x') (Fin y') (Fin z') (Fin a) (Fin i) = (Fin X', Fin Y', Fin Z') ->
  transform_int_3d (Fin (y * z' - z * y')) (Fin (z * x' - x * z')) (Fin (x * y' - y * x'))
    (Fin a) (Fin i) =
  (Fin (Y * Z' - Z * Y'), Fin (Z * X' - X * Z'), Fin (X * Y' - Y * X')).
Proof. exact tr_cross. Qed.
Print Assumptions C17_orientation.

Theorem C17_invertible : forall X Y Z a i,
  exists x y z, transform_int_3d (Fin x) (Fin y) (Fin z) (Fin a) (Fin i) = (Fin X, Fin Y, Fin Z)
  /\ forall x' y' z', transform_int_3d (Fin x') (Fin y') (Fin z') (Fin a) (Fin i)
       = (Fin X, Fin Y, Fin Z) -> x' = x /\ y' = y /\ z' = z.
Proof. exact tr_inverse. Qed.
Print Assumptions C17_invertible.

Theorem C17_identity : forall x y z,
  transform_int_3d (Fin x) (Fin y) (Fin z) (Fin 0) (Fin 0) = (Fin x, Fin y, Fin z).
Proof. exact tr_id. Qed.
Print Assumptions C17_identity.

Theorem C17_compose : forall x y z a b X Y Z,
  transform_int_3d (Fin x) (Fin y) (Fin z) (Fin a) (Fin 0) = (Fin X, Fin Y, Fin Z) ->
  transform_int_3d (Fin X) (Fin Y) (Fin Z) (Fin b) (Fin 0) =
  transform_int_3d (Fin x) (Fin y) (Fin z) (Fin (a + b)) (Fin 0).
Proof. exact tr_compose. Qed.
Print Assumptions C17_compose.

(** Position angles turn counter-clockwise from the y axis towards negative x: the sky
    direction at that angle is the disc's major axis. *)
Theorem C17_major_axis : forall a i r,
  let t := a * (PI / 180) in
  transform_int_3d (Fin (- r * sin t)) (Fin (r * cos t)) (Fin 0) (Fin a) (Fin i) =
  (Fin 0, Fin r, Fin 0).
Proof. exact tr_major. Qed.
Print Assumptions C17_major_axis.

(** A disc point at azimuth p and height z, seen at inclination i. *)
Theorem C17_disc : forall i r p z,
  transform_int_3d (Fin (r * sin p * cos i - z * sin i)) (Fin (r * cos p))
                   (Fin (r * sin p * sin i + z * cos i)) (Fin 0) (Fin i) =
  (Fin (r * sin p), Fin (r * cos p), Fin z).
Proof. exact tr_disc. Qed.
Print Assumptions C17_disc.

(** Position angle 90 degrees: the sky point (-1,0) lies on the major axis. *)
Example C17_example : transform_int_3d (Fin (-1)) (Fin 0) (Fin 0) (Fin 90) (Fin 1) = (Fin 0, Fin 1, Fin 0).
Proof.
  pose proof (C17_major_axis 90 1 1) as H. cbv zeta in H.
  replace (90 * (PI / 180)) with (PI / 2) in H by field. rewrite sin_PI2, cos_PI2 in H.
  replace (- (1) * 1) with (-1) in H by ring. replace (1 * 0) with 0 in H by ring. exact H.
Qed.

(* ---------------- C18 ---------------- *)

Theorem C18_sin_range : forall q q0, 0 <= q0 -> q0 < 1 -> 0 <= q -> q <= 1 ->
  exists s, sin_i (Fin q) (Fin q0) = Fin s /\ 0 <= s <= 1 /\
            (q <= q0 -> s = 1) /\ (q = 1 -> s = 0) /\
            (q0 <= q -> s * s * (1 - q0 * q0) = 1 - q * q).
Proof. exact sin_i_range. Qed.
Print Assumptions C18_sin_range.

Theorem C18_sin_decreasing : forall q q' q0 s s', 0 <= q0 -> q0 < 1 -> 0 <= q -> q <= 1 -> q' <= 1 ->
  q < q' -> q0 < q' ->
  sin_i (Fin q) (Fin q0) = Fin s -> sin_i (Fin q') (Fin q0) = Fin s' -> s' < s.
Proof. exact sin_i_decreasing. Qed.
Print Assumptions C18_sin_decreasing.

Theorem C18_angle_consistent : forall q q0, 0 <= q0 -> q0 < 1 -> q0 <= q -> q <= 1 ->
  exists i, inclination_angle (Fin q) (Fin q0) = Fin i /\ 0 <= i <= PI / 2 /\
            sin_i (Fin q) (Fin q0) = Fin (sin i).
Proof. exact incl_consistent. Qed.
Print Assumptions C18_angle_consistent.

(** Flatter than the assumed thickness the two functions disagree: sin_i clips to edge-on,
    inclination_angle is nan. *)
Theorem C18_thin_refuted : forall q q0, 0 <= q -> q < q0 -> q0 < 1 ->
  inclination_angle (Fin q) (Fin q0) = NaN /\ sin_i (Fin q) (Fin q0) = Fin 1.
Proof. exact incl_thin_nan. Qed.
Print Assumptions C18_thin_refuted.

(** An axis ratio above one has no inclination in either function. *)
Theorem C18_invalid_angle : forall q q0, 0 <= q0 -> q0 < 1 -> 1 < q ->
  inclination_angle (Fin q) (Fin q0) = NaN.
Proof. exact incl_invalid. Qed.
Print Assumptions C18_invalid_angle.

Theorem C18_invalid_ratio : forall q q0, 0 <= q0 -> q0 < 1 -> 1 < q -> sin_i (Fin q) (Fin q0) = NaN.
Proof. exact sin_i_invalid. Qed.
Print Assumptions C18_invalid_ratio.

(** q = 0.6 for an infinitely thin disc: sin i = 0.8. *)
Example C18_example : sin_i (Fin (3/5)) (Fin 0) = Fin (4/5).
Proof.
  destruct (C18_sin_range (3/5) 0) as (s & E & B & _ & _ & D); try lra.
  rewrite E. f_equal. specialize (D ltac:(lra)).
  assert ((s - 4/5) * (s + 4/5) = 0) as K by nra.
  apply Rmult_integral in K. destruct K; lra.
Qed.

(* ---------------- C19 ---------------- *)

Theorem C19_odd : forall va rt r z l v, 0 < rt ->
  vel_arctan (Fin va :: Fin rt :: l) (Fin r) z = Fin v ->
  vel_arctan (Fin va :: Fin rt :: l) (Fin (- r)) z = Fin (- v).
Proof. exact vel_odd. Qed.
Print Assumptions C19_odd.

Theorem C19_bounded : forall va rt r z l, 0 < rt -> va <> 0 ->
  exists v, vel_arctan (Fin va :: Fin rt :: l) (Fin r) z = Fin v /\ Rabs v < Rabs va.
Proof. exact vel_bound. Qed.
Print Assumptions C19_bounded.

Theorem C19_increasing : forall va rt r r' z l v v', 0 < rt -> 0 < va -> r < r' ->
  vel_arctan (Fin va :: Fin rt :: l) (Fin r) z = Fin v ->
  vel_arctan (Fin va :: Fin rt :: l) (Fin r') z = Fin v' -> v < v'.
Proof. exact vel_increasing. Qed.
Print Assumptions C19_increasing.

Theorem C19_turnover : forall va rt z l, 0 < rt ->
  vel_arctan (Fin va :: Fin rt :: l) (Fin rt) z = Fin (va / 2).
Proof. exact vel_turnover. Qed.
Print Assumptions C19_turnover.

Theorem C19_linear : forall va rt r z l k v, 0 < rt ->
  vel_arctan (Fin va :: Fin rt :: l) (Fin r) z = Fin v ->
  vel_arctan (Fin (k * va) :: Fin rt :: l) (Fin r) z = Fin (k * v).
Proof. exact vel_scales. Qed.
Print Assumptions C19_linear.

Theorem C19_asymptote : forall va rt z l eps, 0 < rt -> 0 < eps ->
  exists R0, forall r, R0 <= r -> exists v,
    vel_arctan (Fin va :: Fin rt :: l) (Fin r) z = Fin v /\ Rabs (v - va) <= eps.
Proof. exact vel_asymptote. Qed.
Print Assumptions C19_asymptote.

(** The lower prior bound r_t = 0 is a step that is undefined at the centre. *)
Theorem C19_zero_turnover : forall va z l,
  vel_arctan (Fin va :: Fin 0 :: l) (Fin 0) z = NaN /\
  (forall r, 0 < r -> vel_arctan (Fin va :: Fin 0 :: l) (Fin r) z = Fin va).
Proof. exact vel_rt_zero. Qed.
Print Assumptions C19_zero_turnover.

(** (V_a, r_t) and (-V_a, -r_t) describe the same curve. *)
Theorem C19_sign_degeneracy : forall va rt r z l, rt <> 0 ->
  vel_arctan (Fin (- va) :: Fin (- rt) :: l) (Fin r) z =
  vel_arctan (Fin va :: Fin rt :: l) (Fin r) z.
Proof. exact vel_degenerate. Qed.
Print Assumptions C19_sign_degeneracy.

Example C19_example : vel_arctan [Fin 200; Fin (1/2)] (Fin (1/2)) (Fin 0) = Fin 100.
Proof. rewrite C19_turnover by lra. f_equal. field. Qed.

(* ---------------- C20 ---------------- *)

Theorem C20_sersic : forall Ie n re, 0 < Ie -> 162 / 1000 < n -> 0 < re ->
  (forall r, 0 <= r -> exists v, sersic_int (Fin Ie) (Fin n) (Fin re) (Fin r) = Ok (Fin v) /\ 0 < v) /\
  sersic_int (Fin Ie) (Fin n) (Fin re) (Fin re) = Ok (Fin Ie) /\
  (forall r r' v v', 0 <= r -> r < r' ->
     sersic_int (Fin Ie) (Fin n) (Fin re) (Fin r) = Ok (Fin v) ->
     sersic_int (Fin Ie) (Fin n) (Fin re) (Fin r') = Ok (Fin v') -> v' < v).
Proof. exact sersic_props. Qed.
Print Assumptions C20_sersic.

(** For n below 0.162 the profile brightens with radius. *)
Theorem C20_small_n_refuted : forall Ie n re r r' v v',
  0 < Ie -> 0 < n -> n < 162 / 1000 -> 0 < re -> 0 <= r -> r < r' ->
  sersic_int (Fin Ie) (Fin n) (Fin re) (Fin r) = Ok (Fin v) ->
  sersic_int (Fin Ie) (Fin n) (Fin re) (Fin r') = Ok (Fin v') -> v < v'.
Proof. exact sersic_small_n. Qed.
Print Assumptions C20_small_n_refuted.

Theorem C20_vertical : forall z0, 0 < z0 ->
  expz_int (Fin z0) (Fin 0) = Fin 1 /\
  expz_int (Fin z0) (Fin z0) = Fin (exp (-1)) /\
  (forall z, expz_int (Fin z0) (Fin (- z)) = expz_int (Fin z0) (Fin z)) /\
  (forall z z' v v', Rabs z < Rabs z' -> expz_int (Fin z0) (Fin z) = Fin v ->
     expz_int (Fin z0) (Fin z') = Fin v' -> 0 < v' /\ v' < v).
Proof. exact expz_props. Qed.
Print Assumptions C20_vertical.

(** The two composed profiles at R_e: I_e in the midplane, I_e/e at the scale height, which
    is q0 R_e in the first and q0 R_e/1.676 in the second. *)
Theorem C20_composed : forall Ie n re q0, 0 < Ie -> 162 / 1000 < n -> 0 < re -> 0 < q0 ->
  int_fiducial (Fin Ie) (Fin n) (Fin re) (Fin q0) (Fin re) (Fin 0) = Ok (Fin Ie) /\
  int_fiducial (Fin Ie) (Fin n) (Fin re) (Fin q0) (Fin re) (Fin (q0 * re)) = Ok (Fin (Ie * exp (-1))) /\
  int_expscale (Fin Ie) (Fin n) (Fin re) (Fin q0) (Fin re) (Fin (q0 * (re / (1676/1000)))) = Ok (Fin (Ie * exp (-1))).
Proof. exact int_fiducial_props. Qed.
Print Assumptions C20_composed.

Theorem C20_I_sersic : forall re n rc, 162 / 1000 < n -> 0 < re -> 0 <= rc ->
  (forall r Ie k v, 0 <= r -> I_sersic (Fin r) (Fin re) (Fin n) (Fin Ie) (Fin rc) = Ok (Fin v) ->
     I_sersic (Fin r) (Fin re) (Fin n) (Fin (k * Ie)) (Fin rc) = Ok (Fin (k * v))) /\
  (forall r Ie, 0 <= r -> 0 < Ie -> exists v,
     I_sersic (Fin r) (Fin re) (Fin n) (Fin Ie) (Fin rc) = Ok (Fin v) /\ 0 < v) /\
  (forall r r' Ie v v', 0 <= r -> r < r' -> 0 < Ie ->
     I_sersic (Fin r) (Fin re) (Fin n) (Fin Ie) (Fin rc) = Ok (Fin v) ->
     I_sersic (Fin r') (Fin re) (Fin n) (Fin Ie) (Fin rc) = Ok (Fin v') -> v' < v) /\
  (forall r Ie, rc * re <= r ->
     I_sersic (Fin (r - rc * re)) (Fin re) (Fin n) (Fin Ie) (Fin rc) =
     sersic_int (Fin Ie) (Fin n) (Fin re) (Fin r)).
Proof. exact I_sersic_props. Qed.
Print Assumptions C20_I_sersic.

Example C20_example : sersic_int (Fin 1) (Fin 1) (Fin (1/2)) (Fin (1/2)) = Ok (Fin 1).
Proof. apply C20_sersic; lra. Qed.

(* ---------------- C21 ---------------- *)

Theorem C21_gaussian : forall p xs ys F arg, psf_fam p = PsfGaussian -> psf_dither p = None ->
  (match arg with Some v => Some v | None => psf_fwhm p end) = Some (Fin F) -> 0 < F ->
  exists st, generate_conv_stamp p (map Fin xs) (map Fin ys) arg = Ok (Some st) /\ bell F xs ys st.
Proof. exact gauss_bell. Qed.
Print Assumptions C21_gaussian.

Theorem C21_moffat : forall p xs ys F beta arg, psf_fam p = PsfMoffat (Some (Fin beta)) ->
  (match arg with Some v => Some v | None => psf_fwhm p end) = Some (Fin F) -> 0 < F -> 1 < beta ->
  exists st, generate_conv_stamp p (map Fin xs) (map Fin ys) arg = Ok (Some st) /\ bell F xs ys st.
Proof. exact moffat_bell. Qed.
Print Assumptions C21_moffat.

(** For 0 < beta <= 1 the normalisation (beta-1) makes the stamp non-positive, and zero
    everywhere at beta = 1. *)
Theorem C21_low_beta_refuted : forall p xs ys F beta arg, psf_fam p = PsfMoffat (Some (Fin beta)) ->
  (match arg with Some v => Some v | None => psf_fwhm p end) = Some (Fin F) -> 0 < F ->
  0 < beta -> beta <= 1 ->
  exists st, generate_conv_stamp p (map Fin xs) (map Fin ys) arg = Ok (Some st) /\
    forall j i, (j < length ys)%nat -> (i < length xs)%nat ->
      exists v, at2 st j i = Fin v /\ v <= 0 /\ (beta = 1 -> v = 0) /\ (beta < 1 -> v < 0).
Proof. exact moffat_low_beta. Qed.
Print Assumptions C21_low_beta_refuted.

Example C21_example : exists st,
  generate_conv_stamp (mkpsf (PsfMoffat (Some (Fin (5/2)))) (Some (Fin (6/10))) None)
    (map Fin [0; 3/10]) (map Fin [0]) None = Ok (Some st) /\ bell (6/10) [0; 3/10] [0] st.
Proof. apply (C21_moffat _ _ _ _ (5/2)); cbn; try reflexivity; lra. Qed.

(* ---------------- C22 ---------------- *)

(** The dithered Gaussian stamp is the plain one minus half of its two displaced copies. *)
Theorem C22_gaussian : forall p q xs ys F d arg,
  psf_fam p = PsfGaussian -> psf_fam q = PsfGaussian ->
  psf_dither p = Some (Fin d) -> psf_dither q = None ->
  (match arg with Some v => Some v | None => psf_fwhm p end) = Some (Fin F) ->
  (match arg with Some v => Some v | None => psf_fwhm q end) = Some (Fin F) -> 0 < F ->
  exists st s0 su sl,
    generate_conv_stamp p (map Fin xs) (map Fin ys) arg = Ok (Some st) /\
    generate_conv_stamp q (map Fin xs) (map Fin ys) arg = Ok (Some s0) /\
    generate_conv_stamp q (map Fin xs) (map Fin (map (fun y => y - d) ys)) arg = Ok (Some su) /\
    generate_conv_stamp q (map Fin xs) (map Fin (map (fun y => y + d) ys)) arg = Ok (Some sl) /\
    forall j i, (j < length ys)%nat -> (i < length xs)%nat -> exists a b c,
      at2 s0 j i = Fin a /\ at2 su j i = Fin b /\ at2 sl j i = Fin c /\
      at2 st j i = Fin (a - (b + c) / 2).
Proof. exact gauss_dither. Qed.
Print Assumptions C22_gaussian.

(** The offset has no effect on a Moffat PSF object. *)
Theorem C22_moffat_refuted : forall p x y arg d,
  (exists b, psf_fam p = PsfMoffat b) ->
  generate_conv_stamp (mkpsf (psf_fam p) (psf_fwhm p) d) x y arg = generate_conv_stamp p x y arg.
Proof. exact moffat_dither_ignored. Qed.
Print Assumptions C22_moffat_refuted.

(** With offset 0 the dithered stamp should vanish; the Moffat object returns a positive one. *)
Example C22_example :
  exists st st', generate_conv_stamp (mkpsf (PsfMoffat (Some (Fin 2))) (Some (Fin 1)) (Some (Fin 0))) [Fin 0] [Fin 0] None
     = Ok (Some st) /\
  st' = psf_stamp_moffat [Fin 0] [Fin 0] (Fin (moffat_alpha 1 2)) (Fin 2) (Some (Fin 0)) /\
  (exists v, at2 st 0 0 = Fin v /\ 0 < v) /\ at2 st' 0 0 = Fin 0.
Proof. exact moffat_dither_differs. Qed.

(* ---------------- C23 ---------------- *)

Theorem C23_gauss_layout : forall x y fwhm dith,
  rows (psf_stamp_gauss x y fwhm dith) = length y /\
  cols (psf_stamp_gauss x y fwhm dith) = length x /\
  forall j i, (j < length y)%nat -> (i < length x)%nat ->
    at2 (psf_stamp_gauss x y fwhm dith) j i =
    at2 (psf_stamp_gauss [lnth x i] [lnth y j] fwhm dith) 0 0.
Proof. exact gauss_stamp_layout. Qed.
Print Assumptions C23_gauss_layout.

Theorem C23_moffat_layout : forall x y alpha beta dith,
  rows (psf_stamp_moffat x y alpha beta dith) = length y /\
  cols (psf_stamp_moffat x y alpha beta dith) = length x /\
  forall j i, (j < length y)%nat -> (i < length x)%nat ->
    at2 (psf_stamp_moffat x y alpha beta dith) j i =
    at2 (psf_stamp_moffat [lnth x i] [lnth y j] alpha beta dith) 0 0.
Proof. exact moffat_stamp_layout. Qed.
Print Assumptions C23_moffat_layout.

(** Any PSF_type other than Moffat selects the Gaussian; a missing one is a KeyError. *)
Theorem C23_family_choice : forall ty fwhm dither beta,
  (ty = None -> instrument_psf ty fwhm dither beta = Err KeyError) /\
  (forall t, ty = Some t -> exists p, instrument_psf ty fwhm dither beta = Ok p /\
     psf_fwhm p = fwhm /\ psf_dither p = dither /\
     (t <> TyMoffat -> psf_fam p = PsfGaussian) /\
     (t = TyMoffat -> exists b, psf_fam p = PsfMoffat b)).
Proof. exact psf_choice. Qed.
Print Assumptions C23_family_choice.

Example C23_example :
  at2 (psf_stamp_gauss [Fin 0; Fin 1; Fin 2] [Fin 5; Fin 0] (Fin 1) None) 1 0 = Fin 1.
Proof.
  pose proof (gauss_stamp_value [0;1;2] [5;0] 1 None 1 0) as H. cbn [map option_map] in H.
  rewrite H by (simpl; lia || lra). f_equal. unfold gauss_of. cbn [nth].
  replace (0 * 0 + 0 * 0) with 0 by ring. apply gprof_0.
Qed.
