(* Property theorems: slit geometry, box integration, rotations, mocks (C63, C68-C71, C95-C98). *)
From Coq Require Import Reals List Bool Arith ZArith.
From Verif Require Import PyFloat PyBase Arr PyNum MParams MAper1D MFit1D MTrim MGeom SGeom PGeom PGeom2 PGeom3 PGeom4 PGeom5 PGeomEx.
Import ListNotations.
Local Open Scope R_scope.

(** C63: the offset angle lies in [-90,90] and is the difference of the angles up to half turns. *)
Theorem C63_offset : forall pole g p s i, angles g p s i -> exists g' d, slit_offset pole g = (g', Ok tt) /\
  same_angles g g' /\ a_dPA g' = Some (Fin d) /\ a_abs g' = Some (Fin (Rabs d)) /\
  -90 <= d <= 90 /\ half_turns d (p - (s - i)).
Proof. exact slit_offset_ok. Qed.
Print Assumptions C63_offset.

(** C63: half turns of any of the angles change nothing but possibly the sign of a right angle. *)
Theorem C63_half_turns : forall pole g1 g2 g1' g2' p1 s1 i1 p2 s2 i2 d1 d2, angles g1 p1 s1 i1 -> angles g2 p2 s2 i2 ->
  half_turns p1 p2 -> half_turns s1 s2 -> half_turns i1 i2 ->
  slit_offset pole g1 = (g1', Ok tt) -> slit_offset pole g2 = (g2', Ok tt) ->
  a_dPA g1' = Some (Fin d1) -> a_dPA g2' = Some (Fin d2) ->
  Rabs d1 = Rabs d2 /\ a_abs g1' = a_abs g2' /\ (Rabs d1 < 90 -> d1 = d2).
Proof. exact slit_offset_same. Qed.
Print Assumptions C63_half_turns.

Theorem C63_perpendicular : forall pole g p s i,
  angles g p s i -> (Rabs (val match a_dPA (fst (slit_offset pole g)) with Some d => d | None => NaN end) = 90 <->
  exists k : Z, p - (s - i) = 90 + 180 * IZR k).
Proof. exact slit_perpendicular. Qed.
Print Assumptions C63_perpendicular.

(** C63: generated models keep the offset given, and need one. *)
Theorem C63_generated : forall pole g, a_gen g = true ->
  (forall d, a_dPA g = Some (Fin d) -> exists g', slit_offset pole g = (g', Ok tt) /\ same_angles g g' /\
     a_dPA g' = Some (Fin d) /\ a_abs g' = Some (Fin (Rabs d))) /\
  (a_dPA g = None -> slit_offset pole g = (g, Err TypeError)).
Proof. exact slit_generate. Qed.
Print Assumptions C63_generated.

Example C63_example : angles (ex_gal 30 10 0) 30 10 0 /\ angles (ex_gal 210 10 0) 210 10 0 /\ half_turns 210 30 /\
  exists d, a_dPA (fst (slit_offset (fun _ => false) (ex_gal 30 10 0))) = Some (Fin d) /\ d = 20.
Proof. exact ex_slit. Qed.

Example C63_generated_example : let g := mkSlitgal true None None None (Some (Fin (-30))) None in
  a_gen g = true /\ a_dPA g = Some (Fin (-30)).
Proof. exact ex_slit_generate. Qed.

(** C68: bins at least as wide as a pixel, none of whose ends is a pixel edge, hold the mean of the image in the bin. *)
Theorem C68_bin_mean : forall x ys xn x0 d n y u0 D m, regular x x0 d n -> sampled ys y n -> regular xn u0 D m -> d <= D ->
  exists l, box_integrate x ys xn false = Ok l /\ length l = m /\
  forall j, (j < m)%nat -> meets x0 d n (lo_edge u0 D j) (hi_edge u0 D j) -> no_shared_edge x0 d n (lo_edge u0 D j) (hi_edge u0 D j) ->
  nth_error l j = Some (Fin (box_mean x0 d n y (lo_edge u0 D j) (hi_edge u0 D j))).
Proof. exact box_mean_spec. Qed.
Print Assumptions C68_bin_mean.

(** C68: such bins, when they cover the image, hold all of its flux. *)
Theorem C68_conserved : forall x ys xn x0 d n y u0 D m, regular x x0 d n -> sampled ys y n -> regular xn u0 D m -> d <= D ->
  (forall j, (j < m)%nat -> meets x0 d n (lo_edge u0 D j) (hi_edge u0 D j) /\ no_shared_edge x0 d n (lo_edge u0 D j) (hi_edge u0 D j)) ->
  lo_edge u0 D 0 <= lo_edge x0 d 0 -> hi_edge x0 d (n - 1) <= hi_edge u0 D (m - 1) ->
  exists v : nat -> R, box_integrate x ys xn false = Ok (map (fun j => Fin (v j)) (seq 0 m)) /\
  rsumn m (fun j => v j * D) = rsumn n (fun k => y k * d).
Proof. exact box_conserves. Qed.
Print Assumptions C68_conserved.

(** C68: the same in two dimensions. *)
Theorem C68_image : forall p x y xn yn x0 dx n y0 dy m u0 Dx k v0 Dy q (f : nat -> nat -> R),
  regular x x0 dx n -> regular y y0 dy m -> regular xn u0 Dx k -> regular yn v0 Dy q ->
  rows p = m -> cols p = n -> (forall i j, (i < m)%nat -> (j < n)%nat -> at2 p i j = Fin (f i j)) -> dx <= Dx -> dy <= Dy ->
  exists r, box_integrate_pstamp p x y xn yn = Ok r /\ rows r = q /\ cols r = k /\
  forall a b, (a < q)%nat -> (b < k)%nat ->
    meets y0 dy m (lo_edge v0 Dy a) (hi_edge v0 Dy a) -> no_shared_edge y0 dy m (lo_edge v0 Dy a) (hi_edge v0 Dy a) ->
    meets x0 dx n (lo_edge u0 Dx b) (hi_edge u0 Dx b) -> no_shared_edge x0 dx n (lo_edge u0 Dx b) (hi_edge u0 Dx b) ->
    at2 r a b = Fin (rsumn m (fun i => rsumn n (fun j => f i j *
      (overlap (lo_edge y0 dy i) (hi_edge y0 dy i) (lo_edge v0 Dy a) (hi_edge v0 Dy a) *
       overlap (lo_edge x0 dx j) (hi_edge x0 dx j) (lo_edge u0 Dx b) (hi_edge u0 Dx b)))) / (Dx * Dy)).
Proof. exact box_image. Qed.
Print Assumptions C68_image.

(** C68: on its own grid a profile is tripled. *)
Theorem C68_same_grid_refuted : forall x ys x0 d n y, regular x x0 d n -> sampled ys y n ->
  exists l, box_integrate x ys x false = Ok l /\ length l = n /\ forall j, (j < n)%nat -> nth_error l j = Some (Fin (3 * y j)).
Proof. exact box_same_grid. Qed.
Print Assumptions C68_same_grid_refuted.

(** C68: a bin within one pixel is overestimated. *)
Theorem C68_within_pixel_refuted : forall x ys xn x0 d n y u0 D m, regular x x0 d n -> sampled ys y n -> regular xn u0 D m ->
  exists l, box_integrate x ys xn false = Ok l /\ length l = m /\
  forall j, (j < m)%nat -> forall k, (k < n)%nat -> lo_edge x0 d k < lo_edge u0 D j -> hi_edge u0 D j < hi_edge x0 d k ->
  nth_error l j = Some (Fin (y k * (1 + d / D))).
Proof. exact box_within_pixel. Qed.
Print Assumptions C68_within_pixel_refuted.

(** C68: bins beyond the image get the opposite of extrapolated edge pixels. *)
Theorem C68_outside_refuted : forall x ys xn x0 d n y u0 D m, regular x x0 d n -> sampled ys y n -> regular xn u0 D m ->
  exists l, box_integrate x ys xn false = Ok l /\ length l = m /\
  (forall j, (j < m)%nat -> hi_edge x0 d (n - 1) <= lo_edge u0 D j ->
   nth_error l j = Some (Fin (- (y (n - 1)%nat * ((lo_edge u0 D j - hi_edge x0 d (n - 1)) / D))))) /\
  (forall j, (j < m)%nat -> hi_edge u0 D j <= lo_edge x0 d 0 ->
   nth_error l j = Some (Fin (- (y 0%nat * ((lo_edge x0 d 0 - hi_edge u0 D j) / D))))).
Proof. exact box_outside. Qed.
Print Assumptions C68_outside_refuted.

(** C68: the debug option always fails. *)
Theorem C68_debug_fails : forall x y v xn,
  exists e, box_integrate x y (v :: xn) true = Err e /\ (e = TypeError \/ e = ValueError).
Proof. exact box_debug. Qed.
Print Assumptions C68_debug_fails.

Example C68_example : regular ex_x 0 1 4 /\ sampled ex_y (fun i => INR i + 1) 4 /\ regular ex_u (1/4) (9/4) 2 /\ 1 <= 9/4 /\
  exists v0 v1, box_integrate ex_x ex_y ex_u false = Ok [Fin v0; Fin v1] /\ v0 * (9/4) + v1 * (9/4) = 10.
Proof. exact ex_box. Qed.

Example C68_example_edges : (forall j, (j < 2)%nat -> meets 0 1 4 (lo_edge (1/4) (9/4) j) (hi_edge (1/4) (9/4) j) /\
   no_shared_edge 0 1 4 (lo_edge (1/4) (9/4) j) (hi_edge (1/4) (9/4) j)) /\
  lo_edge (1/4) (9/4) 0 <= lo_edge 0 1 0 /\ hi_edge 0 1 (4 - 1) <= hi_edge (1/4) (9/4) (2 - 1).
Proof. exact ex_edges. Qed.

Example C68_example_image : exists r, box_integrate_pstamp ex_img ex_x ex_x ex_u ex_u = Ok r /\ rows r = 2%nat /\ cols r = 2%nat /\ exists v, at2 r 0 0 = Fin v.
Proof. exact ex_image. Qed.

Example C68_example_outside : regular ex_out 5 1 2 /\ exists l, box_integrate ex_x ex_y ex_out false = Ok l /\ nth_error l 0 = Some (Fin (-4)).
Proof. exact ex_outside. Qed.

Example C68_example_within : regular ex_fine 1 (1/4) 2 /\ exists l, box_integrate ex_x ex_y ex_fine false = Ok l /\ nth_error l 0 = Some (Fin 10).
Proof. exact ex_within. Qed.

(** C69: rotation about a centre. *)
Theorem C69_rotation : forall x y th x0 y0,
  exists x' y', rot_coord_angle (Fin x, Fin y) (Fin th) (Fin x0) (Fin y0) = (Fin x', Fin y') /\
  x' - x0 = (x - x0) * cos th - (y - y0) * sin th /\ y' - y0 = (x - x0) * sin th + (y - y0) * cos th /\
  dist2 x' y' x0 y0 = dist2 x y x0 y0 /\
  rot_coord_angle (Fin x', Fin y') (Fin (- th)) (Fin x0) (Fin y0) = (Fin x, Fin y).
Proof. exact rot_spec. Qed.
Print Assumptions C69_rotation.

Theorem C69_composition : forall p a b x0 y0, (exists x y, p = (Fin x, Fin y)) ->
  rot_coord_angle (rot_coord_angle p (Fin a) (Fin x0) (Fin y0)) (Fin b) (Fin x0) (Fin y0) = rot_coord_angle p (Fin (a + b)) (Fin x0) (Fin y0).
Proof. exact rot_compose. Qed.
Print Assumptions C69_composition.

Theorem C69_corners : forall cs th x0 y0, (2 <= length cs)%nat ->
  rot_corner_coords cs th x0 y0 = Ok (CArrays (map (fun c => fst (rot_coord_angle c th x0 y0)) cs) (map (fun c => snd (rot_coord_angle c th x0 y0)) cs)).
Proof. exact rot_corners. Qed.
Print Assumptions C69_corners.

Theorem C69_centre : forall x0 y0 c th, rot_object_center x0 y0 c th =
  Ok (CNumbers (fst (rot_coord_angle (x0, y0) th (fst c) (snd c))) (snd (rot_coord_angle (x0, y0) th (fst c) (snd c)))).
Proof. exact rot_center. Qed.
Print Assumptions C69_centre.

(** C69: signs of position angles. *)
Theorem C69_sign : forall a, -360 <= a <= 360 -> exists s, is_sign (cos (rad a)) s /\
  y_sign_pos_angle true (Fin a) = Ok (Some (Fin s)) /\
  y_sign_pos_angle false (Fin a) = (if Rlt_dec 180 (if Rlt_dec a 0 then a + 360 else a) then Err AttributeError else Ok (Some (Fin s))).
Proof. exact sign_spec. Qed.
Print Assumptions C69_sign.

Theorem C69_x_sign : forall a,
  -270 <= a <= 450 -> exists s, is_sign (sin (rad a)) s /\ x_sign_pos_angle true (Fin a) = Ok (Some (Fin s)).
Proof. exact x_sign_spec. Qed.
Print Assumptions C69_x_sign.

(** C69: wrong beyond one turn. *)
Theorem C69_sign_refuted : y_sign_pos_angle true (Fin 540) = Ok (Some (Fin 1)) /\ cos (rad 540) = -1.
Proof. exact sign_refuted. Qed.
Print Assumptions C69_sign_refuted.

Example C69_example : rot_coord_angle (Fin 2, Fin 1) (Fin (PI / 2)) (Fin 1) (Fin 1) = (Fin 1, Fin 2).
Proof. exact ex_rot. Qed.

Example C69_example_sign : y_sign_pos_angle true (Fin 200) = Ok (Some (Fin (-1))) /\ y_sign_pos_angle false (Fin 200) = Err AttributeError.
Proof. exact ex_sign. Qed.

(** C70: the extent is the largest projected offset of a point of the major axis inside the slit. *)
Theorem C70_longest : forall re a w, 0 <= w -> exists v, y_proj_major_inslit (Fin re) (Fin a) (Some (Fin w)) = Ok (Fin v) /\
  (exists t, Rabs t <= Rabs re /\ Rabs (t * sin (rad a)) <= w / 2 /\ v = Rabs (t * cos (rad a))) /\
  (forall t, Rabs t <= Rabs re -> Rabs (t * sin (rad a)) <= w / 2 -> Rabs (t * cos (rad a)) <= v).
Proof. exact inslit_spec. Qed.
Print Assumptions C70_longest.

Theorem C70_full : forall re a w v, 0 <= w -> y_proj_major_inslit (Fin re) (Fin a) (Some (Fin w)) = Ok (Fin v) ->
  exists full, y_proj_major (Fin re) (Fin a) = Fin full /\ 0 <= v <= full /\
  (Rabs (re * sin (rad a)) <= w / 2 -> v = full).
Proof. exact inslit_full. Qed.
Print Assumptions C70_full.

Theorem C70_monotone : forall re1 re2 a w1 w2 v1 v2, 0 <= w1 <= w2 -> Rabs re1 <= Rabs re2 ->
  y_proj_major_inslit (Fin re1) (Fin a) (Some (Fin w1)) = Ok (Fin v1) ->
  y_proj_major_inslit (Fin re2) (Fin a) (Some (Fin w2)) = Ok (Fin v2) -> v1 <= v2.
Proof. exact inslit_monotone. Qed.
Print Assumptions C70_monotone.

Theorem C70_shrink : forall re1 re2 a w v1 v2, 0 <= w -> Rabs re1 <= Rabs re2 ->
  y_proj_major_inslit (Fin re1) (Fin a) (Some (Fin w)) = Ok (Fin v1) ->
  y_proj_major_inslit (Fin re2) (Fin a) (Some (Fin w)) = Ok (Fin v2) -> v2 - v1 <= Rabs re2 - Rabs re1.
Proof. exact inslit_shrink. Qed.
Print Assumptions C70_shrink.

Theorem C70_continuous : forall re1 re2 a w v1 v2, 0 <= w ->
  y_proj_major_inslit (Fin re1) (Fin a) (Some (Fin w)) = Ok (Fin v1) ->
  y_proj_major_inslit (Fin re2) (Fin a) (Some (Fin w)) = Ok (Fin v2) -> Rabs (v1 - v2) <= Rabs (re1 - re2).
Proof. exact inslit_continuous. Qed.
Print Assumptions C70_continuous.

Example C70_example : exists v, y_proj_major_inslit (Fin 2) (Fin 90) (Some (Fin 1)) = Ok (Fin v) /\ v = 0.
Proof. exact ex_inslit. Qed.

(** C71, C98: size, centre and parameters of a mock; the dither option is ignored. *)
Theorem C71_mock : forall z va rt s0 ys dither nw pix slit nymin, 0 < pix -> exists m,
  generate_mock (Fin z) (Fin va) (Fin rt) (Fin s0) (Fin ys) dither nw (Fin pix) (Fin slit) nymin = Ok m /\
  (nymin <= k_rows m)%Z /\ k_cols m = nw /\
  (exists L, k_slit m = Fin L /\ slit <= L /\ IZR nymin * pix <= L /\ (IZR (k_rows m) - 1) * pix < L <= IZR (k_rows m) * pix) /\
  (IZR nymin * pix <= slit -> k_slit m = Fin slit) /\
  k_m0 m = Fin ((IZR (k_rows m) - 1) / 2) /\ k_ypos m = k_m0 m /\ k_dither m = false /\
  mock_theta m = ([Fin va; Fin rt; Fin s0; Fin ys; Fin z], Ok tt).
Proof. exact mock_spec. Qed.
Print Assumptions C71_mock.

Example C71_example : exists m, generate_mock (Fin 2) (Fin 200) (Fin (1/2)) (Fin 50) (Fin 0) true 100 (Fin (1/5)) (Fin 7) 40 = Ok m /\
  k_rows m = 40%Z /\ k_m0 m = Fin (39 / 2) /\ k_dither m = false.
Proof. exact ex_mock. Qed.

(** C95: the projected size is the radius of the ellipse in the direction of the slit. *)
Theorem C95_on_ellipse : forall re a q, 0 < re -> 0 < q -> exists y, y_proj_phys (Fin re) (Fin a) (Fin q) = Fin y /\ 0 < y /\
  (y * cos (rad a) / re) ^ 2 + (y * sin (rad a) / (q * re)) ^ 2 = 1 /\ Rmin 1 q * re <= y <= Rmax 1 q * re.
Proof. exact y_proj_phys_spec. Qed.
Print Assumptions C95_on_ellipse.

Theorem C95_other_axis : forall re a q, x_proj_phys (Fin re) (Fin a) (Fin q) = y_proj_phys (Fin re) (Fin (90 - a)) (Fin q).
Proof. exact x_proj_phys_spec. Qed.
Print Assumptions C95_other_axis.

Theorem C95_unproject : forall re a y, y_proj_major (Fin re) (Fin a) = y ->
  (cos (rad a) <> 0 -> r_unproj_major y (Fin a) = Fin (Rabs re)).
Proof. exact unproject. Qed.
Print Assumptions C95_unproject.

Theorem C95_components : forall re a x y,
  x_proj_major (Fin re) (Fin a) = Fin x -> y_proj_major (Fin re) (Fin a) = Fin y -> x ^ 2 + y ^ 2 = re ^ 2.
Proof. exact pythagoras. Qed.
Print Assumptions C95_components.

Example C95_example : exists y, y_proj_phys (Fin 3) (Fin 0) (Fin (1/2)) = Fin y /\ y = 3.
Proof. exact ex_phys. Qed.

(** C96: position angle of an image from its header. *)
Theorem C96_angle : forall nz a b, b <> 0 \/ 0 < a -> direction (rad (pstamp_position_angle nz (Some a) (Some b))) b a.
Proof. exact pstamp_angle. Qed.
Print Assumptions C96_angle.

Theorem C96_missing : forall nz, pstamp_position_angle nz None None = 0 /\ pstamp_position_angle nz (Some 0) (Some 0) = 0.
Proof. exact pstamp_none. Qed.
Print Assumptions C96_missing.

(** C96: wrong when cd22 is zero and cd21 negative. *)
Theorem C96_refuted : forall nz, pstamp_position_angle nz (Some (-1)) (Some 0) = 90 /\ ~ direction (rad 90) 0 (-1).
Proof. exact pstamp_refuted. Qed.
Print Assumptions C96_refuted.

Example C96_example : forall nz, pstamp_position_angle nz (Some 1) (Some 1) * PI / 180 = PI / 4.
Proof. exact ex_pstamp. Qed.

(** C97: the position angle of a second point is its bearing from the first. *)
Theorem C97_bearing : forall nz ra1 d1 ra2 d2, 0 < cos d2 ->
  let e := cos d2 * sin (ra2 - ra1) in
  let n := cos d1 * sin d2 - sin d1 * cos d2 * cos (ra2 - ra1) in
  n <> 0 \/ e <> 0 ->
  exists t, pos_angle nz ra1 d1 ra2 d2 Radians = Ok t /\ direction t n e /\
    pos_angle nz ra1 d1 ra2 d2 Degrees = Ok (t * 180 / PI) /\ pos_angle nz ra1 d1 ra2 d2 OtherUnit = Err ValueError.
Proof. exact pos_angle_direction. Qed.
Print Assumptions C97_bearing.

Theorem C97_shift : forall nz ra1 d1 ra2 d2 c u, pos_angle nz (ra1 + c) d1 (ra2 + c) d2 u = pos_angle nz ra1 d1 ra2 d2 u.
Proof. exact pos_angle_shift. Qed.
Print Assumptions C97_shift.

(** C97: a direction determines its angle. *)
Theorem C97_unique : forall t1 t2 x y, direction t1 x y -> direction t2 x y -> - PI < t1 -> - PI < t2 -> t1 = t2.
Proof. exact direction_unique. Qed.
Print Assumptions C97_unique.

Example C97_example : forall nz, exists t, pos_angle nz 0 0 (PI / 4) 0 Radians = Ok t /\ t = PI / 2.
Proof. exact ex_bearing. Qed.

(** C98: whether dithering is asked for makes no difference to the geometry and parameters of a mock. *)
Theorem C98_dither_refuted : forall z va rt s0 ys nw pix slit nymin,
  generate_mock z va rt s0 ys true nw pix slit nymin = generate_mock z va rt s0 ys false nw pix slit nymin /\
  forall d m, generate_mock z va rt s0 ys d nw pix slit nymin = Ok m -> k_dither m = false.
Proof. exact mock_dither. Qed.
Print Assumptions C98_dither_refuted.

Example C98_example : exists m, generate_mock (Fin 2) (Fin 200) (Fin (1/2)) (Fin 50) (Fin 0) true 100 (Fin (1/5)) (Fin 7) 40 = Ok m /\
  k_rows m = 40%Z /\ k_m0 m = Fin (39 / 2) /\ k_dither m = false.
Proof. exact ex_mock. Qed.
