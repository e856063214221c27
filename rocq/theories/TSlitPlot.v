(* Property theorems: the image panel with the slit (C118, C119). *)
From Coq Require Import Reals List Bool Arith ZArith.
From Verif Require Import PyFloat PyBase Arr PyNum MProf MKernels MGeom MSlitPlot SGeom SSlitPlot PSlitPlot PSlitConv.
Import ListNotations.
Local Open Scope R_scope.

(** C118: with a complete scene the panel is drawn. *)
Theorem C118_drawn : forall interp pole g o m0 rotate cs n s f imgPA serPA q re slitPA yoff pix ipix width len,
  scene_is g s f imgPA serPA q re slitPA yoff -> optics_are o pix ipix width len -> match m0 with Some (Fin _) => True | None => True | _ => False end ->
  exists P, plot_image_slit interp pole g o m0 rotate false cs n false true = Ok P.
Proof. exact drawn. Qed.
Print Assumptions C118_drawn.

(** C118: pixel (i, j) of the turned stamp shows the stamp at the position that lies from the fitted centre as the pixel lies from the drawn centre, turned by slit minus image angle. *)
Theorem C118_content : forall interp pole g o m0 cs n P s f imgPA serPA q re slitPA yoff pix ipix width len,
  plot_image_slit interp pole g o m0 true false cs n false true = Ok P -> scene_is g s f imgPA serPA q re slitPA yoff -> optics_are o pix ipix width len ->
  match m0 with Some (Fin _) => True | None => True | _ => False end ->
  rows (p_image P) = rows (g_stamp g) /\ cols (p_image P) = cols (g_stamp g) /\
  exists e axes r, p_ell P = Some ((at_ e, axes), r) /\
  forall i j, let sky := plus f (turn (rad (slitPA - imgPA)) (plus (INR j, INR i) (times (-1) e))) in at2 (p_image P) i j = interp (g_stamp g) (snd sky) (fst sky).
Proof. exact content. Qed.
Print Assumptions C118_content.

(** C118: outline, axes and ellipse of the turned panel are those of the unturned one, seen through that turn. *)
Theorem C118_one_sky : forall interp pole g o m0 cs n P Q s f imgPA serPA q re slitPA yoff pix ipix width len,
  plot_image_slit interp pole g o m0 true false cs n false true = Ok P -> plot_image_slit interp pole g o m0 false false cs n false true = Ok Q ->
  scene_is g s f imgPA serPA q re slitPA yoff -> optics_are o pix ipix width len -> match m0 with Some (Fin _) => True | None => True | _ => False end ->
  let sky := about (middle (g_stamp g)) (rad (slitPA - imgPA)) in
  (exists l, p_slit P = map at_ l /\ p_slit Q = map at_ (map sky l)) /\
  (exists l, p_major P = map at_ l /\ (p_major Q = map at_ (map sky l) \/ p_major Q = rev (map at_ (map sky l)))) /\
  (exists l, p_minor P = map at_ l /\ (p_minor Q = map at_ (map sky l) \/ p_minor Q = rev (map at_ (map sky l)))) /\
  exists e axes a bar b bar', p_ell P = Some ((at_ e, axes), (Fin a, bar)) /\ p_ell Q = Some ((at_ (sky e), axes), (Fin b, bar')) /\ half_turns (a + (slitPA - imgPA)) b.
Proof. exact one_sky. Qed.
Print Assumptions C118_one_sky.

(** C118: the outline is a sheared slit of the width and length of the instrument around the catalogue position, moved along the slit by yoffset/pixscale. *)
Theorem C118_slit : forall interp pole g o m0 (rotate convolve : bool) cs n P s f imgPA serPA q re slitPA yoff pix ipix width len fw,
  plot_image_slit interp pole g o m0 rotate convolve cs n false true = Ok P -> scene_is g s f imgPA serPA q re slitPA yoff -> optics_are o pix ipix width len ->
  match m0 with Some (Fin _) => True | None => True | _ => False end -> (if convolve then psf_fwhm (o_psf o) = Some (Fin fw) else fw = 0) ->
  let t := if rotate then 0 else rad (slitPA - imgPA) in
  let k := tan (rad (378 / 100)) in
  exists s' l, about (middle (g_stamp g)) (if rotate then rad (slitPA - imgPA) else 0) s' = s /\
    outline (plus s' (turn t (0, - (yoff / pix)))) t (width / ipix) ((len - width * k) / ipix) (width / ipix * k) l /\ p_slit P = map at_ l.
Proof. exact slit_shape. Qed.
Print Assumptions C118_slit.

(** C118: the lines and the ellipse show the axes of the fit at the fitted centre and angle; convolution adds half the PSF width in quadrature. *)
Theorem C118_axes : forall interp pole g o m0 (rotate convolve : bool) cs n P s f imgPA serPA q re slitPA yoff pix ipix width len fw,
  plot_image_slit interp pole g o m0 rotate convolve cs n false true = Ok P -> scene_is g s f imgPA serPA q re slitPA yoff -> optics_are o pix ipix width len ->
  match m0 with Some (Fin _) => True | None => True | _ => False end -> (if convolve then psf_fwhm (o_psf o) = Some (Fin fw) else fw = 0) ->
  let seen_PA := serPA - (if rotate then slitPA - imgPA else 0) in
  let wide a := if convolve then sqrt ((fw / 2) ^ 2 + a ^ 2) else a in
  exists f' ga bar, about (middle (g_stamp g)) (if rotate then rad (slitPA - imgPA) else 0) f' = f /\
    segment f' (wide re / ipix) (turn (rad seen_PA) (0, 1)) (p_major P) /\ segment f' (wide (re * q) / ipix) (turn (rad seen_PA) (1, 0)) (p_minor P) /\
    p_ell P = Some ((at_ f', (Fin (2 * (wide (re * q) / ipix)), Fin (2 * (wide re / ipix)))), (Fin ga, bar)) /\ half_turns ga seen_PA.
Proof. exact axes_at. Qed.
Print Assumptions C118_axes.

(** C118: the window is as high as the spectrum, with the fitted centre at row m0, and centred on it across; the scale bar is 1 kpc. *)
Theorem C118_window : forall interp pole g o m0 (rotate convolve : bool) cs n P s f imgPA serPA q re slitPA yoff pix ipix width len fw,
  plot_image_slit interp pole g o m0 rotate convolve cs n false true = Ok P -> scene_is g s f imgPA serPA q re slitPA yoff -> optics_are o pix ipix width len ->
  match m0 with Some (Fin _) => True | None => True | _ => False end -> (if convolve then psf_fwhm (o_psf o) = Some (Fin fw) else fw = 0) ->
  let side := match n with Some k => INR k * pix / ipix | None => 2 / ipix end in
  exists f' axes ga bar lo, p_ell P = Some ((at_ f', axes), (ga, bar)) /\ p_scale P = Fin ipix /\
    p_xlim P = (Fin (fst f' - side / 2), Fin (fst f' + side / 2)) /\ p_ylim P = (Fin lo, Fin (lo + side)) /\
    lo + match m0 with Some (Fin m) => (m + 1 / 2) * pix / ipix | _ => side / 2 end = snd f' /\
    match g_kpc g with Some (Fin k) => k <> 0 -> bar = Fin (re / k / ipix) | None => bar = Fin (25 / 100 / ipix) | _ => True end.
Proof. exact window. Qed.
Print Assumptions C118_window.

(** C118: on the pixels of the spectrograph the window holds the rows of the spectrum, the fitted centre is at row m0, and the image is box_integrate_pstamp of the stamp around it. *)
Theorem C118_rows : forall interp pole g o m (rotate : bool) cs n P s f imgPA serPA q re slitPA yoff pix ipix width len,
  plot_image_slit interp pole g o (Some (Fin m)) rotate false cs (Some n) true true = Ok P -> scene_is g s f imgPA serPA q re slitPA yoff -> optics_are o pix ipix width len ->
  let nr := Z.to_nat (Int_part (INR (rows (g_stamp g)) * ipix / pix)) in let c := ((INR nr - 1) / 2, m) in
  exists im f' s' l ga bar, let back := about (middle (g_stamp g)) (if rotate then rad (slitPA - imgPA) else 0) in
    back f' = f /\ back s' = s /\
    (if rotate then rotate_pstamp interp g = Ok im else im = g_stamp g) /\
    box_integrate_pstamp im (map (fun i => Fin ((INR i - fst f') * ipix)) (seq 0 (cols im))) (map (fun i => Fin ((INR i - snd f') * ipix)) (seq 0 (rows im)))
     (map (fun i => Fin ((INR i - fst c) * pix)) (seq 0 nr)) (map (fun i => Fin ((INR i - m) * pix)) (seq 0 nr)) = Ok (p_image P) /\
    p_scale P = Fin pix /\ p_ell P = Some ((at_ c, (Fin (2 * (re * q / pix)), Fin (2 * (re / pix)))), (ga, bar)) /\
    p_xlim P = (Fin (fst c - INR n / 2), Fin (fst c + INR n / 2)) /\ p_ylim P = (Fin (- (1 / 2)), Fin (INR n - 1 / 2)) /\
    let t := if rotate then 0 else rad (slitPA - imgPA) in let k := tan (rad (378 / 100)) in
    outline (plus (plus c (times (ipix / pix) (plus s' (times (-1) f')))) (turn t (0, - (yoff / pix)))) t (width / pix) ((len - width * k) / pix) (width / pix * k) l /\ p_slit P = map at_ l.
Proof. exact on_rows. Qed.
Print Assumptions C118_rows.

Example C118_example_scene : scene_is ex_g (3, 2) (5 / 2, 5 / 2) 10 75 (1 / 2) 1 30 (1 / 10) /\ optics_are ex_o 1 (1 / 2) (7 / 10) 8.
Proof. exact ex_scene. Qed.

Example C118_example_drawn : exists P Q, plot_image_slit ex_interp (fun _ => true) ex_g ex_o (Some (Fin 4)) true false None (Some 9%nat) false true = Ok P /\
  plot_image_slit ex_interp (fun _ => true) ex_g ex_o (Some (Fin 4)) false false None (Some 9%nat) false true = Ok Q.
Proof. exact ex_drawn. Qed.

Example C118_example_rows : exists P, plot_image_slit ex_interp (fun _ => true) ex_g ex_o (Some (Fin 4)) false false None (Some 9%nat) true true = Ok P.
Proof. exact ex_rows. Qed.

(** C118 refuted: on the pixels of the imager the slit is not moved by yoffset. *)
Theorem C118_offset_refuted : forall interp pole g o m0 (rotate : bool) cs n P s f imgPA serPA q re slitPA yoff pix ipix width len,
  plot_image_slit interp pole g o m0 rotate false cs n false true = Ok P -> scene_is g s f imgPA serPA q re slitPA yoff -> optics_are o pix ipix width len ->
  match m0 with Some (Fin _) => True | None => True | _ => False end -> yoff <> 0 -> pix <> ipix ->
  let t := if rotate then 0 else rad (slitPA - imgPA) in
  forall s' l w h k, about (middle (g_stamp g)) (if rotate then rad (slitPA - imgPA) else 0) s' = s -> p_slit P = map at_ l ->
    ~ outline (plus s' (turn t (0, - (yoff / ipix)))) t w h k l.
Proof. exact offset_wrong. Qed.
Print Assumptions C118_offset_refuted.

(** C118 refuted: without the fit nothing is drawn. *)
Theorem C118_no_fit_refuted : forall interp pole g o m0 rotate convolve cs n down show P,
  show = false \/ g_re g = None -> plot_image_slit interp pole g o m0 rotate convolve cs n down show <> Ok P.
Proof. exact no_fit. Qed.
Print Assumptions C118_no_fit_refuted.

(** C118 refuted: nor without a slit length or a 2-D spectrum. *)
Theorem C118_no_slit_refuted : forall interp pole g o m0 rotate convolve cs n down show P,
  g_yoff g = None \/ o_len o = None -> plot_image_slit interp pole g o m0 rotate convolve cs n down show <> Ok P.
Proof. exact no_length. Qed.
Print Assumptions C118_no_slit_refuted.

(** C119: the convolved stamp keeps the light, and is the turned stamp moved by d and smeared with a Gaussian of width conv_sigma. *)
Theorem C119_spread : forall interp g o rot m n F s slitPA ipix sg,
  rotate_pstamp interp g = Ok rot -> image_is rot m n F -> has_light m n F -> g_sci g = at_ (plus s (1, 1)) -> g_pa2 g = Some (Fin slitPA) ->
  o_ipix o = Fin ipix -> psf_fam (o_psf o) = PsfGaussian -> psf_dither (o_psf o) = None -> 0 < sg ->
  let d := plus (about (middle (g_stamp g)) (- rad slitPA) s) (times (-1) (INR ((n - 1) / 2), INR ((m - 1) / 2))) in
  exists im A, convolve_rot_gal interp g o (Fin sg) = Ok im /\ 0 < A /\ image_is im m n (fun r c => A * smeared m n F ipix sg d r c) /\
    rsum2 m n (fun r c => A * smeared m n F ipix sg d r c) = rsum2 m n F.
Proof. exact spread. Qed.
Print Assumptions C119_spread.

(** C119: with the object in the middle of a stamp with odd sides nothing is moved. *)
Theorem C119_centred : forall interp g o rot m n F slitPA ipix sg,
  rotate_pstamp interp g = Ok rot -> rows (g_stamp g) = S (2 * m) -> cols (g_stamp g) = S (2 * n) ->
  image_is rot (S (2 * m)) (S (2 * n)) F -> has_light (S (2 * m)) (S (2 * n)) F -> g_sci g = at_ (plus (middle (g_stamp g)) (1, 1)) -> g_pa2 g = Some (Fin slitPA) ->
  o_ipix o = Fin ipix -> psf_fam (o_psf o) = PsfGaussian -> psf_dither (o_psf o) = None -> 0 < sg ->
  exists im A, convolve_rot_gal interp g o (Fin sg) = Ok im /\ 0 < A /\ image_is im (S (2 * m)) (S (2 * n)) (fun r c => A * smeared (S (2 * m)) (S (2 * n)) F ipix sg (0, 0) r c).
Proof. exact spread_centred. Qed.
Print Assumptions C119_centred.

(** C119 refuted: with the kernel centre more than half a pixel to the right of the middle, a point source appears brighter in the next column than at its own place. *)
Theorem C119_displaced_refuted : forall interp g o rot m n F s slitPA ipix sg p q,
  rotate_pstamp interp g = Ok rot -> image_is rot m n F -> g_sci g = at_ (plus s (1, 1)) -> g_pa2 g = Some (Fin slitPA) ->
  o_ipix o = Fin ipix -> psf_fam (o_psf o) = PsfGaussian -> psf_dither (o_psf o) = None -> 0 < sg -> 0 < ipix ->
  (p < m)%nat -> (S q < n)%nat -> 0 < F p q -> (forall i j, (i < m)%nat -> (j < n)%nat -> (i, j) <> (p, q) -> F i j = 0) ->
  1 / 2 < fst (plus (about (middle (g_stamp g)) (- rad slitPA) s) (times (-1) (INR ((n - 1) / 2), INR ((m - 1) / 2)))) ->
  exists im f, convolve_rot_gal interp g o (Fin sg) = Ok im /\ image_is im m n f /\ f p q < f p (S q).
Proof. exact displaced. Qed.
Print Assumptions C119_displaced_refuted.

Example C119_example_displaced : exists im f, convolve_rot_gal ex_spot ex_s ex_o (Fin (1 / 5)) = Ok im /\ image_is im 3 3 f /\ f 1%nat 1%nat < f 1%nat 2%nat.
Proof. exact ex_displaced. Qed.
