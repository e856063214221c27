(* Model: the image panel with the slit (misfit/plot/plot_image_slit.py:38-456, misfit/plot/plot_utils.py:93-116, 162-237). *)
From Coq Require Import Reals List Bool Arith ZArith.
From Verif Require MFit1D.
From Verif Require Import PyFloat PyBase Arr PyNum MProf MKernels MGeom.
Import ListNotations.
Local Open Scope R_scope.

(** What the panel reads from the galaxy: the stamp; pixel positions of RA/DEC and sersicRA/sersicDEC with the FITS origin (oracle:
    astropy's world-to-pixel conversion of the stamp header); img_PA, sersicPA, q; re_arcsec and re_kpc if they exist; slit_PA and
    yoffset of spec2D if there is such a spectrum; slit_PA of spec1D.  misfit/plot/plot_image_slit.py:66-116, 287-301. *)
Record scene : Type := mkScene {
  g_stamp : arr2 fl; g_sci : fl * fl; g_ser : fl * fl; g_imgPA : fl; g_serPA : fl; g_q : fl; g_re : option fl; g_kpc : option fl;
  g_pa2 : option fl; g_yoff : option fl; g_pa1 : option fl }.

(** What it reads from the instruments: pixel scale, slit width and length, PSF; pixel scale and PSF width of the imager.
    misfit/plot/plot_image_slit.py:82-86, 228, 283-288. *)
Record optics : Type := mkOptics { o_pix : fl; o_width : fl; o_len : option fl; o_psf : psf; o_ipix : fl; o_ifwhm : fl }.

(** The panel: image, slit outline (x and y of five corners), lines for minor and major axis, ellipse (centre, full axes, angle) with
    the scale bar length, and limits (misfit/plot/plot_image_slit.py:238-450). *)
Record panel : Type := mkPanel {
  p_image : arr2 fl; p_scale : fl; p_slit : list (fl * fl); p_minor : list (fl * fl); p_major : list (fl * fl);
  p_ell : option (((fl * fl) * (fl * fl)) * (fl * fl)); p_xlim : fl * fl; p_ylim : fl * fl }.

(** galaxy.spec2D.slit_PA - galaxy.pstamp.img_PA, else the same with spec1D (misfit/plot/plot_image_slit.py:130-135, 293-298,
    misfit/plot/plot_utils.py:102-110) *)
Definition slit_on_image (g : scene) : res fl :=
  match g_pa2 g with
  | Some a => Ok (fsub a (g_imgPA g))
  | None => match g_pa1 g with Some a => Ok (fsub a (g_imgPA g)) | None => Err AttributeError end
  end.
(** misfit/plot/plot_utils.py:186-189: the slit angle on the sky *)
Definition slit_on_sky (g : scene) : res fl :=
  match g_pa2 g with Some a => Ok a | None => match g_pa1 g with Some a => Ok a | None => Err AttributeError end end.

(** cent_pix: column and row of the middle of the stamp (misfit/plot/plot_image_slit.py:115-116, misfit/plot/plot_utils.py:178-179) *)
Definition cent_pix (a : arr2 fl) : fl * fl := (Fin ((INR (cols a) - 1) / 2), Fin ((INR (rows a) - 1) / 2)).

(** scipy.ndimage rotate(image, angle, axes=(1,0), reshape=False, order=5): pixel (r, c) of the result is the image interpolated at
    the position turned about the middle; [interp] is the spline interpolation at (row, column).  misfit/plot/plot_utils.py:112-114. *)
Definition scipyrotate (interp : arr2 fl -> R -> R -> fl) (a : arr2 fl) (angle : fl) : arr2 fl :=
  mk2 (rows a) (cols a) (fun r c =>
    match angle with
    | Fin d =>
        let t := d * (PI / 180) in
        let cr := (INR (rows a) - 1) / 2 in
        let cc := (INR (cols a) - 1) / 2 in
        interp a (cos t * (INR r - cr) + sin t * (INR c - cc) + cr) (- sin t * (INR r - cr) + cos t * (INR c - cc) + cc)
    | _ => NaN
    end).
(** misfit/plot/plot_utils.py:93-116 [rotate_pstamp] *)
Definition rotate_pstamp (interp : arr2 fl -> R -> R -> fl) (g : scene) : res (arr2 fl) :=
  do a <- slit_on_image g;
  Ok (scipyrotate interp (g_stamp g) a).

(** rot_object_center as used for one object (misfit/plot/plot_image_slit.py:138-141, misfit/plot/plot_utils.py:192-193) *)
Definition turned (p : fl * fl) (c : fl * fl) (deg : fl) : res (fl * fl) :=
  do k <- rot_object_center (fst p) (snd p) c (fmul (fmul (Fin (-1)) deg) d2r);
  match k with CNumbers x y => Ok (x, y) | CArrays _ _ => Err TypeError end.

(** minus one: from the FITS origin to array indices (misfit/plot/plot_image_slit.py:107-112) *)
Definition less1 (p : fl * fl) : fl * fl := (fsub (fst p) (Fin 1), fsub (snd p) (Fin 1)).

(** np.sum of an image (misfit/plot/plot_utils.py:204, 228) *)
Definition total (a : arr2 fl) : fl := fsumn (rows a) (fun i => fsumn (cols a) (fun j => at2 a i j)).

(** misfit/plot/plot_utils.py:162-237 [convolve_rot_gal]; fftconvolve of an image with None is a ValueError *)
Definition convolve_rot_gal (interp : arr2 fl -> R -> R -> fl) (g : scene) (o : optics) (sigma : fl) : res (arr2 fl) :=
  do pa <- slit_on_sky g;
  do k <- turned (less1 (g_sci g)) (cent_pix (g_stamp g)) pa;
  do rot <- rotate_pstamp interp g;
  let off n c := map (fun i => fmul (fsub (Fin (INR i)) c) (o_ipix o)) (seq 0 n) in
  do st <- generate_conv_stamp (o_psf o) (off (cols rot) (fst k)) (off (rows rot) (snd k)) (Some (fmul sigma (Fin fwhm_factor)));
  do ker <- (match st with Some k => Ok k | None => Err ValueError end);
  let cv := conv2 rot ker in
  Ok (mk2 (rows cv) (cols cv) (fun i j => fmul (at2 cv i j) (fdiv (total rot) (total cv)))).

(** The list of corner positions after rot_corner_coords (misfit/plot/plot_image_slit.py:316-317, 391-401) *)
Definition points (c : corners) : list (fl * fl) :=
  match c with CArrays xs ys => combine xs ys | CNumbers x y => [(x, y)] end.

(** np.int(np.floor(x)) (misfit/plot/plot_image_slit.py:175) *)
Definition int_floor (x : fl) : res Z :=
  match x with Fin r => Ok (Int_part r) | NaN => Err ValueError | _ => Err OverflowError end.
(** Down-sampling (misfit/plot/plot_image_slit.py:161-226): image and positions on the pixels of the spectrograph.  [m0] None cannot
    be subtracted. *)
Definition downsampled (o : optics) (m0 : option fl) (im : arr2 fl) (gal sci : fl * fl) : res (arr2 fl * ((fl * fl) * (fl * fl))) :=
  let orig n c := map (fun i => fmul (fsub (Fin (INR i)) c) (o_ipix o)) (seq 0 n) in
  do n <- int_floor (fdiv (fmul (Fin (INR (rows im))) (o_ipix o)) (o_pix o));
  do _ <- (if Z.ltb n 0 then Err ValueError else Ok tt);
  do yc <- (match m0 with Some m => Ok m | None => Err TypeError end);
  let xc := fdiv (fsub (Fin (IZR n)) (Fin 1)) (Fin 2) in
  let new c := map (fun i => fmul (fsub (Fin (INR i)) c) (o_pix o)) (seq 0 (Z.to_nat n)) in
  do im' <- box_integrate_pstamp im (orig (cols im) (fst gal)) (orig (rows im) (snd gal)) (new xc) (new yc);
  let tr c c' x := fadd (fdiv (fmul (fsub x c) (o_ipix o)) (o_pix o)) c' in
  let tp p := (tr (fst gal) xc (fst p), tr (snd gal) yc (snd p)) in
  Ok (im', (tp gal, tp sci)).

(** misfit/plot/plot_image_slit.py:228-450: limits, slit outline and ellipse for an image of pixel scale [ps] with the fitted centre at
    ([x0], [y0]) and the catalogue position at ([xs], [ys]).  [pole]: see ftan. *)
Definition draw (pole : R -> bool) (g : scene) (o : optics) (m0 : option fl) (rotate convolve plot_galfit : bool) (n_spatial : option nat)
    (ps : fl) (im : arr2 fl) (x0 y0 xs ys : fl) : res panel :=
  let orig := fdiv (Fin 2) ps in
  let size := match n_spatial with
              | Some n => let want := fmul (Fin (INR n)) (o_pix o) in
                          if feqb (fmul orig ps) want then orig else fdiv want ps
              | None => orig
              end in
  let half := fdiv size (Fin 2) in
  let xlim := (fsub x0 half, fadd x0 half) in
  let ylo := fsub y0 half in
  let yhi := fadd y0 half in
  let ylim := match m0 with
              | Some m => let d := fsub (fsub y0 ylo) (fdiv (fmul (fadd m (Fin (1/2))) (o_pix o)) ps) in (fadd ylo d, fadd yhi d)
              | None => (ylo, yhi)
              end in
  do ang <- (if rotate then Ok (Fin 0) else slit_on_image g);
  do yo <- (match g_yoff g with Some y => Ok (fdiv y (o_pix o)) | None => Err AttributeError end);
  do len <- (match o_len o with Some l => Ok l | None => Err TypeError end);
  let hw := fdiv (fmul (Fin (1/2)) (o_width o)) ps in
  let hl := fdiv (fmul (Fin (1/2)) len) ps in
  let shear := fmul (fdiv (o_width o) ps) (ftan pole (fmul (Fin (378/100)) d2r)) in
  let cor (sx sy : bool) := (if sx then fadd xs hw else fsub xs hw, if sy then fadd (fsub ys yo) hl else fsub (fsub ys yo) hl) in
  let p11 := (fst (cor false false), fadd (snd (cor false false)) shear) in
  let p22 := (fst (cor true true), fsub (snd (cor true true)) shear) in
  do slit <- rot_corner_coords [p11; cor true false; p22; cor false true; p11] (fmul ang d2r) xs ys;
  if plot_galfit then
    do ga <- (if rotate then do a <- slit_on_image g; Ok (fsub (g_serPA g) a) else Ok (g_serPA g));
    let ga := fdiv (fmul (fatan (ftan pole (fdiv (fmul ga (Fin PI)) (Fin 180)))) (Fin 180)) (Fin PI) in
    let a := match g_re g with Some r => r | None => NaN end in
    let b := fmul a (g_q g) in
    let s2 := fsqrt (fmul (Fin 2) (Fin (ln 2))) in
    do ab <- (if convolve then
                match psf_fwhm (o_psf o) with
                | Some f => let c := fdiv f (Fin fwhm_factor) in
                            let wide s := fmul (fsqrt (fadd (fsq c) (fsq (fdiv s s2)))) s2 in
                            Ok (wide a, wide b)
                | None => Err TypeError
                end
              else Ok (a, b));
    let am := fdiv (fst ab) ps in
    let bm := fdiv (snd ab) ps in
    do minor <- rot_corner_coords [(fsub x0 bm, y0); (fadd x0 bm, y0)] (fmul ga d2r) x0 y0;
    do major <- rot_corner_coords [(x0, fsub y0 am); (x0, fadd y0 am)] (fmul ga d2r) x0 y0;
    let bar := match g_kpc g with
               | Some k => fmul (fmul (Fin 1) (fdiv a k)) (fdiv (Fin 1) ps)
               | None => fdiv (Fin (25/100)) ps
               end in
    Ok (mkPanel im ps (points slit) (points minor) (points major)
          (Some (((x0, y0), (fdiv (fmul (Fin 2) (snd ab)) ps, fdiv (fmul (Fin 2) (fst ab)) ps)), (ga, bar))) xlim ylim)
  else Ok (mkPanel im ps (points slit) [] [] None xlim ylim).

(** misfit/plot/plot_image_slit.py:38-456 [plot_image_slit], the positions drawn.  Colours, titles and printing are left out; conv_sigma
    None stands for the crude case (82-86).  Without plot_galfit the name x0_galfit does not exist. *)
Definition plot_image_slit (interp : arr2 fl -> R -> R -> fl) (pole : R -> bool) (g : scene) (o : optics) (m0 : option fl) (rotate convolve : bool)
    (conv_sigma : option fl) (n_spatial : option nat) (downsample show_galfit : bool) : res panel :=
  let plot_galfit := match g_re g with Some _ => show_galfit | None => false end in
  do sigma <- (match conv_sigma with
               | Some s => Ok s
               | None => if convolve then
                           match psf_fwhm (o_psf o) with
                           | Some f => Ok (fdiv (fsqrt (fsub (fsq f) (fsq (o_ifwhm o)))) (Fin fwhm_factor))
                           | None => Err TypeError
                           end
                         else Ok NaN
               end);
  let sci := less1 (g_sci g) in
  let galfit := if plot_galfit then Ok (less1 (g_ser g)) else Err UnboundLocalError in
  let cent := cent_pix (g_stamp g) in
  do v <- (if rotate then
             do im <- (if convolve then convolve_rot_gal interp g o sigma else rotate_pstamp interp g);
             do a <- slit_on_image g;
             do p <- galfit;
             do x <- turned p cent a;
             do y <- turned sci cent a;
             Ok (im, (x, y))
           else
             do p <- galfit;
             Ok (g_stamp g, (p, sci)));
  do w <- (if downsample then downsampled o m0 (fst v) (fst (snd v)) (snd (snd v)) else Ok v);
  draw pole g o m0 rotate convolve plot_galfit n_spatial (if downsample then o_pix o else o_ipix o) (fst w)
    (fst (fst (snd w))) (snd (fst (snd w))) (fst (snd (snd w))) (snd (snd (snd w))).
