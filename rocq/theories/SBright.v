(* Specification vocabulary: units of brightness and flux. *)
From Coq Require Import Reals List Bool Arith.
From Verif Require Import PyFloat PyBase Arr PyNum MParams MKernels MAper2D.
Import ListNotations.
Local Open Scope R_scope.

(** An image with every value multiplied by a number. *)
Definition times (k : R) (m : arr2 fl) : arr2 fl := mk2 (rows m) (cols m) (fun i j => fmul (Fin k) (at2 m i j)).

(** The same galaxy, instrument and options, with the surface brightness of the disc multiplied by [a] and the
    flux ratios of the lines multiplied by [b]. *)
Definition brighter (a b : R) (c : cfg) : cfg :=
  let g := c_gal c in let p := c_prof c in
  mkcfg (mkgal (g_q g) (g_q0 g) (g_dPA g) (g_rows g) (g_wave g) (g_m0 g) (g_rest g) (map (fmul (Fin b)) (g_ratio g)) (g_data g))
    (c_ins c) (c_opt c)
    (mkprofs (p_nvel p) (p_ndisp p) (p_vel p) (p_disp p) (fun r h => fmul (Fin a) (p_int p r h)) (p_lmfit p)).

(** The same data, flux and error expressed in a unit [u] times smaller; masks and weights as before. *)
Definition in_units (u : R) (c : cfg) : cfg :=
  let g := c_gal c in let d := g_data g in
  mkcfg (mkgal (g_q g) (g_q0 g) (g_dPA g) (g_rows g) (g_wave g) (g_m0 g) (g_rest g) (g_ratio g)
    (mkdata (times u (flux d)) (times u (ferr d)) (smask d) (fwt d) (wh_nosky d))) (c_ins c) (c_opt c) (c_prof c).

(** A Gaussian fitter that finds the same centre and width, and [a] times the height, in light [a] times as bright. *)
Definition scales_with (a : R) (fit : list fl -> list fl -> fl * fl * fl) : Prop :=
  forall xs ys A mu fw, fit xs ys = (A, mu, fw) -> fit xs (map (fmul (Fin a)) ys) = (fmul (Fin a) A, mu, fw).

(** Two constructions end alike but for brightness: the same stamp is left behind, and either both raise the same
    exception or the second image is [k] times the first. *)
Definition image_times (k : R) (p q : stamp * res aper) : Prop :=
  fst p = fst q /\
  match snd p, snd q with
  | Ok a, Ok b => a_model b = option_map (times k) (a_model a)
  | Err e, Err e' => e = e'
  | _, _ => False
  end.

(** Two fit objects that differ at most in the image they last stored. *)
Definition same_but_image (k k' : kinmodel) : Prop :=
  exists m, k' = mkkm (k_theta k) (k_vary k) (k_noscale k) (k_aper k) m (k_stamp k).

(** The number of pixels of an image a 0/1 mask leaves in the fit. *)
Definition in_fit (mask : nat -> nat -> R) (m : arr2 fl) : R := rsum2 (rows m) (cols m) mask.

(** How much brighter the model image becomes: line ratios only enter wavelength spectra. *)
Definition gain (a b : R) (c : cfg) : R := match o_spec (c_opt c) with Wave => a * b | _ => a end.
