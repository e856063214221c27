(* Specification vocabulary: a model on a finer wavelength grid. *)
From Coq Require Import Reals List Bool Arith.
From Verif Require Import PyFloat PyBase Arr MKernels MAper2D SAper2D.
Import ListNotations.
Local Open Scope R_scope.

(** Mean step of a list of wavelengths. *)
Definition mean_gap (l : list R) : R := (last l 0 - hd 0 l) / (INR (length l) - 1).
(** [f] wavelengths for each one of [l], evenly spaced: as many steps before the middle of a block as after it. *)
Definition fine_grid (l : list R) (f : nat) : list R :=
  map (fun k => hd 0 l - (mean_gap l - mean_gap l / INR f) / 2 + INR k * (mean_gap l / INR f)) (seq 0 (length l * f)).
(** The same model on the wavelengths [l], without up-sampling and without a floor of the dispersion. *)
Definition on_grid (l : list R) (c : cfg) : cfg :=
  let g := c_gal c in let o := c_opt c in
  mkcfg (mkgal (g_q g) (g_q0 g) (g_dPA g) (g_rows g) (map Fin l) (g_m0 g) (g_rest g) (g_ratio g) (g_data g)) (c_ins c)
    (mkopts (o_nsub o) (o_pad o) (o_rebin o) (o_shift o) (o_eff o) (o_xc o) (o_spec o) (o_abs o) false (o_factor o) false) (c_prof c).
(** Rows of an image on sub-pixels that make up one row of the detector. *)
Definition sub_rows (c : cfg) : nat := if o_rebin (c_opt c) then 1%nat else o_nsub (c_opt c).
