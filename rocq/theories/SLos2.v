(* Specification vocabulary: a configuration without the options that alter the dispersion. *)
From Coq Require Import Reals List Bool Arith.
From Verif Require Import PyFloat PyBase Arr PyNum MAper2D.
Local Open Scope R_scope.

(** The same configuration with absvalsigma and sigma_floor switched off. *)
Definition plain_sigma (c : cfg) : cfg :=
  let o := c_opt c in
  mkcfg (c_gal c) (c_ins c)
    (mkopts (o_nsub o) (o_pad o) (o_rebin o) (o_shift o) (o_eff o) (o_xc o) (o_spec o) false
            (o_adapt o) (o_factor o) false) (c_prof c).

(** One evaluation up to the spectral cube: KinProfile.update_theta, then calculate_spectral_cube. *)
Definition cube_run (c : cfg) (a : aper) : aper * res unit := bindS (update_theta c) (fun _ => calculate_spectral_cube c) a.
