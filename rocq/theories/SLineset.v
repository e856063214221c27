(* Specification vocabulary: the same galaxy with another list of emission lines. *)
From Coq Require Import Reals List Bool Arith.
From Verif Require Import PyFloat PyBase Arr PyNum MParams MKernels MAper2D.
Import ListNotations.
Local Open Scope R_scope.

(** The same galaxy, instrument, options and profiles with other rest wavelengths and flux ratios. *)
Definition with_lines (rest ratio : list fl) (c : cfg) : cfg :=
  let g := c_gal c in
  mkcfg (mkgal (g_q g) (g_q0 g) (g_dPA g) (g_rows g) (g_wave g) (g_m0 g) rest ratio (g_data g)) (c_ins c) (c_opt c) (c_prof c).
