(* Specification vocabulary: units and frame of the wavelengths of a 2-D fit. *)
From Coq Require Import Reals List Bool Arith.
From Verif Require Import PyFloat PyBase Arr PyNum MParams MKernels MAper2D.
Import ListNotations.
Local Open Scope R_scope.

(** The same galaxy with the wavelengths of the spectrum multiplied by [u] and the tabulated wavelengths of the
    lines by [v]. *)
Definition in_frame (u v : R) (c : cfg) : cfg :=
  let g := c_gal c in
  mkcfg (mkgal (g_q g) (g_q0 g) (g_dPA g) (g_rows g) (map (fmul (Fin u)) (g_wave g)) (g_m0 g) (map (fmul (Fin v)) (g_rest g)) (g_ratio g) (g_data g))
    (c_ins c) (c_opt c) (c_prof c).

(** A redshift that puts the lines at the same place of the spectrum. *)
Definition same_place (u v : R) (z z' : fl) : Prop := fmul (Fin v) (fadd (Fin 1) z') = fmul (Fin u) (fadd (Fin 1) z).

(** Parameters that differ in their last entry only, the redshift, in this way; velocity and dispersion parameters come before. *)
Definition moved (u v : R) (c : cfg) (th th' : list fl) : Prop :=
  exists l z z', th = l ++ [z] /\ th' = l ++ [z'] /\ (p_nvel (c_prof c) + p_ndisp (c_prof c) <= length l)%nat /\ same_place u v z z'.

(** The model with other starting parameters. *)
Definition with_theta (th : list fl) (k : kinmodel) : kinmodel := mkkm th (k_vary k) (k_noscale k) (k_aper k) (k_model k) (k_stamp k).
