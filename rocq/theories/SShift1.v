(* Specification: the 1-D rotation model with a velocity shift along the slit. *)
From Coq Require Import Reals List.
From Verif Require Import PyFloat PyBase MKernels MAper2D MAper1D SAper1D.
Import ListNotations.
Local Open Scope R_scope.

(** The same options with the position-dependent velocity shift switched on. *)
Definition shifted (o : ropt) : ropt :=
  mkropt (t_npix o) (t_method o) (t_ew o) (t_rad o) (t_xc o) (t_yc o) (t_pad o) (t_ratio o) (t_va o) (t_rt o) true
    (t_eff o) (t_int o).

(** A shift that is a bounded function of the coordinate along the slit. *)
Definition shift_along (f : R -> R) (shift : grid1r -> stamp -> res (list fl)) : Prop :=
  (exists M, forall y, Rabs (f y) <= M) /\
  forall g st ys, e_y g = map Fin ys -> shift g st = Ok (map (fun y => Fin (f y)) ys).

(** An average, over the padded window, of dispersion and shifted line-of-sight speed in quadrature. *)
Definition shift_average (va rt sg a i W H xc yc P : R) (f : R -> R) (s : R) : Prop :=
  0 <= s /\
  forall lo hi, 0 <= lo ->
    (forall x y z, Rabs (x + xc) <= W / 2 + P -> Rabs (y + yc) <= H / 2 + P -> Rabs z <= H / 2 ->
       lo <= sqrt ((speed va rt a i x y z + f y) ^ 2 + sg ^ 2) <= hi) ->
    lo <= s <= hi.
