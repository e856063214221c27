(* Specification vocabulary for slit geometry, plot rotations, box integration and mocks. *)
From Coq Require Import Reals List Bool Arith ZArith.
From Verif Require Import PyFloat PyBase Arr MGeom.
Import ListNotations.
Local Open Scope R_scope.

(** Radians of an angle in degrees. *)
Definition rad (a : R) : R := a * PI / 180.

(** Two angles in degrees differ by half turns. *)
Definition half_turns (a b : R) : Prop := exists k : Z, a - b = 180 * IZR k.

(** A galaxy with the angles set: galaxy [p], slit [s], image [i]. *)
Definition angles (g : slitgal) (p s i : R) : Prop :=
  a_gen g = false /\ a_spec g = Some (Some (Fin s)) /\ a_stamp g = Some (Some (Fin i)) /\ a_sersic g = Some (Fin p).

(** The angles given are untouched. *)
Definition same_angles (g g' : slitgal) : Prop :=
  a_gen g' = a_gen g /\ a_spec g' = a_spec g /\ a_stamp g' = a_stamp g /\ a_sersic g' = a_sersic g.

(** Euclidean distance squared. *)
Definition dist2 (x y x' y' : R) : R := (x - x') ^ 2 + (y - y') ^ 2.

(** [s] is the sign of [v]. *)
Definition is_sign (v s : R) : Prop := (0 < v -> s = 1) /\ (v = 0 -> s = 0) /\ (v < 0 -> s = -1).

(** [t] is the direction of the vector ([x], [y]), within one turn. *)
Definition direction (t x y : R) : Prop := - PI <= t <= PI /\ exists r, 0 < r /\ x = r * cos t /\ y = r * sin t.

(** Length of the intersection of [a,b] and [c,e]. *)
Definition overlap (a b c e : R) : R := Rmax 0 (Rmin b e - Rmax a c).

(** [l] is the regular grid of [n] points from [x0] in steps of [d]. *)
Definition regular (l : list fl) (x0 d : R) (n : nat) : Prop :=
  l = map (fun i => Fin (x0 + INR i * d)) (seq 0 n) /\ (2 <= n)%nat /\ 0 < d.

(** Edges of pixel (or bin) [i] of such a grid. *)
Definition lo_edge (x0 d : R) (i : nat) : R := x0 + INR i * d - d / 2.
Definition hi_edge (x0 d : R) (i : nat) : R := x0 + INR i * d + d / 2.

(** The image is sampled at [n] points with values [y]. *)
Definition sampled (l : list fl) (y : nat -> R) (n : nat) : Prop := l = map (fun i => Fin (y i)) (seq 0 n).

(** The interval touches the image. *)
Definition meets (x0 d : R) (n : nat) (a b : R) : Prop := a < hi_edge x0 d (n - 1) /\ lo_edge x0 d 0 < b.

(** Neither end of the interval is an edge of a pixel. *)
Definition no_shared_edge (x0 d : R) (n : nat) (a b : R) : Prop :=
  forall k, (k < n)%nat -> a <> lo_edge x0 d k /\ a <> hi_edge x0 d k /\ b <> lo_edge x0 d k /\ b <> hi_edge x0 d k.

(** Mean surface brightness of the (zero-extended) image in the interval. *)
Definition box_mean (x0 d : R) (n : nat) (y : nat -> R) (a b : R) : R :=
  rsumn n (fun k => y k * overlap (lo_edge x0 d k) (hi_edge x0 d k) a b) / (b - a).
