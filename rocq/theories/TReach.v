(* Property theorems: how far in wavelength the light of a disc reaches (C134). *)
From Coq Require Import Reals List Bool Arith ZArith.
From Verif Require MProf.
From Verif Require Import PyFloat PyBase Arr PyNum MParams MKernels MAper2D SKernels SAper2D SAper1D SLine SLos SReach PLos PReach PReach2 PReach3.
Import ListNotations.
Local Open Scope R_scope.

(** C134: every pixel lies between the light of its row times the least and the greatest value that the line spectrum takes at line-of-sight velocities up to the greatest rotation speed times the sine of the inclination. *)
Theorem C134_bounds : forall c th l d q q0 m0 z rest ratio vr hr sr vmax,
  plain_disc c th l d q q0 m0 z rest ratio vr hr -> dispersion_is c th sr ->
  (forall r h, Rabs (vr r h) <= vmax) -> (forall r h, 0 <= hr r h) ->
  exists m inc n nx dx, image_is c th m /\ inclined q q0 inc /\ turning_axis d inc n /\ fills_slit c nx dx /\
    forall i t lo hi, (i < g_rows (c_gal c))%nat -> (t < length l)%nat ->
      (forall u s, Rabs u <= vmax * sin inc -> (exists r h, s = sr r h) -> lo <= spectrum rest ratio z u s (nth t l 0) <= hi) ->
      let L := row_sum c nx dx m0 i (fun p => hr (from_axis n p) (height n p)) in
      exists x, at2 m i t = Fin x /\ lo * L <= x <= hi * L.
Proof. exact reach_bounds. Qed.
Print Assumptions C134_bounds.

Example C134_bounds_example : plain_disc (y_wide_cfg (3/5)) (y_flat 50) y_wide 30 (3/5) 0 1 1 [6565] [1] (fun r _ => 2 / PI * 200 * atan (r / (1/2))) (fun r _ => exp (- r)) /\
  dispersion_is (y_wide_cfg (3/5)) (y_flat 50) (fun _ _ => 50) /\ (forall r h : R, Rabs (2 / PI * 200 * atan (r / (1/2))) <= 200) /\ (forall r h : R, 0 <= exp (- r)).
Proof. exact bounds_example. Qed.

(** C134: face-on or without rotation, all rows have the same line profile: the light of the row times the line spectrum at rest. *)
Theorem C134_no_rotation : forall c th l d q q0 m0 z rest ratio vr hr sg,
  plain_disc c th l d q q0 m0 z rest ratio vr hr -> dispersion_is c th (fun _ _ => sg) -> q = 1 \/ (forall r h, vr r h = 0) ->
  exists m inc n nx dx, image_is c th m /\ inclined q q0 inc /\ turning_axis d inc n /\ fills_slit c nx dx /\
    forall i t, (i < g_rows (c_gal c))%nat -> (t < length l)%nat ->
      at2 m i t = Fin (spectrum rest ratio z 0 sg (nth t l 0) * row_sum c nx dx m0 i (fun p => hr (from_axis n p) (height n p))).
Proof. exact no_rotation. Qed.
Print Assumptions C134_no_rotation.

Example C134_no_rotation_example : exists m A B f, image_is (y_wide_cfg 1) (y_flat 50) m /\ forall t, (t < 4)%nat -> at2 m 0 t = Fin (f t * A) /\ at2 m 2 t = Fin (f t * B).
Proof. exact face_on_example. Qed.

(** C134: with zero dispersion the light of every cell falls into the columns nearest to its shifted lines. *)
Theorem C134_narrow : forall c th l d q q0 m0 z rest ratio vr hr,
  plain_disc c th l d q q0 m0 z rest ratio vr hr -> no_dispersion c th ->
  exists m inc n nx dx best, image_is c th m /\ rows m = g_rows (c_gal c) /\ cols m = length l /\ inclined q q0 inc /\ turning_axis d inc n /\ fills_slit c nx dx /\
    (forall x, first_nearest l x (best x)) /\
    forall i t, (i < g_rows (c_gal c))%nat -> (t < length l)%nat ->
      at2 m i t = Fin (row_sum c nx dx m0 i (fun p => hr (from_axis n p) (height n p) *
        narrow best rest ratio z (along_sight n (vr (from_axis n p) (height n p)) p) t)).
Proof. exact narrow_image. Qed.
Print Assumptions C134_narrow.

(** C134: with zero dispersion a column that is not nearest to a line at any reachable velocity stays dark. *)
Theorem C134_narrow_reach : forall c th l d q q0 m0 z rest ratio vr hr vmax,
  plain_disc c th l d q q0 m0 z rest ratio vr hr -> no_dispersion c th -> (forall r h, Rabs (vr r h) <= vmax) ->
  exists m inc, image_is c th m /\ inclined q q0 inc /\
    forall i t, (i < g_rows (c_gal c))%nat -> (t < length l)%nat ->
      (forall lam u, In lam rest -> Rabs u <= vmax * sin inc -> ~ first_nearest l (lam * (1 + z) * (1 + u / light_speed)) t) ->
      at2 m i t = Fin 0.
Proof. exact narrow_reach. Qed.
Print Assumptions C134_narrow_reach.

Example C134_narrow_reach_example : exists m, image_is (y_wide_cfg (3/5)) (y_flat 0) m /\ at2 m 0 3 = Fin 0 /\ at2 m 2 3 = Fin 0.
Proof. exact reach_example. Qed.

(** C134: with zero dispersion, face-on or without rotation, all rows have the same line profile. *)
Theorem C134_narrow_no_rotation : forall c th l d q q0 m0 z rest ratio vr hr,
  plain_disc c th l d q q0 m0 z rest ratio vr hr -> no_dispersion c th -> q = 1 \/ (forall r h, vr r h = 0) ->
  exists m inc n nx dx best, image_is c th m /\ inclined q q0 inc /\ turning_axis d inc n /\ fills_slit c nx dx /\ (forall x, first_nearest l x (best x)) /\
    forall i t, (i < g_rows (c_gal c))%nat -> (t < length l)%nat ->
      at2 m i t = Fin (narrow best rest ratio z 0 t * row_sum c nx dx m0 i (fun p => hr (from_axis n p) (height n p))).
Proof. exact narrow_no_rotation. Qed.
Print Assumptions C134_narrow_no_rotation.

(** C134: the arctangent curve never exceeds its asymptote. *)
Theorem C134_arctan : forall va rt r h l, rt <> 0 ->
  exists v, MProf.vel_arctan (Fin va :: Fin rt :: l) (Fin r) h = Fin v /\ Rabs v <= Rabs va.
Proof. exact arctan_profile. Qed.
Print Assumptions C134_arctan.
