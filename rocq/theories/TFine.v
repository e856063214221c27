(* Property theorems: adaptive wavelength up-sampling as a model on a finer grid (C138). *)
From Coq Require Import Reals List Bool Arith ZArith.
From Verif Require Import PyFloat PyBase Arr PyNum MParams MKernels MAper2D MMock SParams SKernels SAper2D SAper1D SLos SReach SFinite SLim SFine PReach2 PFinite4 PFine3.
Import ListNotations.
Local Open Scope R_scope.

(** C138: when up-sampling is triggered, the image is that of the model on the finer wavelength grid with blocks of pixels added up (and, if the output was not to be rebinned, sub-pixel rows added up all the same). *)
Theorem C138_fine : forall c th l f s r0 z,
  well_posed c th l -> o_adapt (c_opt c) = true -> o_factor (c_opt c) = INR f -> (1 <= f)%nat ->
  nth (p_nvel (c_prof c)) th NaN = Fin s -> hd NaN (g_rest (c_gal c)) = Fin r0 -> nth (length th - 1) th NaN = Fin z -> 0 < r0 * (1 + z) ->
  let pix := pixel_velocity l (r0 * (1 + z)) / (235 / 100) in
  Rabs s < pix -> (o_floor (c_opt c) = true -> 3 / 4 * (pix / INR f) <= Rabs s) ->
  exists m m', image_is c th m /\ image_is (on_grid (fine_grid l f) c) th m' /\ rows m = g_rows (c_gal c) /\ cols m = length l /\
    rows m' = (g_rows (c_gal c) * sub_rows c)%nat /\ cols m' = (length l * f)%nat /\
    forall i t, (i < g_rows (c_gal c))%nat -> (t < length l)%nat ->
      at2 m i t = fsumn f (fun b => fsumn (sub_rows c) (fun a => at2 m' (i * sub_rows c + a) (t * f + b))).
Proof. exact fine_image. Qed.
Print Assumptions C138_fine.

Example C138_fine_example : forall d,
  let c := mock_cfg (x_mock 100) (x_mk 100) d in let th := [Fin 200; Fin (1/2); Fin 100; Fin 0; Fin 1] in
  well_posed c th y_wide /\ o_adapt (c_opt c) = true /\ o_factor (c_opt c) = INR 3 /\ nth (p_nvel (c_prof c)) th NaN = Fin 100 /\ hd NaN (g_rest (c_gal c)) = Fin 6565 /\ nth (length th - 1) th NaN = Fin 1 /\
  let pix := pixel_velocity y_wide (6565 * (1 + 1)) / (235 / 100) in Rabs 100 < pix /\ 3 / 4 * (pix / INR 3) <= Rabs 100.
Proof. exact fine_example. Qed.

(** C138: when it is not triggered, the image is that of the model without up-sampling and without floor. *)
Theorem C138_coarse : forall c th l s r0 z, well_posed c th l -> o_adapt (c_opt c) = true ->
  nth (p_nvel (c_prof c)) th NaN = Fin s -> hd NaN (g_rest (c_gal c)) = Fin r0 -> nth (length th - 1) th NaN = Fin z -> 0 < r0 * (1 + z) ->
  pixel_velocity l (r0 * (1 + z)) / (235 / 100) <= Rabs s ->
  exists m m', image_is c th m /\ image_is (on_grid l c) th m' /\ rows m = g_rows (c_gal c) /\ cols m = length l /\
    rows m' = (g_rows (c_gal c) * sub_rows c)%nat /\ cols m' = length l /\
    forall i t, (i < g_rows (c_gal c))%nat -> (t < length l)%nat ->
      at2 m i t = fsumn (sub_rows c) (fun a => at2 m' (i * sub_rows c + a) t).
Proof. exact coarse_image. Qed.
Print Assumptions C138_coarse.

Example C138_coarse_example : forall d,
  let c := mock_cfg (x_mock 300) (x_mk 300) d in let th := [Fin 200; Fin (1/2); Fin 300; Fin 0; Fin 1] in
  well_posed c th y_wide /\ o_adapt (c_opt c) = true /\ nth (p_nvel (c_prof c)) th NaN = Fin 300 /\ hd NaN (g_rest (c_gal c)) = Fin 6565 /\ nth (length th - 1) th NaN = Fin 1 /\
  pixel_velocity y_wide (6565 * (1 + 1)) / (235 / 100) <= Rabs 300.
Proof. exact coarse_example. Qed.

(** C138: just below the threshold a pixel is more than twice as bright as at the threshold. *)
Theorem C138_brightness_refuted : exists c l s0, 0 < s0 /\ o_adapt (c_opt c) = true /\ o_floor (c_opt c) = true /\ o_factor (c_opt c) = 3 /\
  (forall s, 0 <= s -> shining c (y_flat s) l) /\
  exists m0, image_is c (y_flat s0) m0 /\
    forall s m, 9 / 10 * s0 <= s < s0 -> image_is c (y_flat s) m ->
      forall i, (i < img_rows c)%nat -> exists x x0, at2 m0 i 1 = Fin x0 /\ 0 < x0 /\ at2 m i 1 = Fin x /\ 2 * x0 < x.
Proof. exact brightness_jump. Qed.
Print Assumptions C138_brightness_refuted.

(** C137: where up-sampling sets in the image jumps. *)
Theorem C137_threshold_refuted : exists c l thn th mn m, discs_approach c l thn th /\ continuous_dispersion c /\ (forall n, image_is c (thn n) (mn n)) /\ image_is c th m /\
  o_floor (c_opt c) = true /\ o_adapt (c_opt c) = true /\
  (exists r0 z, hd NaN (g_rest (c_gal c)) = Fin r0 /\ nth (length th - 1) th NaN = Fin z /\ nth (p_nvel (c_prof c)) th NaN = Fin (pixel_velocity l (r0 * (1 + z)) / (235 / 100))) /\
  ~ (forall i j, (i < img_rows c)%nat -> (j < length l)%nat -> approach (fun n => at2 (mn n) i j) (at2 m i j)).
Proof. exact threshold_refuted. Qed.
Print Assumptions C137_threshold_refuted.
