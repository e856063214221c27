(* Property theorems: The row of the object and the window around it. *)
From Coq Require Import Reals Lra List Bool Arith ZArith.
From Verif Require Import PyFloat PyBase Arr PyNum MAper2D MTrim STrim PTrim2 MVert SVert PVert PVert2 PVertEx.
Import ListNotations.
Local Open Scope R_scope.

(** C64: the window reaches equally far to both sides of the centre, at least one row; with dithering about half the separation of the
    images that some fit found, otherwise 0.75 arcsec rounded up to whole rows. *)
Theorem C64_window_symmetric : forall median lm dither skip pix line flux err wave ypos v,
  respects lm -> (dither = false -> 0 < pix) ->
  vert_position median lm dither skip pix line flux err wave ypos = Ok v ->
  exists h, symmetric v h /\ (1 <= h)%Z /\
    if dither then exists q a d, lm q = Ok a /\ va_delt a = Fin d /\ 1 <= d /\ d / 2 - 1/4 <= IZR h < d / 2 + 5/4
    else IZR h - 1 < 3 / 4 / pix <= IZR h.
Proof. exact window_symmetric. Qed.
Print Assumptions C64_window_symmetric.

(** C64: row and shift stand for one position to half a row: the given one, or one the fit found inside the image. *)
Theorem C64_centre : forall median lm dither skip pix line flux err wave ypos v, respects lm ->
  vert_position median lm dither skip pix line flux err wave ypos = Ok v ->
  exists r, stands_for v r /\ (ypos = Some (Fin r) \/ (0 <= r <= IZR (Z.of_nat (rows flux) - 1) /\ (0 <= v_m0 v <= Z.of_nat (rows flux) - 1)%Z)).
Proof. exact centre_position. Qed.
Print Assumptions C64_centre.

(** C64: without an expected position, or with one in the image, the centre is a row of the image. *)
Theorem C64_centre_inside : forall median lm dither skip pix line flux err wave ypos v, respects lm ->
  (forall y, ypos = Some y -> exists r, y = Fin r /\ 0 <= r <= INR (rows flux) - 1) ->
  vert_position median lm dither skip pix line flux err wave ypos = Ok v -> (0 <= v_m0 v < Z.of_nat (rows flux))%Z.
Proof. exact centre_inside. Qed.
Print Assumptions C64_centre_inside.

(** C64: the adopted row is never more than two rows from the expected position. *)
Theorem C64_centre_near : forall median lm dither pix line flux err wave y v, respects lm ->
  vert_position median lm dither false pix line flux err wave (Some (Fin y)) = Ok v -> Rabs (IZR (v_m0 v) - y) <= 2.
Proof. exact centre_near. Qed.
Print Assumptions C64_centre_near.

(** C64: without an expected position the result is a window or TypeError; TypeError for fewer than ten rows; without dithering exactly
    when the window of 2h rows has fewer than 5 rows or more than all but 5. *)
Theorem C64_no_position : forall median lm dither skip pix line flux err wave,
  respects lm -> always lm -> (dither = false -> 0 < pix) -> wavelengths wave -> isfinite line = true ->
  rows err = rows flux -> enough dither (rows flux) ->
  let out := vert_position median lm dither skip pix line flux err wave None in
  (out = Err TypeError \/ exists v, out = Ok v) /\
  ((rows flux < 10)%nat -> out = Err TypeError) /\
  (dither = false -> forall h, IZR h - 1 < 3 / 4 / pix <= IZR h ->
     if ((5 <=? 2 * h) && (2 * h <=? Z.of_nat (rows flux) - 5))%Z then exists v, out = Ok v else out = Err TypeError).
Proof. exact blind_outcome. Qed.
Print Assumptions C64_no_position.

(** C64: a window found without an expected position has at least 5 rows and leaves at least 5. *)
Theorem C64_no_position_window : forall median lm dither skip pix line flux err wave v,
  vert_position median lm dither skip pix line flux err wave None = Ok v ->
  (5 <= v_max v - v_min v <= Z.of_nat (rows flux) - 5)%Z.
Proof. exact blind_window. Qed.
Print Assumptions C64_no_position_window.

(** C64: with an expected position and pixels below 0.375 arcsec a window is found. *)
Theorem C64_fine_pixels : forall median lm skip pix line flux err wave y,
  respects lm -> always lm -> 0 < pix < 3/8 -> wavelengths wave -> isfinite line = true ->
  rows err = rows flux -> (2 <= rows flux)%nat ->
  exists v, vert_position median lm false skip pix line flux err wave (Some (Fin y)) = Ok v.
Proof. exact given_fine. Qed.
Print Assumptions C64_fine_pixels.

(** C64: with coarser pixels ten rows or fewer raise ValueError although a position is given. *)
Theorem C64_coarse_few_rows : forall median lm skip pix line flux err wave y,
  respects lm -> always lm -> 3/8 <= pix -> wavelengths wave -> isfinite line = true ->
  rows err = rows flux -> (2 <= rows flux <= 10)%nat ->
  vert_position median lm false skip pix line flux err wave (Some (Fin y)) = Err ValueError.
Proof. exact given_short. Qed.
Print Assumptions C64_coarse_few_rows.

(** C64: with coarser pixels 15 rows are enough and 11 or 12 raise IndexError. *)
Theorem C64_coarse_rows : forall median lm skip pix line flux err wave y,
  respects lm -> always lm -> 3/8 <= pix -> wavelengths wave -> isfinite line = true -> rows err = rows flux ->
  let out := vert_position median lm false skip pix line flux err wave (Some (Fin y)) in
  ((15 <= rows flux)%nat -> exists v, out = Ok v) /\ (rows flux = 11%nat \/ rows flux = 12%nat -> out = Err IndexError).
Proof. exact given_coarse. Qed.
Print Assumptions C64_coarse_rows.

(** An optimiser and images that satisfy the hypotheses. *)
Example C64_example : respects stay /\ always stay /\ wavelengths ex_wave /\
  image (ex_flux 20 12) 20 3 (fun i _ => if Nat.eqb i 12 then 1 else 0) /\ image (ones 20 3) 20 3 (fun _ _ => 1) /\ no_missing 20 3 (fun _ _ => 1) /\
  enough true (rows (ex_flux 20 12)).
Proof. exact stay_hypotheses. Qed.

(** A dithered object without an expected position. *)
Example C64_example_dithered : exists v, vert_position (fun _ => Fin 1) stay true false (1/5) (Fin 6563) (ex_flux 40 20) (ones 40 3) ex_wave None = Ok v /\
  (16 <= v_max v - v_min v <= 18)%Z.
Proof. exact dithered_window. Qed.

(** The same data with fine and with coarse pixels. *)
Example C64_example_no_position : (exists v, vert_position (fun _ => Fin 1) stay false false (1/4) (Fin 6563) (ex_flux 20 12) (ones 20 3) ex_wave None = Ok v) /\
  vert_position (fun _ => Fin 1) stay false false (1/2) (Fin 6563) (ex_flux 20 12) (ones 20 3) ex_wave None = Err TypeError.
Proof. exact blind_examples. Qed.

(** C103: the reported peak S/N is that of the adopted row (of the nearest row of the image) if no position is given, if the pixels are
    fine, or if the row is between 5 and n-11. *)
Theorem C103_snr : forall median lm dither skip pix line flux err wave ypos v n p F E0,
  respects lm -> (1 <= n)%nat -> image flux n p F -> image err n p E0 -> no_missing n p E0 ->
  vert_position median lm dither skip pix line flux err wave ypos = Ok v ->
  ypos = None \/ (dither = false /\ 0 < pix < 3/8) \/ (5 <= v_m0 v <= Z.of_nat n - 11)%Z ->
  v_snr v = Fin (sn_row p F E0 (Z.to_nat (Z.max 0 (Z.min (Z.of_nat n - 1) (v_m0 v))))).
Proof. exact snr_right. Qed.
Print Assumptions C103_snr.

(** C103: with coarse pixels it is that of another row whenever the centre is in the first five rows or the last ten. *)
Theorem C103_coarse : forall median lm skip pix line flux err wave y v n p F E0,
  respects lm -> 3/8 <= pix -> (1 <= n)%nat -> image flux n p F -> image err n p E0 -> no_missing n p E0 ->
  vert_position median lm false skip pix line flux err wave (Some (Fin y)) = Ok v ->
  let c := Z.max 0 (Z.min (Z.of_nat n - 11) (v_m0 v)) in
  stands_for v y /\ v_snr v = Fin (sn_row p F E0 (Z.to_nat (if c <? 5 then c + Z.of_nat n - 10 else c)%Z)).
Proof. exact snr_coarse. Qed.
Print Assumptions C103_coarse.

(** C103: an object in row 12 of 20 gets the S/N of row 9, here zero. *)
Theorem C103_snr_refuted : exists v, vert_position (fun _ => Fin 1) stay false false (1/2) (Fin 6563) (ex_flux 20 12) (ones 20 3) ex_wave (Some (Fin 12)) = Ok v /\
  v_m0 v = 12%Z /\ v_snr v = Fin 0 /\ 0 < sn_row 3 (fun i _ => if Nat.eqb i 12 then 1 else 0) (fun _ _ => 1) 12.
Proof. exact snr_wrong. Qed.
Print Assumptions C103_snr_refuted.

(** As above. *)
Example C103_example : respects stay /\ always stay /\ wavelengths ex_wave /\
  image (ex_flux 20 12) 20 3 (fun i _ => if Nat.eqb i 12 then 1 else 0) /\ image (ones 20 3) 20 3 (fun _ _ => 1) /\ no_missing 20 3 (fun _ _ => 1) /\
  enough true (rows (ex_flux 20 12)).
Proof. exact stay_hypotheses. Qed.

(** C104: with the expected position in the image, the centre is in the trimmed image exactly if it is not the last row. *)
Theorem C104_trimmed : forall median lm dither skip cut pix line s t n p imgs ow y s' t',
  respects lm -> (dither = false -> 0 < pix) -> ready s n p imgs -> q_obs s = Some ow -> q_ypos s = Some (Fin y) ->
  0 <= y <= INR n - 1 ->
  trim_2D_spatial dither cut (vert_position median lm dither skip pix line) (s, t) = ((s', t'), Ok tt) ->
  exists c l r a, q_full s' = Some (c, l, r) /\ q_m0 s' = Some (c - l)%Z /\ q_flux s' = Some a /\ q_mlims s' = Some (rows a) /\
    (0 <= l)%Z /\ Z.of_nat (rows a) = Z.max 0 (r - l) /\ (0 <= c < Z.of_nat n)%Z /\
    ((c < Z.of_nat n - 1)%Z -> (0 <= c - l < Z.of_nat (rows a))%Z) /\
    (c = (Z.of_nat n - 1)%Z -> (Z.of_nat (rows a) <= c - l)%Z).
Proof. exact trimmed_centre. Qed.
Print Assumptions C104_trimmed.

(** C104: an expected position more than two rows below the last keeps the centre. *)
Theorem C104_kept : forall median lm dither cut pix line s t n p imgs ow y s' t',
  respects lm -> (dither = false -> 0 < pix) -> ready s n p imgs -> q_obs s = Some ow -> q_ypos s = Some (Fin y) ->
  0 <= y < INR n - 3 ->
  trim_2D_spatial dither cut (vert_position median lm dither false pix line) (s, t) = ((s', t'), Ok tt) ->
  exists c a, q_m0 s' = Some c /\ q_flux s' = Some a /\ (0 <= c < Z.of_nat (rows a))%Z.
Proof. exact trimmed_keeps. Qed.
Print Assumptions C104_kept.

(** C104: an object in the last row. *)
Theorem C104_last_row_refuted : exists s s' t', ready s 20 3 (repeat (ones 20 3) 9) /\ q_ypos s = Some (Fin 19) /\
  trim_2D_spatial false (Fin 2) (vert_position (fun _ => Fin 1) stay false false (1/4) (Fin 6563)) (s, None) = ((s', t'), Ok tt) /\
  exists a, q_flux s' = Some a /\ rows a = 19%nat /\ q_m0 s' = Some 19%Z.
Proof. exact last_row_lost. Qed.
Print Assumptions C104_last_row_refuted.

(** An object in the middle. *)
Example C104_example : exists s s' t', q_ypos s = Some (Fin 9) /\ 
  trim_2D_spatial false (Fin 2) (vert_position (fun _ => Fin 1) stay false false (1/4) (Fin 6563)) (s, None) = ((s', t'), Ok tt) /\
  exists c a, q_m0 s' = Some c /\ q_flux s' = Some a /\ (0 <= c < Z.of_nat (rows a))%Z.
Proof. exact middle_kept. Qed.
