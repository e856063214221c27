(* Property theorems: what the fits for the object row are given (C127). *)
From Coq Require Import Reals List Bool Arith ZArith.
From Verif Require Import PyFloat PyBase Arr PyNum MAper2D MMask MTrim STrim PTrim2 MVert SVert SVert2 PVertEx PVert3.
Import ListNotations.
Local Open Scope R_scope.

(** C127: every fit made for the object row holds the row sums of the flux (0 in a first or last row of largest S/N) and the quadratic sums of the errors, missing errors being three times the median of the whole error image; all rows, or all but five at each end. *)
Theorem C127_requests : forall median flux err n p f e0, (1 <= n)%nat -> image flux n p f -> image err n p e0 ->
  exists l, row_major n p e0 l /\ forall m, median l = Fin m -> forall lm lm' dither skip pix line wave ypos,
  (forall q, row_request dither ypos n p f (with_missing m e0) q -> lm q = lm' q) ->
  vert_position median lm dither skip pix line flux err wave (option_map Fin ypos) = vert_position median lm' dither skip pix line flux err wave (option_map Fin ypos).
Proof. exact vert_requests. Qed.
Print Assumptions C127_requests.

(** C127: a first fit to all rows is always made; its failure is the result. *)
Theorem C127_asked : forall median flux err n p f e0, (1 <= n)%nat -> image flux n p f -> image err n p e0 ->
  exists l, row_major n p e0 l /\ forall m, median l = Fin m -> forall lm dither skip pix line wave ypos x,
  wavelengths wave -> isfinite line = true ->
  (forall q, row_request dither ypos n p f (with_missing m e0) q -> holds n p f (with_missing m e0) 0 n q -> lm q = Err x) ->
  vert_position median lm dither skip pix line flux err wave (option_map Fin ypos) = Err x.
Proof. exact vert_asks. Qed.
Print Assumptions C127_asked.

Example C127_example : image (ex_flux 20 0) 20 3 (fun i _ => if Nat.eqb i 0 then 1 else 0) /\
  image (fin2 20 3 (fun i j => if Nat.eqb i 3 then -99 else 1)) 20 3 (fun i j => if Nat.eqb i 3 then -99 else 1) /\
  (exists q, row_request true (Some 7) 20 3 (fun i _ => if Nat.eqb i 0 then 1 else 0) (with_missing 1 (fun i j => if Nat.eqb i 3 then -99 else 1)) q /\
     nth_error (vq_flux q) 0 = Some (Fin 0) /\ nth_error (vq_err q) 3 = Some (Fin (sqrt 27))).
Proof. exact vert_ex. Qed.

(** C127: with refit=True the window is the whole image; the row is the fitted one, or the given position if the fit moved by more than two rows and the check is not skipped, and the S/N is the one of that row. *)
Theorem C127_refit : forall median lm skip line flux err wave y n p f e0,
  respects lm -> always lm -> wavelengths wave -> isfinite line = true ->
  (2 <= n)%nat -> image flux n p f -> image err n p e0 -> 0 <= y <= INR n - 1 ->
  exists l, row_major n p e0 l /\ forall m, median l = Fin m ->
  exists v q r d, vert_refit median lm skip line flux err wave (Fin y) = Ok v /\
    holds n p f (with_missing m e0) 0 n q /\ vq_mu q = Fin y /\ vq_vary q = true /\ vq_three q = false /\ lm q = Ok (mkVans (Fin r) d) /\
    v_min v = 0%Z /\ v_max v = Z.of_nat n /\ (0 <= v_m0 v < Z.of_nat n)%Z /\ v_snr v = Fin (sn_row p f (with_missing m e0) (Z.to_nat (v_m0 v))) /\
    ((stands_for v r /\ (skip = true \/ Rabs (y - IZR (v_m0 v)) <= 2)) \/
     (stands_for v y /\ skip = false /\ exists k, Rabs (r - IZR k) <= 1/2 /\ 2 < Rabs (y - IZR k))).
Proof. exact refit_runs. Qed.
Print Assumptions C127_refit.

Example C127_example_refit : respects stay /\ always stay /\ wavelengths ex_wave /\ image (ex_flux 20 12) 20 3 (fun i _ => if Nat.eqb i 12 then 1 else 0) /\ image (ones 20 3) 20 3 (fun _ _ => 1) /\
  exists v, vert_refit (fun _ => Fin 1) stay false (Fin 6563) (ex_flux 20 12) (ones 20 3) ex_wave (Fin (25/2)) = Ok v /\ v_min v = 0%Z /\ v_max v = 20%Z.
Proof. exact refit_ex. Qed.
