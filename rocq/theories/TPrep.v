(* Properties C43-C45, C79, C80, C106: preparing a 2-D spectrum for fitting. *)
From Coq Require Import Reals List Bool Arith ZArith Lra Lia.
From Verif Require Import PyFloat PyBase Arr PyNum MKernels MMask SMask MTrim STrim PTrim2 MPrep SPrep PPrep3 PPrep4 PPrepEx.
Import ListNotations.
Local Open Scope R_scope.

(* ---------------- C43 ---------------- *)

(** Flux = continuum-including flux minus continuum model, at every pixel. *)
Theorem C43_decomposed : forall c e e' wave fx er n, raw (e2 e) wave fx er n -> physical wave -> shared e fx er ->
  fit_prep c e = (e', Ok tt) -> decomposed (e2 e').
Proof. exact prep_decomposed. Qed.
Print Assumptions C43_decomposed.
(** The continuum model is a straight line in each row, with one slope for all rows. *)
Theorem C43_lines : forall c e e' wave fx er n, raw (e2 e) wave fx er n -> physical wave -> shared e fx er ->
  fit_prep c e = (e', Ok tt) ->
  exists wave' ct, q_wave (e2 e') = Some wave' /\ q_cont (e2 e') = Some ct /\ cols ct = length wave' /\ lines_of_one_slope wave' ct.
Proof. exact prep_lines. Qed.
Print Assumptions C43_lines.
Example C43_example : exists e', fit_prep (ex_cfg true false) (ex_env (Some (Fin 2))) = (e', Ok tt).
Proof. exact (ex_prep true false). Qed.

(* ---------------- C44 ---------------- *)

(** Stored fluxes and errors are finite; chi-squared is finite if no usable error was zero. *)
Theorem C44_finite : forall c e e' wave fx er n, raw (e2 e) wave fx er n -> physical wave -> shared e fx er ->
  fit_prep c e = (e', Ok tt) ->
  exists fx' er', q_flux (e2 e') = Some fx' /\ q_err (e2 e') = Some er' /\ finite2 fx' /\ finite2 er' /\
    (no_zero_error fx er (q_mask (e2 e)) (q_weight (e2 e)) ->
     forall m w md cs, shape m (rows fx') (cols fx') -> shape w (rows fx') (cols fx') -> shape md (rows fx') (cols fx') ->
       finite2 m -> finite2 w -> finite2 md -> isfinite (model_chisq (mkdata fx' er' m w cs) md) = true).
Proof. exact prep_finite. Qed.
Print Assumptions C44_finite.
Example C44_example : raw (e2 (ex_env (Some (Fin 2)))) [Fin 10; Fin 11] ex_flux (ones 4 2) 4 /\ at2 ex_flux 0 0 = NaN.
Proof. split; [apply (ex_preparable true true)|reflexivity]. Qed.
(** A zero error at a usable pixel is kept by masking and filling ... *)
Theorem C44_zero_error_kept : forall fx er m w n p i j r, shape fx n p -> shape er n p -> shape m n p -> shape w n p ->
  (i < n)%nat -> (j < p)%nat -> at2 er i j = Fin 0 -> at2 fx i j = Fin r -> at2 m i j = Fin 1 -> at2 w i j = Fin 1 ->
  exists m', spec_mask_missing_2D fx er (Some w) (Some m) true = Ok m' /\ at2 m' i j = Fin 1 /\
    at2 (spec_nan_masking er m' (Fin (-99)) true false) i j = Fin 0.
Proof. exact zero_error_stays. Qed.
Print Assumptions C44_zero_error_kept.
(** ... and makes chi-squared of every model non-finite. *)
Theorem C44_zero_error_refuted : forall d md i j, (i < rows md)%nat -> (j < cols md)%nat -> at2 (ferr d) i j = Fin 0 ->
  isfinite (model_chisq d md) = false.
Proof. exact zero_error_poisons. Qed.
Print Assumptions C44_zero_error_refuted.
Example C44_zero_example : exists m', spec_mask_missing_2D (ones 2 2) (mk2 2 2 (fun _ _ => Fin 0)) (Some (ones 2 2)) (Some (ones 2 2)) true = Ok m' /\
  at2 m' 0 0 = Fin 1 /\ at2 (spec_nan_masking (mk2 2 2 (fun _ _ => Fin 0)) m' (Fin (-99)) true false) 0 0 = Fin 0.
Proof. exact zero_error_example. Qed.

(* ---------------- C45 ---------------- *)

(** Once prepared, preparing again changes nothing, whatever the settings. *)
Theorem C45_again : forall c e e', fit_prep c e = (e', Ok tt) -> forall c', fit_prep c' e' = (e', Ok tt).
Proof. exact prep_again. Qed.
Print Assumptions C45_again.
Example C45_example : exists e', fit_prep (ex_cfg true true) (ex_env (Some (Fin 2))) = (e', Ok tt).
Proof. exact (ex_prep true true). Qed.
(** Without a position for the object preparation always fails, but only after cutting the last
    row off; the spectrum is not marked, so another call starts from the cut one. *)
Theorem C45_failure : forall c e wave fx er n fr lr, set_up c e wave fx er n fr lr -> shared e fx er ->
  q_ypos (e2 e) = None -> g_dither c = false ->
  exists e' fx', fit_prep c e = (e', Err TypeError) /\ q_prepared (e2 e') = false /\ q_flux (e2 e') = Some fx' /\ rows fx' = (n - 1)%nat.
Proof. exact prep_fails. Qed.
Print Assumptions C45_failure.
Theorem C45_failure_refuted : exists c e e' fx', set_up c e [Fin 10; Fin 11] ex_flux (ones 4 2) 4 (Fin 5, Fin 15) (Fin 8, Fin 12) /\
  fit_prep c e = (e', Err TypeError) /\ q_flux (e2 e) = Some ex_flux /\ rows ex_flux = 4%nat /\
  q_flux (e2 e') = Some fx' /\ rows fx' = 3%nat /\ q_prepared (e2 e') = false.
Proof. exact failure_refuted. Qed.
Print Assumptions C45_failure_refuted.

(* ---------------- C79 ---------------- *)

(** What is left in the arrays the caller handed over. *)
Theorem C79_caller_arrays : forall c e e' wave fx er n, raw (e2 e) wave fx er n -> physical wave ->
  k_a2 (e_k e) = true -> k_flux (e_k e) = fx -> k_err (e_k e) = er -> fit_prep c e = (e', Ok tt) ->
  forall i j, (i < n)%nat -> (j < length wave)%nat ->
  isfinite (at2 (k_flux (e_k e')) i j) = true /\ isfinite (at2 (k_err (e_k e')) i j) = true /\
  (g_nocont c = true -> isfinite (at2 fx i j) = true -> at2 (k_flux (e_k e')) i j = at2 fx i j).
Proof. exact caller_written. Qed.
Print Assumptions C79_caller_arrays.
Theorem C79_unchanged_refuted : exists c e e' wave er n, raw (e2 e) wave ex_flux er n /\ k_flux (e_k e) = ex_flux /\
  fit_prep c e = (e', Ok tt) /\ at2 (k_flux (e_k e)) 0 0 = NaN /\ isfinite (at2 (k_flux (e_k e')) 0 0) = true.
Proof. exact caller_refuted. Qed.
Print Assumptions C79_unchanged_refuted.
Example C79_example : k_a2 (e_k (ex_env (Some (Fin 2)))) = true /\ k_flux (e_k (ex_env (Some (Fin 2)))) = ex_flux.
Proof. split; reflexivity. Qed.

(* ---------------- C80 ---------------- *)

(** Well-formed data can be prepared; exactly the wavelengths in both ranges are kept and all
    images, weights and profiles have one shape. *)
Theorem C80_prepared : forall c e wave fx er n fr lr fo lo, preparable c e wave fx er n fr lr -> shared e fx er ->
  asked (g_z c) (Some fr) None fo -> asked (g_z c) (Some lr) None lo ->
  exists e' wave' n' imgs, fit_prep c e = (e', Ok tt) /\ consistent (e2 e') wave' n' imgs /\
    (forall x, In x wave' <-> In x wave /\ inside fo x /\ inside lo x) /\ wave' <> [] /\
    q_prepared (e2 e') = true /\ e_reg e' = true /\ e_dpa e' <> None.
Proof. exact prep_keeps. Qed.
Print Assumptions C80_prepared.
Example C80_example : preparable (ex_cfg true false) (ex_env (Some (Fin 2))) [Fin 10; Fin 11] ex_flux (ones 4 2) 4 (Fin 5, Fin 15) (Fin 8, Fin 12).
Proof. exact (ex_preparable true false). Qed.
(** A spectrum with a usable row and column that has one row or one wavelength is never prepared. *)
Theorem C80_needs_two : forall c e e' wave fx er n, raw (e2 e) wave fx er n -> physical wave -> shared e fx er -> fit_prep c e = (e', Ok tt) ->
  exists wave' n', q_wave (e2 e') = Some wave' /\ q_mlims (e2 e') = Some n' /\
    (usable (e2 e') n' -> (2 <= n')%nat /\ exists a b, In (Fin a) wave' /\ In (Fin b) wave' /\ a <> b).
Proof. exact needs_two. Qed.
Print Assumptions C80_needs_two.

(* ---------------- C106 ---------------- *)

(** The object's row and the line's wavelength after preparation: the fitted values if they can be believed,
    otherwise no shift and the expected wavelength. *)
Theorem C106_position : forall c e e' wave fx er n, raw (e2 e) wave fx er n -> physical wave -> shared e fx er -> fit_prep c e = (e', Ok tt) ->
  exists wave' n' m0 y sh l0 lam, q_wave (e2 e') = Some wave' /\ q_mlims (e2 e') = Some n' /\ q_m0 (e2 e') = Some m0 /\ q_ypos (e2 e') = Some y /\
    q_m0_shift (e2 e') = Some sh /\ q_lam0 (e2 e') = Some lam /\ nominal c e l0 /\
    (usable (e2 e') n' -> used (g_fity c) (believed_row (e2 e') n' m0 y) (fun mu => Fin (mu - IZR m0)) (Fin 0) sh /\
      used (g_fitl c) (believed_line wave' l0) Fin l0 lam) /\
    (~ usable (e2 e') n' -> sh = Fin 0 /\ lam = l0).
Proof. exact prep_position. Qed.
Print Assumptions C106_position.
Example C106_example : (exists e', prep_m0_lam0 (ex_cfg5 (Fin (3 / 2)) (Fin (25 / 2))) ex_env5 = (e', Ok tt) /\
    q_m0_shift (e2 e') = Some (Fin (3 / 2 - 1)) /\ q_lam0 (e2 e') = Some (Fin (25 / 2))) /\
  (exists e', prep_m0_lam0 (ex_cfg5 (Fin 5) (Fin 20)) ex_env5 = (e', Ok tt) /\ q_m0_shift (e2 e') = Some (Fin 0) /\ q_lam0 (e2 e') = Some (Fin 12)).
Proof. exact ex_position. Qed.
