(* Property theorems: preparing the same spectrum in another unit of flux (C124). *)
From Coq Require Import Reals List Bool Arith ZArith.
From Verif Require Import PyFloat PyBase Arr PyNum MKernels SKernels MMask STrim PTrim2 MTrim MPrep SPrep PPrepEx SBright SUnits PUnits5 PUnits6.
Import ListNotations.
Local Open Scope R_scope.

(** C124: preparing the galaxy in either unit raises the same exception, or gives spectra that differ by the unit only. *)
Theorem C124_prep : forall u c e e', 0 < u -> answers_in_unit u c -> handed_in u e e' -> unprepared (e2 e) ->
  both (fun _ _ => prepared_in u) (fit_prep c e) (fit_prep c e').
Proof. exact prep_units. Qed.
Print Assumptions C124_prep.

Example C124_example_prep : forall u,
  0 < u -> answers_in_unit u ux_cfg /\ handed_in u (ex_env (Some (Fin 2))) (ux_env u) /\ unprepared (e2 (ex_env (Some (Fin 2)))) /\
  exists f f', fit_prep ux_cfg (ex_env (Some (Fin 2))) = (f, Ok tt) /\ fit_prep ux_cfg (ux_env u) = (f', Ok tt) /\ prepared_in u f f' /\ q_mask (e2 f') = q_mask (e2 f).
Proof. exact ux_prep. Qed.

(** C124: every mask, weight, cut and position found by the preparation is the same in either unit. *)
Theorem C124_decisions : forall u c e e' f f', 0 < u -> answers_in_unit u c -> handed_in u e e' -> unprepared (e2 e) ->
  fit_prep c e = (f, Ok tt) -> fit_prep c e' = (f', Ok tt) -> let s := e2 f in let s' := e2 f' in
  q_mask s' = q_mask s /\ q_qual s' = q_qual s /\ q_sky s' = q_sky s /\ q_low s' = q_low s /\ q_weight s' = q_weight s /\ q_wmat s' = q_wmat s /\
  q_wave s' = q_wave s /\ q_wh_sky s' = q_wh_sky s /\ q_wh_nosky s' = q_wh_nosky s /\ q_low_inds s' = q_low_inds s /\
  q_m0 s' = q_m0 s /\ q_m0_shift s' = q_m0_shift s /\ q_ypos s' = q_ypos s /\ q_lam0 s' = q_lam0 s /\ q_mlims s' = q_mlims s /\ q_wprof s' = q_wprof s.
Proof. exact prep_same_decisions. Qed.
Print Assumptions C124_decisions.

(** C124: if no excluded pixel lies in the columns used for the scaling, the scaled image is converted and the log-likelihood shifted by a constant. *)
Theorem C124_fit : forall u s s' d d' md M,
  0 < u -> same_but_unit u s s' -> fitted_data s d -> fitted_data s' d' -> (forall i j, at2 (smask d) i j = Fin (M i j)) ->
  (forall i, (i < rows md)%nat -> no_fill_in_row s i) ->
  both_res (fun m m' => image_in u m m' /\ model_llike d' m' = fadd (model_llike d m) (Fin (- (ln u / ln 10) * in_fit M m))) (scale_model d md) (scale_model d' md).
Proof. exact prepared_fit. Qed.
Print Assumptions C124_fit.

Example C124_example_fit : forall u,
  0 < u -> same_but_unit u (ux_sp 1) (ux_sp u) /\ fitted_data (ux_sp 1) (ux_data 1) /\ fitted_data (ux_sp u) (ux_data u) /\
  (forall i j, at2 (smask (ux_data 1)) i j = Fin (match j with 0%nat => 1 | _ => 0 end)) /\ (forall i, (i < rows (ones 1 2))%nat -> no_fill_in_row (ux_sp 1) i) /\
  exists m m', scale_model (ux_data 1) (ones 1 2) = Ok m /\ scale_model (ux_data u) (ones 1 2) = Ok m'.
Proof. exact ux_fit. Qed.

(** C124: the difference of two log-likelihoods, on which the sampler acts, is then the same in either unit. *)
Theorem C124_difference : forall u s s' d d' M md1 md2,
  0 < u -> same_but_unit u s s' -> fitted_data s d -> fitted_data s' d' -> (forall i j, at2 (smask d) i j = Fin (M i j)) ->
  rows md2 = rows md1 -> cols md2 = cols md1 -> (forall i, (i < rows md1)%nat -> no_fill_in_row s i) ->
  both_res (fun m1 m1' => image_in u m1 m1' /\ both_res (fun m2 m2' => image_in u m2 m2' /\
       fsub (model_llike d' m2') (model_llike d' m1') = fsub (model_llike d m2) (model_llike d m1)) (scale_model d md2) (scale_model d' md2))
    (scale_model d md1) (scale_model d' md1).
Proof. exact prepared_difference. Qed.
Print Assumptions C124_difference.

(** C124: a bad pixel outside the sky lines is filled with -99 whatever the unit, and changes the difference of log-likelihoods with the unit. *)
Theorem C124_fill_refuted : exists fx er m md1 md2, spec_mask_missing_2D fx er None None true = Ok m /\ spec_mask_missing_2D (img_in 2 fx) (img_in 2 er) None None true = Ok m /\
  let d u := mkdata (spec_nan_masking (img_in u fx) m (Fin (-99)) false false) (spec_nan_masking (img_in u er) m (Fin (-99)) true false) m (ones 1 2) [0; 1]%nat in
  exists m1 m2 m1' m2' x x', scale_model (d 1) md1 = Ok m1 /\ scale_model (d 1) md2 = Ok m2 /\ scale_model (d 2) md1 = Ok m1' /\ scale_model (d 2) md2 = Ok m2' /\
    fsub (model_llike (d 1) m2) (model_llike (d 1) m1) = Fin x /\ fsub (model_llike (d 2) m2') (model_llike (d 2) m1') = Fin x' /\ x < x'.
Proof. exact fill_matters. Qed.
Print Assumptions C124_fill_refuted.
