(* Property theorems: images and likelihoods follow the parameters continuously (C137). *)
From Coq Require Import Reals List Bool Arith ZArith.
From Verif Require Import PyFloat PyBase Arr PyNum MParams MKernels MAper2D MMock SParams SKernels SAper2D SAper1D SLos SReach STruth SFinite SLim PData PReach2 PFinite4 PLim5 PLim6.
Import ListNotations.
Local Open Scope R_scope.

(** C137: away from zero dispersion (unless there is a floor) and from the up-sampling threshold, the pixels follow the parameters continuously, whatever the PSF, resolution and other options. *)
Theorem C137_image : forall c l thn th mn m, discs_approach c l thn th -> continuous_dispersion c -> regular c l th ->
  (forall n, image_is c (thn n) (mn n)) -> image_is c th m ->
  forall i j, (i < img_rows c)%nat -> (j < length l)%nat -> approach (fun n => at2 (mn n) i j) (at2 m i j).
Proof. exact limit_image. Qed.
Print Assumptions C137_image.

Example C137_image_example : forall d,
  let c := mock_cfg (x_mock 50) (x_mk 50) d in discs_approach c y_wide x_thn x_th /\ continuous_dispersion c /\ regular c y_wide x_th.
Proof. exact lim_example. Qed.

(** C137: the log-likelihood of the fit follows the parameters continuously, after any history of evaluations, with and without row scaling. *)
Theorem C137_fit : forall c n p F S W ok cs l kf tfn tf thn th kn k,
  g_data (c_gal c) = findata n p F S W ok cs -> n = img_rows c -> p = length l -> cols_ok p cs -> (forall i j, (i < n)%nat -> (j < p)%nat -> S i j <> 0) ->
  offsets_fixed kf -> fresh kf -> (forall t, length (tfn t) = nfree (k_vary kf)) -> length tf = nfree (k_vary kf) ->
  (forall t, update_parameters (k_theta kf) (k_vary kf) (tfn t) = (thn t, Ok tt)) -> update_parameters (k_theta kf) (k_vary kf) tf = (th, Ok tt) ->
  discs_approach c l thn th -> continuous_dispersion c -> regular c l th ->
  (forall t, history c kf (kn t)) -> history c kf k ->
  exists Ln L, (forall t, snd (km_llike c (kn t) (tfn t)) = Ok (Fin (Ln t))) /\ snd (km_llike c k tf) = Ok (Fin L) /\ Un_cv Ln L.
Proof. exact limit_fit. Qed.
Print Assumptions C137_fit.

Example C137_fit_example : let c := mock_cfg (x_mock 50) (x_mk 50) (x_data (fun _ _ => 1)) in
  discs_approach c y_wide x_thn x_th /\ continuous_dispersion c /\ regular c y_wide x_th /\ (exists k, history c x_kf k) /\
  (forall n, update_parameters (k_theta x_kf) (k_vary x_kf) [Fin 200; Fin (1/2); Fin (50 + / (INR n + 1))] = (x_thn n, Ok tt)) /\
  update_parameters (k_theta x_kf) (k_vary x_kf) [Fin 200; Fin (1/2); Fin 50] = (x_th, Ok tt).
Proof. exact lim_fit_example. Qed.

(** C137: the arctangent curve and the constant dispersion of the package meet the hypotheses of C137 whenever their parameters converge and the turnover radii are not zero. *)
Theorem C137_arctan : forall c l van rtn sn va rt s m z,
  p_nvel (c_prof c) = 2%nat -> p_vel (c_prof c) = MProf.vel_arctan -> p_disp (c_prof c) = MProf.disp_const ->
  (forall n, shining c [Fin (van n); Fin (rtn n); Fin (sn n); m; z] l) -> shining c [Fin va; Fin rt; Fin s; m; z] l ->
  (forall n, rtn n <> 0) -> rt <> 0 -> Un_cv van va -> Un_cv rtn rt -> Un_cv sn s ->
  discs_approach c l (fun n => [Fin (van n); Fin (rtn n); Fin (sn n); m; z]) [Fin va; Fin rt; Fin s; m; z] /\ continuous_dispersion c.
Proof. exact arctan_approach. Qed.
Print Assumptions C137_arctan.

Example C137_arctan_example : forall d,
  let c := mock_cfg (x_mock 50) (x_mk 50) d in discs_approach c y_wide x_thn x_th /\ continuous_dispersion c /\ regular c y_wide x_th.
Proof. exact lim_example. Qed.

(** C137: at zero dispersion without a floor the image jumps. *)
Theorem C137_refuted : exists c l thn th mn m, discs_approach c l thn th /\ continuous_dispersion c /\ (forall n, image_is c (thn n) (mn n)) /\ image_is c th m /\
  o_adapt (c_opt c) = false /\ nth (p_nvel (c_prof c)) th NaN = Fin 0 /\
  ~ (forall i j, (i < img_rows c)%nat -> (j < length l)%nat -> approach (fun n => at2 (mn n) i j) (at2 m i j)).
Proof. exact limit_refuted. Qed.
Print Assumptions C137_refuted.
