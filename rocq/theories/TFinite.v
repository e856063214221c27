(* Property theorems: a shining disc gives images of finite pixels and a finite likelihood (C136). *)
From Coq Require Import Reals List Bool Arith ZArith.
From Verif Require Import PyFloat PyBase Arr PyNum MParams MKernels MAper2D MMock SParams SKernels SAper2D SReach STruth SFinite PParams PReach2 PFinite3 PFinite4.
Import ListNotations.
Local Open Scope R_scope.

(** C136: every pixel of the image of a shining disc is a finite number and not negative, and every row has light, whatever the PSF, the spectral resolution, the dispersion options, the up-sampling of the wavelengths and the rebinning. *)
Theorem C136_image : forall c th l, shining c th l -> exists m, image_is c th m /\ sound_image (img_rows c) (length l) m.
Proof. exact eval_lit. Qed.
Print Assumptions C136_image.

Example C136_image_example : shining (mock_cfg (x_mock 50) (x_mk 50) (x_data (fun _ _ => 1))) [Fin 200; Fin (1/2); Fin 50; Fin 0; Fin 1] y_wide /\
  shining (mock_cfg (x_mock 0) (x_mk 0) (x_data (fun _ _ => 1))) [Fin 200; Fin (1/2); Fin 0; Fin 0; Fin 1] y_wide.
Proof. exact image_example. Qed.

(** C136: the likelihood of a shining disc is finite after any history of evaluations, with and without row scaling. *)
Theorem C136_fit : forall c n p F S W ok cs l kf tf th k,
  g_data (c_gal c) = findata n p F S W ok cs -> n = img_rows c -> p = length l ->
  cols_ok p cs -> (forall i j, (i < n)%nat -> (j < p)%nat -> S i j <> 0) ->
  offsets_fixed kf -> fresh kf -> length tf = nfree (k_vary kf) -> update_parameters (k_theta kf) (k_vary kf) tf = (th, Ok tt) -> shining c th l ->
  history c kf k -> exists k2 L, km_llike c k tf = (k2, Ok (Fin L)).
Proof. exact finite_fit. Qed.
Print Assumptions C136_fit.

Example C136_fit_example : let c := mock_cfg (x_mock 50) (x_mk 50) (x_data (fun _ _ => 1)) in
  3%nat = img_rows c /\ 4%nat = length y_wide /\ cols_ok 4 [0%nat; 1%nat; 2%nat; 3%nat] /\ offsets_fixed x_kf /\ fresh x_kf /\
  update_parameters (k_theta x_kf) (k_vary x_kf) [Fin 200; Fin (1/2); Fin 50] = ([Fin 200; Fin (1/2); Fin 50; Fin 0; Fin 1], Ok tt) /\
  shining c [Fin 200; Fin (1/2); Fin 50; Fin 0; Fin 1] y_wide /\ (exists k, history c x_kf k) /\
  log_prior (k_theta x_kf) (k_vary x_kf) [(Fin 0, Fin 1000); (Fin 0, Fin 10); (Fin 0, Fin 500); (Fin 0, Fin 1); (Fin 0, Fin 1)] [Fin 200; Fin (1/2); Fin 50] = Ok (Fin 0).
Proof. exact fit_example. Qed.

(** C136: inside the bounds of a flat prior the posterior of a shining disc is finite. *)
Theorem C136_posterior : forall c n p F S W ok cs l kf tf th k bounds,
  g_data (c_gal c) = findata n p F S W ok cs -> n = img_rows c -> p = length l ->
  cols_ok p cs -> (forall i j, (i < n)%nat -> (j < p)%nat -> S i j <> 0) ->
  offsets_fixed kf -> fresh kf -> length tf = nfree (k_vary kf) -> update_parameters (k_theta kf) (k_vary kf) tf = (th, Ok tt) -> shining c th l ->
  history c kf k -> log_prior (k_theta kf) (k_vary kf) bounds tf = Ok (Fin 0) ->
  exists L, snd (lnprob (log_prior (k_theta kf) (k_vary kf) bounds) (km_llike c) k tf) = Ok (Fin L).
Proof. exact finite_posterior. Qed.
Print Assumptions C136_posterior.

(** C136: a simulated slit observation of a shining disc exists and has finite pixels, none negative, and light in every row. *)
Theorem C136_mock : forall a d mk l,
  MGeom.generate_mock (ma_z a) (ma_va a) (ma_rt a) (ma_sigma0 a) (ma_yshift a) (ma_dither a) (length (ma_wave a)) (Fin (ma_pix a)) (ma_slit_len a) (ma_nymin a) = Ok mk ->
  shining (mock_cfg a mk d) [ma_va a; ma_rt a; ma_sigma0 a; ma_yshift a; ma_z a] l ->
  exists m, mock_slit_obs a d = Ok (Some m) /\ sound_image (Z.to_nat (MGeom.k_rows mk)) (length l) m.
Proof. exact mock_sound. Qed.
Print Assumptions C136_mock.

Example C136_mock_example : MGeom.generate_mock (ma_z (x_mock 50)) (ma_va (x_mock 50)) (ma_rt (x_mock 50)) (ma_sigma0 (x_mock 50)) (ma_yshift (x_mock 50)) (ma_dither (x_mock 50)) (length (ma_wave (x_mock 50))) (Fin (ma_pix (x_mock 50))) (ma_slit_len (x_mock 50)) (ma_nymin (x_mock 50)) = Ok (x_mk 50) /\
  forall d, shining (mock_cfg (x_mock 50) (x_mk 50) d) [ma_va (x_mock 50); ma_rt (x_mock 50); ma_sigma0 (x_mock 50); ma_yshift (x_mock 50); ma_z (x_mock 50)] y_wide.
Proof. exact mock_example. Qed.

(** C136, limit: without the absolute-value option a negative dispersion parameter gives an image whose every pixel is negative. *)
Theorem C136_negative_refuted : exists c th l, well_posed c th l /\ o_abs (c_opt c) = false /\ (exists s, nth (p_nvel (c_prof c)) th NaN = Fin s /\ s < 0) /\
  exists m, image_is c th m /\ forall i t, (i < img_rows c)%nat -> (t < length l)%nat -> exists x, at2 m i t = Fin x /\ x < 0.
Proof. exact negative_image. Qed.
Print Assumptions C136_negative_refuted.
