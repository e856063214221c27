(* Property theorems: how sharp the likelihood of a 2-D fit is (C140), and row scaling as the best amplitudes (C141). *)
From Coq Require Import Reals List Bool Arith ZArith.
From Verif Require Import PyFloat PyBase Arr PyNum MParams MKernels MMask MAper2D MMock SParams SKernels SMask SAper2D SMirror SBright STruth SFinite SNoise PReach2 PFinite4 PSharp PSharp2.
Import ListNotations.
Local Open Scope R_scope.

(** C140: without weighting, the difference of the log-likelihoods of two images is that of independent Gaussian errors divided by the number of rows, which is that of Gaussian errors inflated by the square root of the number of rows. *)
Theorem C140_images : forall n p F (S : nat -> nat -> R) ok cs flux err ms low f3 prof Wt m1 m2 M1 M2,
  (1 <= n)%nat -> rows flux = n -> cols flux = p ->
  (forall i j, (i < n)%nat -> (j < p)%nat -> 0 < S i j) -> fit_weights NoWeighting flux err ms low f3 = Ok (prof, Wt) ->
  image_of n p m1 M1 -> image_of n p m2 M2 ->
  let d := fitted n p F S ok Wt cs in
  exists x1 x2, model_llike d m1 = Fin x1 /\ model_llike d m2 = Fin x2 /\
    x2 - x1 = (gauss_loglike n p F M2 S ok - gauss_loglike n p F M1 S ok) / INR n /\
    x2 - x1 = gauss_loglike n p F M2 (fun i j => sqrt (INR n) * S i j) ok - gauss_loglike n p F M1 (fun i j => sqrt (INR n) * S i j) ok.
Proof. exact sharp_images. Qed.
Print Assumptions C140_images.

(** C140: the same for any two points of a fit with finite log-likelihoods. *)
Theorem C140_fit : forall c n p F (S : nat -> nat -> R) ok cs flux err ms low f3 prof Wt k0 k k' tf1 tf2 k1 k2 x1 x2,
  g_data (c_gal c) = fitted n p F S ok Wt cs -> n = img_rows c -> p = length (g_wave (c_gal c)) -> (1 <= n)%nat -> rows flux = n -> cols flux = p ->
  (forall i j, (i < n)%nat -> (j < p)%nat -> 0 < S i j) -> fit_weights NoWeighting flux err ms low f3 = Ok (prof, Wt) ->
  offsets_fixed k0 -> fresh k0 -> history c k0 k -> history c k0 k' ->
  km_llike c k tf1 = (k1, Ok (Fin x1)) -> km_llike c k' tf2 = (k2, Ok (Fin x2)) ->
  exists m1 m2, k_model k1 = Some m1 /\ k_model k2 = Some m2 /\ image_of n p m1 (val2 m1) /\ image_of n p m2 (val2 m2) /\
    x2 - x1 = (gauss_loglike n p F (val2 m2) S ok - gauss_loglike n p F (val2 m1) S ok) / INR n.
Proof. exact sharp_fit. Qed.
Print Assumptions C140_fit.

Example C140_fit_example : exists prof Wt k x, fit_weights NoWeighting (fin2 3 4 (fun _ _ => 1)) (fin2 3 4 (fun _ _ => 1)) (fin2 3 4 (fun _ _ => 1)) [] (NaN, NaN, NaN) = Ok (prof, Wt) /\
  3%nat = img_rows (x_cfg Wt) /\ 4%nat = length (g_wave (c_gal (x_cfg Wt))) /\ offsets_fixed x_kf /\ fresh x_kf /\
  history (x_cfg Wt) x_kf k /\ km_llike (x_cfg Wt) k [Fin 200; Fin (1/2); Fin 50] = (k, Ok (Fin x)).
Proof. exact sharp_example. Qed.

(** C140: with any proper weights the weighted chi-squared never exceeds the true one; they agree only if every pixel in the fit is reproduced, except in a row that has all the weight. *)
Theorem C140_any : forall n p F (S : nat -> nat -> R) ok cs low prof Wt m M,
  (forall i j, (i < n)%nat -> (j < p)%nat -> S i j <> 0) -> weights_good n p low prof Wt -> image_of n p m M ->
  let d := fitted n p F S ok Wt cs in
  exists x y, model_chisq d m = Fin x /\ model_chisq_no_weight d m = Fin y /\ 0 <= x <= y /\
    (x = y -> forall i j, (i < n)%nat -> (j < p)%nat -> ok i j = true -> M i j = F i j \/ nth i prof NaN = Fin 1).
Proof. exact sharp_any. Qed.
Print Assumptions C140_any.

Example C140_any_example : exists flux err ms cut f3 prof Wt, fltb (Fin 0) cut = true /\ fit_weights UpEdges flux err ms (low_snr_rows (row_snr flux err ms) cut) f3 = Ok (prof, Wt) /\
  weights_good (rows flux) (cols flux) (low_snr_rows (row_snr flux err ms) cut) prof Wt.
Proof. exact any_example. Qed.

(** C140: an image that is better by 6 in the Gaussian log-likelihood is better by 2 in the one used, though no weighting was asked for. *)
Theorem C140_gaussian_refuted : exists n p F S ok cs flux err ms low f3 prof Wt M1 M2 x1 x2, rows flux = n /\ cols flux = p /\ (forall i j, 0 < S i j) /\ fit_weights NoWeighting flux err ms low f3 = Ok (prof, Wt) /\
  let d := fitted n p F S ok Wt cs in
  model_llike d (fin2 n p M1) = Fin x1 /\ model_llike d (fin2 n p M2) = Fin x2 /\
  gauss_loglike n p F M2 S ok - gauss_loglike n p F M1 S ok = 6 /\ x2 - x1 = 2.
Proof. exact sharp_refuted. Qed.
Print Assumptions C140_gaussian_refuted.

(** C141: the scaled image has the highest likelihood of all images whose rows are multiples of the rows of the model. *)
Theorem C141_image : forall n p F (S : nat -> nat -> R) ok Wt w cs m M,
  NoDup cs -> cols_ok p cs -> (forall i j, (i < n)%nat -> (j < p)%nat -> S i j <> 0) ->
  weights_are n p Wt w -> (forall i, (i < n)%nat -> 0 <= w i) -> whole_rows n p ok w cs -> image_of n p m M ->
  let d := fitted n p F S ok Wt cs in
  exists out L, scale_model d m = Ok out /\ model_llike d out = Fin L /\ (exists A, model_llike d (rows_times n p A m) = Fin L) /\
    forall A, exists L', model_llike d (rows_times n p A m) = Fin L' /\ L' <= L.
Proof. exact profile_image. Qed.
Print Assumptions C141_image.

(** C141: the log-likelihood of a point of a fit is the maximum over all row amplitudes, so that the fit is one with a free amplitude for each row. *)
Theorem C141_fit : forall c n p F (S : nat -> nat -> R) ok Wt w cs k0 k tf th st a m M,
  g_data (c_gal c) = fitted n p F S ok Wt cs ->
  NoDup cs -> cols_ok p cs -> (forall i j, (i < n)%nat -> (j < p)%nat -> S i j <> 0) ->
  weights_are n p Wt w -> (forall i, (i < n)%nat -> 0 <= w i) -> whole_rows n p ok w cs ->
  offsets_fixed k0 -> fresh k0 -> k_noscale k0 = false -> history c k0 k -> length tf = nfree (k_vary k0) ->
  update_parameters (k_theta k0) (k_vary k0) tf = (th, Ok tt) -> aper_new c th (k_stamp k0) = (st, Ok a) -> a_model a = Some m -> image_of n p m M ->
  let d := g_data (c_gal c) in
  exists k2 L, km_llike c k tf = (k2, Ok (Fin L)) /\ (exists A, model_llike d (rows_times n p A m) = Fin L) /\
    forall A, exists L', model_llike d (rows_times n p A m) = Fin L' /\ L' <= L.
Proof. exact profile_fit. Qed.
Print Assumptions C141_fit.

Example C141_fit_example : exists Wt st a m M k, weights_are 3 4 Wt (fun _ => / 3) /\ whole_rows 3 4 (fun _ _ => true) (fun _ => / 3) [0%nat; 1%nat; 2%nat; 3%nat] /\
  aper_new (x_cfg Wt) [Fin 200; Fin (1/2); Fin 50; Fin 0; Fin 1] (k_stamp x_kf) = (st, Ok a) /\ a_model a = Some m /\ image_of 3 4 m M /\ history (x_cfg Wt) x_kf k /\
  offsets_fixed x_kf /\ fresh x_kf /\ k_noscale x_kf = false.
Proof. exact profile_example. Qed.

(** C141: with a masked pixel in a column free of sky lines another amplitude can be likelier. *)
Theorem C141_masked_refuted : exists n p F S ok Wt w cs m M out L A L', (forall i j, S i j <> 0) /\ NoDup cs /\ cols_ok p cs /\ weights_are n p Wt w /\ (forall i, 0 <= w i) /\ image_of n p m M /\
  let d := fitted n p F S ok Wt cs in
  scale_model d m = Ok out /\ model_llike d out = Fin L /\ model_llike d (rows_times n p A m) = Fin L' /\ L < L'.
Proof. exact profile_refuted. Qed.
Print Assumptions C141_masked_refuted.
