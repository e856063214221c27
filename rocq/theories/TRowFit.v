(* Property theorems: the Gaussian fit of the light across the slit (C142). *)
From Coq Require Import Reals List Bool Arith.
From Verif Require Import PyFloat PyBase Arr PyNum MParams MKernels MAper2D MYprof MRowFit SRowFit PBright PSlit PLos2 PKernels2 PRowFit PRowFit2.
Import ListNotations.
Local Open Scope R_scope.

(** C142: a least-squares fit of a Gaussian row with at least three positions returns the amplitude, centre and full width of that Gaussian, whatever the optimiser does in between. *)
Theorem C142_recover : forall opt xs a0 m0 f0 x y z t, 0 < a0 -> 0 < f0 ->
  In x xs -> In y xs -> In z xs -> x <> y -> x <> z -> y <> z ->
  let ys := map (fun x => Fin (bell a0 m0 f0 x)) xs in
  finds_best opt (fun q => gaus_residual_FWHM q (map Fin xs) ys None) ->
  lmfit_gaussian opt (map Fin xs) ys None = Ok t -> t = (Fin a0, Fin m0, Fin f0).
Proof. exact best_is_truth. Qed.
Print Assumptions C142_recover.

Example C142_recover_example : finds_best e_opt (fun q => gaus_residual_FWHM q (map Fin [-1; 0; 1]) (map (fun x => Fin (bell 3 0 2 x)) [-1; 0; 1]) None) /\
  lmfit_gaussian e_opt (map Fin [-1; 0; 1]) (map (fun x => Fin (bell 3 0 2 x)) [-1; 0; 1]) None = Ok (Fin 3, Fin 0, Fin 2).
Proof. exact fit_example. Qed.

(** C142: the instrumental width of a row lit by a Gaussian inside the slit is the nominal one times full width over slit width, and the velocity offset follows from its centre. *)
Theorem C142_width : forall c g st v d conv opt rs lam j xs a m f x y z,
  let s := i_slit (c_ins c) in let wh := seq (padX g) (n_pix_x g) in
  eff_inst_res c g st = Ok (v, d) ->
  i_res (c_ins c) = Fin rs -> 0 < rs -> lam0_primary g = Fin lam -> lam <> 0 -> 0 < s ->
  (forall xs ys, exists A mu fw, p_lmfit (c_prof c) xs ys = (A, Fin mu, Fin fw) /\ 0 <= fw) ->
  PSF_convolve (mk3 1 (nY g) (nX g) (fun _ j k => fsumn (nZ g) (fun m => at3 (I_wide g) m j k))) (Fin (i_fwhm (c_ins c))) st = Ok (Some conv) ->
  (j < nY g)%nat -> take (x_arr g) wh = Ok (map Fin xs) ->
  let ys := map (fun x => Fin (bell a m f x)) xs in
  map (fun i => at3 conv 0 j i) wh = ys ->
  0 < a -> 0 < f -> In x xs -> In y xs -> In z xs -> x <> y -> x <> z -> y <> z ->
  finds_best opt (fun q => gaus_residual_FWHM q (map Fin xs) ys None) ->
  lmfit_gaussian opt (map Fin xs) ys None = Ok (p_lmfit (c_prof c) (map Fin xs) ys) ->
  - (s / 2) <= m - f / 2 -> m + f / 2 <= s / 2 ->
  lnth v j = Fin (m / s * (rs * fwhm_factor)) /\ lnth d j = Fin (f / s * (rs / c_kms * lam)).
Proof. exact row_width. Qed.
Print Assumptions C142_width.

Example C142_width_example : exists v d conv,
  eff_inst_res e_cfg e_grid NoStamp = Ok (v, d) /\
  PSF_convolve (mk3 1 (nY e_grid) (nX e_grid) (fun _ j k => fsumn (nZ e_grid) (fun m => at3 (I_wide e_grid) m j k))) (Fin (i_fwhm (c_ins e_cfg))) NoStamp = Ok (Some conv) /\
  map (fun i => at3 conv 0 0 i) (seq (padX e_grid) (n_pix_x e_grid)) = e_ys /\
  lnth v 0 = Fin 0 /\ lnth d 0 = Fin (1 / 2 * (30 / c_kms * 13130)).
Proof. exact row_example. Qed.

(** C142: the unit of the light changes the amplitude only. *)
Theorem C142_units : forall opt k xs ys, unit_free opt -> 0 < k ->
  lmfit_gaussian opt xs (map (fmul (Fin k)) ys) None =
  (do t <- lmfit_gaussian opt xs ys None; Ok (fmul (Fin k) (fst (fst t)), snd (fst t), snd t)).
Proof. exact units_fit. Qed.
Print Assumptions C142_units.

Example C142_units_example : unit_free e_strict /\
  lmfit_gaussian e_strict (map Fin [-1; 0; 1]) (map Fin [0; 4; 0]) None = Ok (Fin 4, Fin 0, Fin (1/5)).
Proof. exact units_example. Qed.

(** C142: with two positions every width fits a Gaussian row exactly. *)
Theorem C142_two_refuted : forall a0 m0 f0 x y f, 0 < a0 -> 0 < f0 -> x <> y -> 0 < f ->
  exists m a, 0 < a /\ sumsq (gaus_residual_FWHM (mkF (Fin m) (Fin a) (Fin f)) [Fin x; Fin y] [Fin (bell a0 m0 f0 x); Fin (bell a0 m0 f0 y)] None) = Fin 0.
Proof. exact two_samples. Qed.
Print Assumptions C142_two_refuted.

(** C142: a row without light cannot be fitted: the default errors are zero. *)
Theorem C142_dark_refuted : forall opt x xs, rejects_nan opt ->
  lmfit_gaussian opt (map Fin (x :: xs)) (map (fun _ => Fin 0) (x :: xs)) None = Err ValueError.
Proof. exact dark_row. Qed.
Print Assumptions C142_dark_refuted.

(** C142: neither can a row with a single position: the starting width is zero. *)
Theorem C142_one_refuted : forall opt x v, rejects_nan opt -> v <> 0 -> lmfit_gaussian opt [Fin x] [Fin v] None = Err ValueError.
Proof. exact one_sample. Qed.
Print Assumptions C142_one_refuted.

Example C142_refuted_example : lmfit_gaussian e_strict (map Fin [-1; 0; 1]) [Fin 0; Fin 0; Fin 0] None = Err ValueError /\
  lmfit_gaussian e_strict [Fin 0] [Fin 5] None = Err ValueError.
Proof. exact dark_example. Qed.
