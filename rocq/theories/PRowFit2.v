(* Rows with two samples, and the instrumental width that the row fits give. *)
From Coq Require Import Reals Lra List Bool Arith Lia.
From Verif Require Import PyFloat PyBase Arr PyNum MParams MKernels MAper2D MYprof MRowFit SRowFit PBright PSlit PLos2 PFit1D PRowFit.
Import ListNotations.
Local Open Scope R_scope.

Lemma two_samples a0 m0 f0 x y f : 0 < a0 -> 0 < f0 -> x <> y -> 0 < f ->
  exists m a, 0 < a /\ sumsq (gaus_residual_FWHM (mkF (Fin m) (Fin a) (Fin f)) [Fin x; Fin y] [Fin (bell a0 m0 f0 x); Fin (bell a0 m0 f0 y)] None) = Fin 0.
Proof.
  intros Pa Pf0 N Pf. assert (L2 : 0 < ln 2) by (rewrite <- ln_1; apply ln_increasing; lra).
  set (c := 4 * ln 2 / (f * f)). set (c0 := 4 * ln 2 / (f0 * f0)).
  assert (Pc : 0 < c) by (unfold c; apply Rdiv_lt_0_compat; nra).
  set (m := (x + y) / 2 - c0 / c * ((x + y) / 2 - m0)).
  set (a := bell a0 m0 f0 x * exp (c * (x - m) * (x - m))).
  assert (Pa' : 0 < a) by (unfold a; apply Rmult_lt_0_compat; [apply bell_pos; assumption|apply exp_pos]).
  exists m, a. split; [assumption|].
  assert (K : forall t, bell a m f t = a * exp (- c * (t - m) * (t - m))) by (intros t; unfold bell, c; do 2 f_equal; field; lra).
  assert (K0 : forall t, bell a0 m0 f0 t = a0 * exp (- c0 * (t - m0) * (t - m0))) by (intros t; unfold bell, c0; do 2 f_equal; field; lra).
  assert (Ex : bell a m f x = bell a0 m0 f0 x).
  { rewrite K. unfold a. rewrite Rmult_assoc, <- exp_plus. replace (c * (x - m) * (x - m) + - c * (x - m) * (x - m)) with 0 by ring. rewrite exp_0. ring. }
  assert (Ey : bell a m f y = bell a0 m0 f0 y).
  { rewrite K, K0. unfold a. rewrite K0, !Rmult_assoc, <- !exp_plus. do 2 f_equal. unfold m. field. lra. }
  pose proof (max_fin [bell a0 m0 f0 y] (bell a0 m0 f0 x)) as [mx [M1 M2]]. pose proof (bell_pos a0 m0 f0 x Pa).
  pose proof (row_resid (bell a0 m0 f0) [x; y] a m f mx Pf (f_equal Ok M1) ltac:(lra)) as Rr. cbn [map] in Rr. rewrite Rr.
  unfold sumsq. cbn [map]. rewrite Ex, Ey. unfold fsum. cbn [fold_right fmul fadd]. f_equal. field. lra.
Qed.

(* the instrumental width and velocity offset of a row whose light across the slit is a Gaussian *)
Lemma row_width c g st v d conv opt rs lam j xs a m f x y z :
  let s := i_slit (c_ins c) in let wh := seq (padX g) (n_pix_x g) in
  eff_inst_res c g st = Ok (v, d) ->
  i_res (c_ins c) = Fin rs -> 0 < rs -> lam0_primary g = Fin lam -> lam <> 0 -> 0 < s ->
  (forall xs ys, exists A mu fw, p_lmfit (c_prof c) xs ys = (A, Fin mu, Fin fw) /\ 0 <= fw) ->
  PSF_convolve (mk3 1 (nY g) (nX g) (fun _ j k => fsumn (nZ g) (fun m => at3 (I_wide g) m j k))) (Fin (i_fwhm (c_ins c))) st = Ok (Some conv) ->
  (j < nY g)%nat -> take (x_arr g) wh = Ok (map Fin xs) ->
  let ys := map (fun x => Fin (bell a m f x)) xs in
  map (fun i => at3 conv 0 j i) wh = ys ->
  0 < a -> 0 < f -> In x xs -> In y xs -> In z xs -> x <> y -> x <> z -> y <> z ->
  finds_best opt (fun q => gaus_residual_FWHM q (map Fin xs) ys None) ->
  lmfit_gaussian opt (map Fin xs) ys None = Ok (p_lmfit (c_prof c) (map Fin xs) ys) ->
  - (s / 2) <= m - f / 2 -> m + f / 2 <= s / 2 ->
  lnth v j = Fin (m / s * (rs * fwhm_factor)) /\ lnth d j = Fin (f / s * (rs / c_kms * lam)).
Proof.
  intros s wh E Hr Pr Hl Nl Ps Hfit Hc Hj Hx ys Hy Pa Pf Ix Iy Iz Nxy Nxz Nyz B L O1 O2.
  destruct (eff_rows c g st v d rs lam E Hr Pr Hl Nl Ps Hfit) as [_ [_ [conv' [Hc' Rows]]]].
  rewrite Hc in Hc'. injection Hc' as <-. destruct (Rows j Hj) as [xs' [A [mu [fw [off [wd [T [P [C [V D]]]]]]]]]].
  fold wh in T. rewrite Hx in T. injection T as <-. fold wh in P. rewrite Hy in P.
  pose proof (best_is_truth opt xs a m f x y z _ Pa Pf Ix Iy Iz Nxy Nxz Nyz B L) as Q. rewrite P in Q. injection Q as -> -> ->.
  fold s in V, D, C. split.
  - rewrite V. do 3 f_equal. unfold Rmin, Rmax. destruct (Rle_dec m (s / 2)); [|lra]. destruct (Rle_dec (- (s / 2)) m); lra.
  - destruct (slit_width (x_arr g) wh (Fin a) m f s Pf Ps ltac:(lra) ltac:(lra)) as [d' [W _]]. unfold wh in W. rewrite W in C. injection C as _ <-.
    rewrite (D _ eq_refl). do 3 f_equal. unfold Rmin, Rmax. destruct (Rle_dec (m + f / 2) (s / 2)); [|lra]. destruct (Rle_dec (m - f / 2) (- (s / 2))); lra.
Qed.

Lemma sumsq_nonneg r : fltb (sumsq r) (Fin 0) = false.
Proof.
  destruct r as [l|]; [|reflexivity]. unfold sumsq, fsum.
  assert (X : let v := fold_right fadd (Fin 0) (map (fun v => fmul v v) l) in (exists t, v = Fin t /\ 0 <= t) \/ v = PInf \/ v = NaN).
  { cbv zeta. induction l as [|u l IH]; [left; exists 0; split; [reflexivity|lra]|]. cbn [map fold_right].
    destruct u as [w| | |]; cbn [fmul]; destruct IH as [[t [-> Ht]]|[-> | ->]]; cbn [fadd]; auto. left. eexists. split; [reflexivity|nra]. }
  cbv zeta in X. destruct X as [[t [-> Ht]]|[-> | ->]]; [|reflexivity|reflexivity]. cbn [fltb]. apply Rltb_false. lra.
Qed.

Lemma truth_is_best a m f xs mx : 0 < f -> np_max (map (fun x => Fin (bell a m f x)) xs) = Ok (Fin mx) -> mx <> 0 ->
  finds_best (fun _ _ => Ok (mkF (Fin m) (Fin a) (Fin f))) (fun q => gaus_residual_FWHM q (map Fin xs) (map (fun x => Fin (bell a m f x)) xs) None).
Proof.
  intros Pf E N p0 q Eq. injection Eq as <-.
  assert (Z : sumsq (gaus_residual_FWHM (mkF (Fin m) (Fin a) (Fin f)) (map Fin xs) (map (fun x => Fin (bell a m f x)) xs) None) = Fin 0).
  { rewrite (row_resid (bell a m f) xs a m f mx) by assumption. unfold sumsq. rewrite (sumsq_vals (fun x => (bell a m f x - bell a m f x) / (1 / 100 * mx))).
    f_equal. clear E. induction xs as [|w l IH]; [reflexivity|]. cbn [map]. unfold rsum in *. cbn [fold_right]. rewrite IH. field. assumption. }
  split; [exists m, a, f; split; [reflexivity|lra]|]. cbv beta. rewrite Z. split; [reflexivity|]. intros q' _. apply sumsq_nonneg.
Qed.

(* an optimiser for the row below *)
Definition e_opt : fopt := fun _ _ => Ok (mkF (Fin 0) (Fin 3) (Fin 2)).
Definition e_xs : list R := [-1; 0; 1].
Definition e_ys : list fl := map (fun x => Fin (bell 3 0 2 x)) e_xs.

Lemma e_max : exists mx, np_max e_ys = Ok (Fin mx) /\ 0 < mx.
Proof.
  unfold e_ys, e_xs. cbn [map np_max]. destruct (max_fin [bell 3 0 2 0; bell 3 0 2 1] (bell 3 0 2 (-1))) as [mx [M H]]. cbn [map] in M. rewrite M.
  exists mx. split; [reflexivity|]. pose proof (bell_pos 3 0 2 (-1) ltac:(lra)). lra.
Qed.
Lemma e_best : finds_best e_opt (fun q => gaus_residual_FWHM q (map Fin e_xs) e_ys None).
Proof. destruct e_max as [mx [M H]]. apply (truth_is_best 3 0 2 e_xs mx); [lra|exact M|lra]. Qed.

Lemma e_fit : lmfit_gaussian e_opt (map Fin e_xs) e_ys None = Ok (Fin 3, Fin 0, Fin 2).
Proof.
  unfold lmfit_gaussian. destruct e_max as [mx [-> H]]. cbn [bind].
  assert (L : (argmax_ (length e_ys - 1) (lnth e_ys) <= 2)%nat).
  { assert (G : forall n g, (argmax_ n g <= n)%nat).
    { induction n as [|n IH]; intros g; [cbn; lia|]. cbn [argmax_]. specialize (IH g). destruct (isnan _); [lia|]. destruct (isnan _); [lia|]. destruct (fltb _ _); lia. }
    apply (G 2%nat). }
  destruct (argmax_ _ _) as [|[|[|n]]]; [| | |lia]; cbn [e_xs map getn nth_error bind np_max np_min e_opt f_A f_mu f_FWHM]; reflexivity.
Qed.

(* one row, three samples across a slit of 4 arcsec, no PSF *)
Definition e_cfg : cfg := mkcfg u_gal (mkinstr 4 1 0 (Fin 30) false (fun _ _ => Fin 1)) (u_opt true)
  (mkprofs 2 1 MProf.vel_arctan MProf.disp_const (fun _ _ => Fin 1) (fun _ _ => (Fin 3, Fin 0, Fin 2))).
Definition e_cube : arr3 fl := mk3 1 1 3 (fun _ _ k => lnth e_ys k).
Definition e_grid : grid := mkgrid (Fin 0) 1 1 3 1 1 1 1 0 0 3 1 1 (map Fin e_xs) [Fin 0] [Fin 0] (Fin 1) (Fin 0) (Fin 13130) e_cube e_cube e_cube e_cube.

Lemma row_example : exists v d conv,
  eff_inst_res e_cfg e_grid NoStamp = Ok (v, d) /\
  PSF_convolve (mk3 1 (nY e_grid) (nX e_grid) (fun _ j k => fsumn (nZ e_grid) (fun m => at3 (I_wide e_grid) m j k))) (Fin (i_fwhm (c_ins e_cfg))) NoStamp = Ok (Some conv) /\
  map (fun i => at3 conv 0 0 i) (seq (padX e_grid) (n_pix_x e_grid)) = e_ys /\
  lnth v 0 = Fin 0 /\ lnth d 0 = Fin (1 / 2 * (30 / c_kms * 13130)).
Proof.
  assert (C : PSF_convolve (mk3 1 (nY e_grid) (nX e_grid) (fun _ j k => fsumn (nZ e_grid) (fun m => at3 (I_wide e_grid) m j k))) (Fin (i_fwhm (c_ins e_cfg))) NoStamp =
    Ok (Some (mk3 1 1 3 (fun _ j k => fsumn 1 (fun m => at3 e_cube m j k))))).
  { unfold PSF_convolve. cbn [e_cfg c_ins i_fwhm]. unfold fgtb. cbn [fltb]. rewrite (proj2 (Rltb_false 0 0)) by lra. reflexivity. }
  assert (Y : map (fun i => at3 (mk3 1 1 3 (fun _ j k => fsumn 1 (fun m => at3 e_cube m j k))) 0 0 i) (seq (padX e_grid) (n_pix_x e_grid)) = e_ys).
  { unfold e_ys, e_xs, fsumn, fsum. cbn. rewrite !Rplus_0_r. reflexivity. }
  assert (EE : exists v d, eff_inst_res e_cfg e_grid NoStamp = Ok (v, d)).
  { unfold eff_inst_res. cbv zeta. rewrite C. cbn [bind]. cbn [e_grid padX n_pix_x nY x_arr e_xs seq mapR map take getn nth_error bind e_cfg c_prof p_lmfit c_ins i_slit].
    destruct (slit_width (map Fin e_xs) [0%nat; 1%nat; 2%nat] (Fin 3) 0 2 4 ltac:(lra) ltac:(lra) ltac:(lra) ltac:(lra)) as [d' [W _]]. cbn [map e_xs] in W. rewrite W. cbn [bind]. eauto. }
  destruct EE as [v [d EE]]. exists v, d, (mk3 1 1 3 (fun _ j k => fsumn 1 (fun m => at3 e_cube m j k))).
  destruct (row_width e_cfg e_grid NoStamp v d (mk3 1 1 3 (fun _ j k => fsumn 1 (fun m => at3 e_cube m j k))) e_opt 30 13130 0 e_xs 3 0 2 (-1) 0 1 EE eq_refl ltac:(lra) eq_refl ltac:(lra)) as [V D].
  - cbn. lra.
  - intros xs ys. exists (Fin 3), 0, 2. split; [reflexivity|lra].
  - exact C.
  - cbn. lia.
  - reflexivity.
  - exact Y.
  - lra.
  - lra.
  - cbn. auto.
  - cbn. auto.
  - cbn. auto.
  - lra.
  - lra.
  - lra.
  - exact e_best.
  - exact e_fit.
  - cbn. lra.
  - cbn. lra.
  - split; [exact EE|]. split; [exact C|]. split; [exact Y|]. rewrite V, D. split; f_equal; [unfold Rdiv; ring|]. cbn [e_cfg c_ins i_slit]. field. pose proof c_kms_pos. lra.
Qed.

(* an optimiser that refuses nan residuals and otherwise returns its starting values *)
Definition e_strict : fopt := fun f p => match f p with Ok l => if existsb isnan l then Err ValueError else Ok p | Err e => Err e end.
Lemma e_strict_ok : rejects_nan e_strict.
Proof. intros f p l E H. unfold e_strict. rewrite E, H. reflexivity. Qed.

Lemma e_unit_free : unit_free e_strict.
Proof. intros k f g p Hk H. unfold e_strict. rewrite H. destruct (f p) as [l|]; [|reflexivity]. destruct (existsb isnan l); reflexivity. Qed.

Lemma fit_example : finds_best e_opt (fun q => gaus_residual_FWHM q (map Fin [-1; 0; 1]) (map (fun x => Fin (bell 3 0 2 x)) [-1; 0; 1]) None) /\
  lmfit_gaussian e_opt (map Fin [-1; 0; 1]) (map (fun x => Fin (bell 3 0 2 x)) [-1; 0; 1]) None = Ok (Fin 3, Fin 0, Fin 2).
Proof. exact (conj e_best e_fit). Qed.

Lemma dark_example : lmfit_gaussian e_strict (map Fin [-1; 0; 1]) [Fin 0; Fin 0; Fin 0] None = Err ValueError /\
  lmfit_gaussian e_strict [Fin 0] [Fin 5] None = Err ValueError.
Proof. split; [apply (dark_row e_strict (-1) [0; 1] e_strict_ok)|apply one_sample; [exact e_strict_ok|lra]]. Qed.

Lemma units_example : unit_free e_strict /\
  lmfit_gaussian e_strict (map Fin [-1; 0; 1]) (map Fin [0; 4; 0]) None = Ok (Fin 4, Fin 0, Fin (1/5)).
Proof.
  split; [exact e_unit_free|]. unfold lmfit_gaussian, np_max, np_min. cbn [map fmax1 fmin1 isnan fltb length Nat.sub argmax_ lnth nth bind].
  unfold lnth. cbn [nth isnan fltb].
  rewrite (proj2 (Rltb_true 0 4)) by lra. cbn [nth isnan fltb fmax1 fmin1].
  rewrite (proj2 (Rltb_false 4 0)) by lra. rewrite (proj2 (Rltb_true (-1) 0)) by lra. cbn [fmax1 isnan fltb].
  rewrite (proj2 (Rltb_true 0 1)) by lra. rewrite (proj2 (Rltb_false 0 (-1))) by lra. cbn [fmin1 isnan fltb].
  rewrite (proj2 (Rltb_false 1 (-1))) by lra. cbn [bind getn nth_error].
  replace (fdiv (fsub (Fin 1) (Fin (-1))) (Fin 10)) with (Fin (1/5)).
  2: { unfold fsub, fdiv. cbn [fneg fadd]. rewrite (proj2 (Reqb_false 10 0)) by lra. f_equal. lra. }
  unfold e_strict. pose proof (row_resid (fun x => if Reqb x 0 then 4 else 0) [-1; 0; 1] 4 0 (1/5) 4 ltac:(lra)) as Q. cbn [map] in Q.
  rewrite (proj2 (Reqb_false (-1) 0)), (proj2 (Reqb_true 0 0)), (proj2 (Reqb_false 1 0)) in Q by lra.
  assert (M : np_max [Fin 0; Fin 4; Fin 0] = Ok (Fin 4)).
  { cbn [np_max fmax1 isnan fltb]. rewrite (proj2 (Rltb_true 0 4)) by lra. cbn [fmax1 isnan fltb]. rewrite (proj2 (Rltb_false 4 0)) by lra. reflexivity. }
  rewrite (Q M ltac:(lra)). cbn [existsb isnan orb bind f_A f_mu f_FWHM]. reflexivity.
Qed.
