(* The size of the emission along the slit: concrete cases. *)
From Coq Require Import String Reals List Bool Arith ZArith Lra Lia Psatz.
From Verif Require Import PyFloat PyBase Arr PyNum PKernels PMask MMask SMask MPost SPost PPost MFit1D SFit1D MVert MTrim STrim PTrim PTrim2 MPrep PPrep4 MYprof SYprof PYprof PYprof2.
Import ListNotations.
Local Open Scope R_scope.

(** An optimiser that stays at its starting values when these are allowed. *)
Definition okpar (p : par) : bool := fleb (p_lo p) (p_val p) && fleb (p_val p) (p_hi p).
Definition stay : gopt := fun _ p => if okpar (gp_mu p) && okpar (gp_A p) && okpar (gp_sigma p) then Ok p else Err ValueError.
Lemma okpar_within p : okpar p = true -> within_par p p.
Proof. unfold okpar. intros H. apply andb_prop in H. destruct H. repeat split; assumption. Qed.
Lemma stay_keeps : keeps_limits stay.
Proof.
  intros rf p r H. unfold stay in H. destruct (okpar (gp_mu p) && okpar (gp_A p) && okpar (gp_sigma p)) eqn:E; [|discriminate]. inversion H; subst r.
  apply andb_prop in E. destruct E as [E E3]. apply andb_prop in E. destruct E as [E1 E2]. split; [|split]; apply okpar_within; assumption.
Qed.

Definition ex_ysp : sp2 := mkSp2 None None None (Some (ones 3 1)) (Some (ones 3 1)) None None None None None (Some (ones 3 1)) None
  [] [] [] None None None None None None None None None (Some (Fin 1)) None NaN NaN (Some 3%nat) None None None None true.
Definition ex_yc : ycfg := mkYcfg (Fin 2) (Some (Fin 1)) false IdInt false.
Lemma ex_measurable : measurable ex_ysp 3 1.
Proof. split; [reflexivity|]. split; [lia|]. split; [discriminate|]. exists (ones 3 1), (ones 3 1), (ones 3 1). repeat split. Qed.

Lemma ratio_small : fwhm_ratio < 3.
Proof.
  unfold fwhm_ratio. assert (L : ln 2 < 1). { rewrite <- (ln_exp 1). apply ln_increasing; [lra|]. pose proof (exp_ineq1 1 ltac:(lra)). lra. }
  assert (L0 : 0 < ln 2) by (rewrite <- ln_1; apply ln_increasing; lra). assert (S : sqrt (2 * ln 2) < 3 / 2).
  { rewrite <- (sqrt_square (3 / 2)) by lra. apply sqrt_lt_1; lra. } lra.
Qed.
Lemma draws_const {A} k (f : nat -> res A) a : (forall i, f i = Ok a) -> y_draws k f = Ok (repeat a k).
Proof.
  intros H. induction k as [|k IH]; [reflexivity|]. cbn [y_draws]. rewrite IH. cbn [bind]. rewrite H. cbn [bind]. f_equal. clear. induction k as [|k IH]; [reflexivity|]. cbn. now rewrite IH.
Qed.
Lemma ex_fit rf : exists r, y_fit stay (Fin 2) (Fin 0) (Fin 4) (Fin 1) 3 (Fin (4 / fwhm_ratio)) rf = Ok r /\ p_val (gp_sigma r) = Fin (3 / 4).
Proof.
  pose proof ratio_pos as RP. pose proof ratio_small as RS. unfold y_fit.
  assert (St : y_start (Fin 2) (Fin 0) (Fin 4) (Fin 1) 3 PInf = Ok (mkG (mkPar (Fin 2) (Fin 0) (Fin 4)) (unbounded (Fin 1)) (mkPar (Fin (3 / 4)) (Fin 0) PInf) None)).
  { unfold y_start, lm_par. assert (B : lm_bounds (Fin 0) (Fin 4) = Ok tt).
    { unfold lm_bounds, lm_close. rewrite (proj2 (Rleb_false _ _)); [reflexivity|]. rewrite (Rabs_left (0 - 4)) by lra. rewrite (Rabs_right 4) by lra. lra. }
    rewrite B. cbn [bind]. change (lm_bounds (Fin 0) PInf) with (@Ok unit tt). cbn [bind]. unfold fgtb, fltb. rewrite fdiv_Fin by lra.
    rewrite !(proj2 (Rltb_false _ _)) by lra. replace (INR 3 / 4) with (3 / 4) by (cbn; lra). rewrite (proj2 (Rltb_false _ _)) by lra. reflexivity. }
  rewrite St. cbn [bind]. unfold stay, okpar. cbn [gp_mu gp_A gp_sigma p_lo p_hi p_val unbounded fleb]. rewrite !(proj2 (Rleb_true _ _)) by lra. cbn [andb bind gp_sigma p_val].
  unfold fgtb, fltb. rewrite (proj2 (Rltb_false _ _)). { eexists. split; reflexivity. }
  apply Rmult_le_reg_r with fwhm_ratio; [exact RP|]. replace (4 / fwhm_ratio * fwhm_ratio) with 4 by (field; lra). lra.
Qed.

Lemma ex_measures rnd : exists y, fit_emission_y_profile stay rnd ex_yc ex_ysp = Ok y /\ y_obs y = Fin (3 / 4).
Proof.
  pose proof ratio_pos as RP. pose proof ratio_small as RS. unfold fit_emission_y_profile. change (q_prepared ex_ysp) with true. cbv iota.
  assert (K : exists k, Z.to_nat 500 = S k) by (exists (Z.to_nat 499); rewrite <- Z2Nat.inj_succ by lia; reflexivity). destruct K as (k & ->).
  unfold y_profile. cbn [ex_ysp q_flux q_err q_sky need bind]. unfold times2. rewrite !(proj2 (shape_eqb_true _ _)) by (split; reflexivity). cbn [bind q_mlims need ex_yc yc_pix q_low_inds].
  change (q_mlims ex_ysp) with (Some 3%nat). change (q_ypos ex_ysp) with (Some (Fin 1)). change (q_low_inds ex_ysp) with (@nil nat). cbn [need bind].
  change (setdiff_range 3 []) with [0; 1; 2]%nat. destruct (grid_ends 2 3) as [G1 G2]; [lra|lia|]. cbv zeta. cbv iota. rewrite G2. cbn [bind]. rewrite G1. cbn [bind q_ypos need].
  assert (W : window 2 3 = 4) by (unfold window; cbn; ring). rewrite W.
  assert (Rf : row_flux (mk2 (rows (ones 3 1)) (cols (ones 3 1)) (fun i j => fmul (at2 (ones 3 1) i j) (at2 (ones 3 1) i j))) = [Fin 1; Fin 1; Fin 1]).
  { unfold row_flux. unfold ones, fin2. cbn [rows cols at2 seq map]. unfold fsum. cbn [fold_right fmul fadd]. replace (1 * 1 + 0) with 1 by ring. reflexivity. }
  rewrite Rf. assert (Mx : np_max [Fin 1; Fin 1; Fin 1] = Ok (Fin 1)).
  { destruct (fmax1_high [Fin 1; Fin 1] (Fin 1)) as (r & E & I & _); [intros x [<-|[<-|[<-|[]]]]; eauto|]. cbn [np_max]. rewrite E. destruct I as [I|[I|[I|[]]]]; congruence. }
  rewrite Mx. cbn [bind]. replace (fmul (Fin 1) (Fin 2)) with (Fin 2) by (cbn [fmul]; f_equal; ring). change (rows (ones 3 1)) with 3%nat.
  assert (Ms : fdiv (fsub (Fin 4) (Fin 0)) (Fin std2fwhm) = Fin (4 / fwhm_ratio)) by (unfold fsub; cbn [fneg fadd]; rewrite ratio_same, fdiv_Fin by lra; f_equal; field; lra). rewrite Ms.
  assert (St : exists p, y_start (Fin 2) (Fin 0) (Fin 4) (Fin 1) 3 PInf = Ok p).
  { destruct (ex_fit (fun _ => Ok [])) as (r & E & _). unfold y_fit in E. destruct (y_start (Fin 2) (Fin 0) (Fin 4) (Fin 1) 3 PInf); [eauto|discriminate]. }
  destruct St as (p & ->). cbn [bind].
  match goal with |- context [y_try ?a1 ?a2 ?a3 ?a4 ?a5 ?a6 ?a7 ?a8 ?a9 ?a10 ?yy ?prof ?perr ?wh] => set (Y := y_try a1 a2 a3 a4 a5 a6 a7 a8 a9 a10 yy prof perr wh) end.
  assert (HY : exists y, Y = Ok y /\ y_obs y = Fin (3 / 4)).
  { unfold Y, y_try. cbn [ex_yc yc_fwhm need bind yc_pix yc_plot]. unfold feqb at 1. rewrite (proj2 (Reqb_false _ _)) by lra. cbn [bind length].
    cbn [fmul]. rewrite fdiv_Fin by lra. unfold fltb. rewrite (proj2 (Rltb_false _ _)) by (cbn [INR]; lra). cbn [bind].
    match goal with |- context [y_fit stay _ _ _ _ _ _ (fun q => gaus_residual_mask q ?yy ?pr ?pe ?wh)] => destruct (ex_fit (fun q => gaus_residual_mask q yy pr pe wh)) as (r & Er & Es) end.
    rewrite Er. cbn [bind]. rewrite Es. cbv zeta.
    erewrite (draws_const (S k) _ (Fin (3 / 4))).
    2:{ intros i. match goal with |- context [y_fit stay _ _ _ _ _ _ (fun q => gaus_residual_mask q ?yy ?pr ?pe ?wh)] => destruct (ex_fit (fun q => gaus_residual_mask q yy pr pe wh)) as (r' & Er' & Es') end. rewrite Er'. cbn [bind]. now rewrite Es'. }
    cbn [repeat map bind y_err]. eexists. split; reflexivity. }
  destruct HY as (y & HY & Ho). rewrite HY. eauto.
Qed.

Lemma plot_refuted : exists M rnd c s y y', keeps_limits M /\ q_prepared s = true /\ measurable s 3 1 /\
  fit_emission_y_profile M rnd (plotted c false) s = Ok y /\ y_obs y = Fin (3 / 4) /\
  fit_emission_y_profile M rnd (plotted c true) s = Ok y' /\ none_measured y'.
Proof.
  destruct (ex_measures (fun _ _ => Fin 0)) as (y & E & O). destruct (y_total stay (fun _ _ => Fin 0) (plotted ex_yc true) ex_ysp 3 1 2 eq_refl ex_measurable eq_refl) as (y' & E').
  { apply Rle_trans with 1; [|lra]. rewrite <- Rinv_1. apply Rinv_le_contravar; lra. }
  exists stay, (fun _ _ => Fin 0), ex_yc, ex_ysp, y, y'. split; [apply stay_keeps|]. split; [reflexivity|]. split; [apply ex_measurable|]. split; [exact E|]. split; [exact O|]. split; [exact E'|].
  unfold fit_emission_y_profile in E'. change (q_prepared ex_ysp) with true in E'. cbv iota in E'. eapply plot_loses; [| |exact E']; [reflexivity|left; reflexivity].
Qed.

(** The measurement of a prepared spectrum: what C108 says of the method. *)
Lemma method_measured M rnd c s pix F n y : keeps_limits M -> yc_pix c = Fin pix -> 0 < pix -> yc_fwhm c = Some (Fin F) -> q_mlims s = Some n ->
  fit_emission_y_profile M rnd c s = Ok y -> none_measured y \/ measured pix F n (Z.to_nat 500) y.
Proof. intros K Ep Hp Ef En H. unfold fit_emission_y_profile in H. destruct (q_prepared s); [|discriminate]. eapply y_measured; eauto. Qed.
Lemma method_bounds M rnd c s pix F n y : keeps_limits M -> yc_pix c = Fin pix -> 0 < pix -> yc_fwhm c = Some (Fin F) -> q_mlims s = Some n ->
  fit_emission_y_profile M rnd c s = Ok y -> none_measured y \/ exists o d, y_obs y = Fin o /\ y_d50 y = Fin d /\ 0 <= d <= window pix n /\ 0 <= o <= window pix n / fwhm_ratio /\
  (F ^ 2 <= (fwhm_ratio * o) ^ 2 -> d ^ 2 + F ^ 2 = (fwhm_ratio * o) ^ 2) /\ ((fwhm_ratio * o) ^ 2 < F ^ 2 -> d = 0).
Proof. intros K Ep Hp Ef En H. destruct (method_measured _ _ _ _ _ _ _ _ K Ep Hp Ef En H) as [?|X]; [now left|]. right. eapply measured_bounds; eauto. Qed.
Lemma method_plot_loses M rnd c s y : yc_plot c = true -> (yc_slit c = false \/ yc_id c <> IdInt) -> fit_emission_y_profile M rnd c s = Ok y -> none_measured y.
Proof. intros P S H. unfold fit_emission_y_profile in H. destruct (q_prepared s); [|discriminate]. eapply plot_loses; eauto. Qed.
Lemma method_plot_harmless M rnd c s b : yc_slit c = true -> yc_id c = IdInt -> fit_emission_y_profile M rnd (plotted c b) s = fit_emission_y_profile M rnd c s.
Proof. intros S I. unfold fit_emission_y_profile. destruct (q_prepared s); [|reflexivity]. now apply plot_harmless. Qed.
Lemma method_sky_ignored M rnd c s t : q_prepared t = q_prepared s -> same_but_sky s t -> fit_emission_y_profile M rnd c t = fit_emission_y_profile M rnd c s.
Proof. intros E H. unfold fit_emission_y_profile. rewrite E. destruct (q_prepared s); [|reflexivity]. now apply sky_ignored. Qed.

(** Residuals of a Gaussian at three rows. *)
Lemma ex_gaus_values : gaus_values (mkG (unbounded (Fin 1)) (unbounded (Fin 2)) (nonneg (Fin 3)) None) 2 1 3 0.
Proof. split; [reflexivity|]. split; [reflexivity|]. split; [reflexivity|]. left. auto. Qed.
Lemma ex_residual : exists r, gaus_residual_mask (mkG (unbounded (Fin 1)) (unbounded (Fin 2)) (nonneg (Fin 3)) None) (map Fin [0; 1; 2]) (map Fin [5; 6; 7]) (map Fin [1; 0; 1]) [0; 1]%nat = Ok r.
Proof. eexists. reflexivity. Qed.
Lemma ex_same_sky : exists s t, same_but_sky s t /\ q_flux s <> q_flux t.
Proof.
  set (sk := mk2 1 1 (fun _ _ => Fin 0)). set (f a := mk2 1 1 (fun _ _ => Fin a)).
  set (sp a := mkSp2 None None None (Some (f a)) (Some (f 1)) None None None None None (Some sk) None [] [] [] None None None None None None None None None (Some (Fin 1)) None NaN NaN (Some 1%nat) None None None None true).
  exists (sp 1), (sp 2). split.
  - exists sk, (f 1), (f 1), (f 2), (f 1). repeat (split; [reflexivity|]). split; [|split; [|repeat split]].
    + split; [reflexivity|]. split; [reflexivity|]. intros i j _ _. split; [reflexivity|]. split; [reflexivity|]. intros N. exfalso. apply N. reflexivity.
    + split; [reflexivity|]. split; [reflexivity|]. intros i j _ _. split; [reflexivity|]. split; [reflexivity|]. reflexivity.
  - intros E. assert (X : option_map (fun a => at2 a 0%nat 0%nat) (q_flux (sp 1)) = option_map (fun a => at2 a 0%nat 0%nat) (q_flux (sp 2))) by now rewrite E.
    cbn in X. injection X as X. lra.
Qed.
