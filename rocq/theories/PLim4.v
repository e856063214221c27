From Coq Require Import Reals Lra List Bool Arith ZArith Lia.
From Verif Require Import PyFloat PyBase Arr PyNum MParams MKernels MAper2D SParams SKernels SAper2D SAper1D SLine SLos SReach SFinite SLim PParams PMask PAper2D PAper2DHist PAper2DGrid PAper2DShape PAper2DOk PAper2DVal PAper2DGeo PKernels PKernels2 PProf PAper1D5 PLine PLos PLos3 PFinite PFinite2 PFinite3 PLim PLim2 PLim3.
Import ListNotations.
Local Open Scope R_scope.

Lemma upsample_same c a b a' b' : a_su a = a_su b -> a_wv a = a_wv b -> abs_lt_truth (a_disp a) (s_up (a_su a)) = abs_lt_truth (a_disp b) (s_up (a_su b)) ->
  check_do_upsample_wave c a = (a', Ok tt) -> check_do_upsample_wave c b = (b', Ok tt) -> a_wv a' = a_wv b'.
Proof.
  intros S W T. unfold check_do_upsample_wave. ub. rewrite T, S, W. destruct (abs_lt_truth (a_disp b) _) as [[|]|]; [| |intros Q; discriminate Q].
  - destruct (s_real _) as [re|]; [|intros Q; discriminate Q]. destruct (np_min _) as [mn|]; [|intros Q; discriminate Q]. destruct (np_max _) as [mx|]; [|intros Q; discriminate Q].
    destruct (int_round _) as [n|]; [|intros Q; discriminate Q]. destruct (n <? 0)%Z; [intros Q; discriminate Q|]. intros Q1 Q2. injection Q1 as <-. injection Q2 as <-. reflexivity.
  - intros Q1 Q2. injection Q1 as <-. injection Q2 as <-. exact W.
Qed.

Section Lim.
Variables (c : cfg) (l : list R) (th : option nat -> list fl).
Hypothesis Hsh : forall o, shining c (th o) l.
Hypothesis Hlast : forall o, getz (th o) (-1) = getz (th None) (-1) /\ getz (th o) (-2) = getz (th None) (-2).
Hypothesis Cvel : forall r h, cv (fun o => val (p_vel (c_prof c) (firstn (p_nvel (c_prof c)) (th o)) (Fin r) (Fin h))).
Variable s : option nat -> R.
Hypothesis Hs : forall o, nth (p_nvel (c_prof c)) (th o) NaN = Fin (s o).
Hypothesis Cs : cv s.
Hypothesis Hdisp : continuous_dispersion c.
Variables (r0 z : R).
Hypothesis Hr0 : hd NaN (g_rest (c_gal c)) = Fin r0.
Hypothesis Hz : nth (length (th None) - 1) (th None) NaN = Fin z.
Let pix := pixel_velocity l (r0 * (1 + z)) / (235 / 100).
Hypothesis Hpos : o_floor (c_opt c) = true \/ forall o, s o <> 0.
Hypothesis Hside : o_adapt (c_opt c) = true -> (forall o, Rabs (s o) < pix) \/ (forall o, ~ Rabs (s o) < pix).

Lemma eval_cvg : exists m, (forall o, image_is c (th o) (m o)) /\ cvg2 (img_rows c) (length l) m.
Proof.
  pose proof (sh_posed _ _ _ (Hsh None)) as Hwp. destruct (well_posed_eval _ _ _ Hwp) as (aN & bN & EsN & _).
  destruct (setup_ok _ _ _ Hwp) as (g & w & Hg).
  assert (Hgo : forall o, setup_model_grid c (th o) = Ok (g, w)) by (intros o; destruct (Hlast o) as (L1 & L2); rewrite <- Hg; now apply setup_grid_ext).
  assert (GG : forall o, good_grid c (firstn (p_nvel (c_prof c)) (th o)) g) by (intros o; apply (good_setup _ _ _ _ _ (Hsh o) (Hgo o))).
  destruct (good_setup _ _ _ _ _ (Hsh None) Hg) as (_ & Gst).
  pose proof Hwp as (H1&H2&H3&H4&H5&H6&H7&H8&H9&H10&H11&H12&H13&H14&H15&H16&H17&H18&H19).
  destruct (setup_fields _ _ _ _ Hg) as (F1&F2&F3&F4&F5&F6&F7&F8&F9&F10&F11&F12&F13&F14&F15&F16&F17&F18&F19&F20&F21&F22&F23).
  destruct (setup_calcs_inv _ _ _ EsN) as (w'&Rl&W&I&T).
  assert (Sg : s_grid (a_su aN) = g /\ a_wv aN = w /\ a_stamp aN = make_stamp (c_ins c) g).
  { revert EsN. unfold setup_calcs. rewrite Hg. cbn [bind]. intros Q. injection Q as <-. repeat split. }
  destruct Sg as (Sg & Wg & Stg). rewrite Wg in W. subst w'.
  set (A0 := fun o => set_theta (th o) aN).
  assert (Es : forall o, setup_calcs c (th o) = Ok (A0 o)) by (intros o; destruct (Hlast o) as (L1 & L2); apply (setup_calcs_ext c (th None)); auto).
  set (B := fun o => fst (do_model_calcs c (A0 o))).
  assert (E : forall o, do_model_calcs c (A0 o) = (B o, Ok tt)).
  { intros o. destruct (well_posed_eval _ _ _ (sh_posed _ _ _ (Hsh o))) as (a & b & Ea & Eb). rewrite Es in Ea. injection Ea as <-. unfold B. rewrite Eb. reflexivity. }
  assert (Im : forall o, a_model (B o) = Some (get2 (a_model (B o))) /\ rows (get2 (a_model (B o))) = img_rows c /\ cols (get2 (a_model (B o))) = length l).
  { intros o. destruct (setup_calcs_inv _ _ _ (Es o)) as (w'&Rl'&W'&I'&T'). change (a_wv (A0 o)) with (a_wv aN) in W'. rewrite Wg in W'. subst w'.
    destruct (eval_shape c (th o) g w (a_su (A0 o)) (a_stamp (A0 o)) (A0 o) (B o) (Hgo o) Sg Rl I' Wg (E o)) as (m & Em & Rm & Cm). rewrite H5, map_length in Cm. rewrite Em. cbn [get2]. auto. }
  exists (fun o => get2 (a_model (B o))). split; [intros o; exists (A0 o), (B o); destruct (Im o) as (Q & _); auto|].
  (* thresholds *)
  assert (El : lam0_primary g = Fin (r0 * (1 + z)) /\ 0 < r0 * (1 + z)).
  { destruct (gg_lam _ _ _ (GG None)) as (y & Ey & Py). destruct (setup_cubes _ _ _ _ Hg) as (_&CL&_). destruct (CL H11) as (r & Er & Elr).
    destruct (gg_z _ _ _ (GG None)) as (z' & Gz & _).
    assert (T1 : getz (th None) (-1) = Ok (nth (length (th None) - 1) (th None) NaN)) by (apply (getz_neg (th None) NaN 1); lia).
    assert (Gz' : gz g = Fin z) by congruence.
    destruct (g_rest (c_gal c)) as [|a0 rs] eqn:Eg; [discriminate Er|]. injection Er as <-. cbn [hd] in Hr0. subst a0. rewrite Gz' in Elr. cbn [fadd fmul] in Elr.
    rewrite Ey in Elr. injection Elr as Elr. split; [congruence|]. lra. }
  destruct El as (El & Pl).
  destruct (sigma_thresholds c (th None) aN l (r0 * (1 + z)) EsN H5 H7 H11) as (SU & SF); [now rewrite Sg|lra| |].
  { intros Ha. destruct (H17 Ha) as (f & Lf & ->). assert (0 < INR f) by (apply lt_0_INR; lia). lra. }
  fold pix in SU, SF. pose proof (pixel_pos l _ H6 H7 Pl) as Pp. assert (Pp' : 0 < pix) by (unfold pix; apply Rdiv_lt_0_compat; lra).
  set (ff := if o_floor (c_opt c) then (if o_adapt (c_opt c) then 3 / 4 * (pix / o_factor (c_opt c)) else pix) else 0).
  assert (Pff : 0 <= ff /\ (o_floor (c_opt c) = true -> 0 < ff)).
  { unfold ff. destruct (o_floor (c_opt c)); [|split; [lra|discriminate]]. destruct (o_adapt (c_opt c)) eqn:Ea; [|lra]. destruct (H17 eq_refl) as (f & Lf & ->). assert (0 < INR f) by (apply lt_0_INR; lia).
    assert (0 < 3 / 4 * (pix / INR f)) by (apply Rmult_lt_0_compat; [lra|now apply Rdiv_lt_0_compat]). lra. }
  assert (Teff : forall o, 0 < Rmax (Rabs (s o)) ff).
  { intros o. destruct Hpos as [Q|Q]; [eapply Rlt_le_trans; [apply Pff, Q|apply Rmax_r]|]. eapply Rlt_le_trans; [apply Rabs_pos_lt, Q|apply Rmax_l]. }
  destruct (sh_rest _ _ _ (Hsh None)) as (rest & Hre & Pre). destruct (sh_ratio _ _ _ (Hsh None)) as (ratio & Hra & Pra).
  assert (Gok : geom_ok c g) by (unfold geom_ok; rewrite F3; repeat split; auto; nia).
  assert (WN : w_arr w = map Fin l /\ w_n w = length l /\ w_d w = average (diffs (map Fin l)) /\ wave_ok g w).
  { rewrite F23, H5. cbn [w_arr w_n w_d]. rewrite map_length. repeat split. cbn [w_arr w_n]. now rewrite map_length. }
  destruct WN as (W1 & W2 & W3 & W4).
  (* the run *)
  unfold do_model_calcs in E. apply bindS_fam in E. destruct E as (A1 & E1 & E).
  assert (P1 : forall o, a_su (A1 o) = a_su aN /\ a_wv (A1 o) = w /\ a_stamp (A1 o) = a_stamp aN /\ a_vel (A1 o) = firstn (p_nvel (c_prof c)) (th o) /\ a_disp (A1 o) = [Fin (s o)]).
  { intros o. specialize (E1 o). injection E1 as <-. cbn [a_su a_wv a_stamp a_vel a_disp set_prof set_theta A0 a_theta]. repeat (split; [auto; fail|]).
    pose proof (sh_posed _ _ _ (Hsh o)) as (X1&X2&X3&X4&X5&X6&X7&X8&X9&X10&_). rewrite X9. rewrite <- Hs.
    assert (Q := firstn_skipn (p_nvel (c_prof c)) (th o)).
    destruct (skipn (p_nvel (c_prof c)) (th o)) as [|y t] eqn:Ek.
    - apply (f_equal (@length _)) in Ek. rewrite skipn_length in Ek. cbn in Ek. lia.
    - cbn [firstn]. f_equal. rewrite <- Q, app_nth2; rewrite firstn_length, Nat.min_l by lia; [|lia]. now rewrite Nat.sub_diag. }
  apply bindS_fam in E. destruct E as (A2 & E2 & E).
  assert (X : exists w2 x f, (forall o, a_su (A2 o) = a_su aN /\ a_stamp (A2 o) = a_stamp aN /\ a_disp (A2 o) = [Fin (s o)] /\ a_vel (A2 o) = firstn (p_nvel (c_prof c)) (th o) /\ a_wv (A2 o) = w2) /\
     wave_ok g w2 /\ w_arr w2 = map Fin x /\ w_n w2 = (length l * f)%nat /\ (1 <= f)%nat /\ (o_adapt (c_opt c) = false -> f = 1%nat)).
  { destruct (o_adapt (c_opt c)) eqn:Ea.
    - assert (AT : exists b, forall o, abs_lt_truth (a_disp (A1 o)) (s_up (a_su aN)) = Ok b).
      { destruct (Hside eq_refl) as [Q|Q]; [exists true|exists false]; intros o; destruct (P1 o) as (_&_&_&_&->); rewrite SU; cbn [abs_lt_truth fabs fltb]; f_equal; [now apply Rltb_true|apply Rltb_false; specialize (Q o); lra]. }
      destruct AT as (b & AT). destruct (H17 eq_refl) as (f & Lf & Ef). destruct b.
      + assert (UT : forall o, a_su (A2 o) = a_su aN /\ a_stamp (A2 o) = a_stamp aN /\ a_disp (A2 o) = [Fin (s o)] /\ wave_ok g (a_wv (A2 o)) /\ w_n (a_wv (A2 o)) = (length l * f)%nat /\
           exists x, w_arr (a_wv (A2 o)) = map Fin x).
        { intros o. destruct (P1 o) as (S1 & V1 & T1 & _ & D1). destruct (upsample_triggered c (a_su aN) w (A1 o) l f) as (a2'&E2'&S2&D2&T2&I2&R2&N2&L2&_&V2); auto.
          pose proof (E2 o) as E2o. rewrite E2' in E2o. injection E2o as E2o. rewrite Sg in I2, R2. rewrite <- E2o, S2, T2, D2. repeat (split; [congruence|]).
          split; [unfold wave_ok; rewrite I2, R2, N2; auto|]. split; [exact N2|]. exists (map val (w_arr (a_wv a2'))).
          apply nth_ext with (d := NaN) (d' := Fin (val NaN)); [now rewrite !map_length|]. intros k Hk. rewrite map_map, (map_nth (fun y => Fin (val y))).
          rewrite L2 in Hk. specialize (V2 k Hk). unfold lnth in V2. now rewrite V2. }
        destruct (UT None) as (_ & _ & _ & U4 & U5 & x & U6). exists (a_wv (A2 None)), x, f. split; [|split; [exact U4|]; split; [exact U6|]; split; [exact U5|]; split; [exact Lf|discriminate]].
        intros o. destruct (UT o) as (U1 & U2 & U3 & _). repeat (split; [assumption|]). destruct (P1 o) as (S1 & V1 & T1 & Ve & D1). split; [rewrite (upsample_vel _ _ _ _ (E2 o)); exact Ve|].
        destruct (P1 None) as (S1' & V1' & _). apply (upsample_same c (A1 o) (A1 None)); try congruence; auto.
      + exists w, l, 1%nat. split; [|repeat (split; [auto; fail|]); rewrite W2, Nat.mul_1_r; auto].
        intros o. destruct (P1 o) as (S1 & V1 & T1 & Ve & D1). pose proof (E2 o) as Q. unfold check_do_upsample_wave in Q. revert Q. ub. rewrite S1, AT. intros Q. injection Q as <-. auto.
    - exists w, l, 1%nat. split; [|repeat (split; [auto; fail|]); rewrite W2, Nat.mul_1_r; auto].
      intros o. destruct (P1 o) as (S1 & V1 & T1 & Ve & D1). pose proof (E2 o) as Q. injection Q as <-. auto. }
  destruct X as (w2 & x & f & P2 & Wo2 & X2 & N2 & Lf & Lf').
  assert (Lx : length x = w_n w2) by (destruct Wo2 as (_&_&Q); rewrite <- Q, X2, map_length; reflexivity).
  assert (N0 : (0 < w_n w2)%nat) by (rewrite N2; nia).
  assert (Nx : x <> []) by (destruct x; [cbn in Lx; lia|discriminate]).
  apply bindS_fam in E. destruct E as (A3 & E3 & E).
  assert (Fd : forall o r h, exists v, p_disp (c_prof c) [Fin (Rmax (Rabs (s o)) ff)] (Fin r) (Fin h) = Fin v /\ 0 < v).
  { intros o r h. destruct (sh_disp _ _ _ (Hsh o) (Rmax (Rabs (s o)) ff) (Rlt_le _ _ (Teff o)) r h) as (v & Ev & _ & Pv). exists v. split; [exact Ev|apply Pv, Teff]. }
  destruct (calc_cvg c g (a_su aN) w2 x rest ratio ff H14 H15 H11 Hre) with (vel := fun o => firstn (p_nvel (c_prof c)) (th o)) (s := s) (A := A2) (B := A3) as (C & HC & CC); auto; try (intros o; apply P2; fail).
  { intros Q. apply H12. now rewrite Hre, Q. } { rewrite Hre, Hra, !map_length in H13. exact H13. }
  { intros Q. rewrite SF. unfold ff. now rewrite Q. } { intros Q. unfold ff. now rewrite Q. }
  { intros o. destruct (sh_s _ _ _ (Hsh o)) as (y & Ey & Q). rewrite Hs in Ey. injection Ey as <-. exact Q. }
  { intros o r h. apply (sh_vel _ _ _ (Hsh o)). }
  { intros r h. destruct (Hdisp (fun n => Rmax (Rabs (s (Some n))) ff) (Rmax (Rabs (s None)) ff)) with (r := r) (h := h) as (q & y & Q1 & Q2 & Q3); [intros n; apply Teff|apply Teff|exact (cv_max _ _ (cv_abs _ Cs))|].
    unfold cv. rewrite Q2. cbn [val]. intros eps He. destruct (Q3 eps He) as (N & HN). exists N. intros n Hn. rewrite Q1. cbn [val]. now apply HN. }
  destruct Gok as (G0&G1&G2&GZ&GX&GY&GE&GW).
  assert (NYp : (0 < nY g)%nat) by lia.
  apply bindS_fam in E. destruct E as (A4 & E4 & E).
  assert (P3 : forall o, a_su (A3 o) = a_su aN /\ a_wv (A3 o) = w2 /\ a_stamp (A3 o) = a_stamp aN).
  { intros o. destruct (calc_shape _ _ _ (E3 o)) as (S3&Wv3&T3&_). destruct (P2 o) as (Q1 & Q2 & _ & _ & Q5). repeat split; congruence. }
  assert (P4 : forall o, a_su (A4 o) = a_su aN /\ a_wv (A4 o) = w2).
  { intros o. destruct (conv_shape _ _ _ _ (HC o) (E4 o)) as (S4&Wv4&_). destruct (P3 o) as (Q1 & Q2 & _). split; congruence. }
  assert (X : exists D, (forall o, a_conv (A4 o) = Some (D o)) /\ cvg3 (w_n w2) (nY g) (nX g) D).
  { exists (fun o => get3 (a_conv (A4 o))).
    assert (Ep : forall o, PSF_convolve (C o) (Fin (i_fwhm (c_ins c))) (make_stamp (c_ins c) g) = Ok (a_conv (A4 o))).
    { intros o. pose proof (E4 o) as Q. revert Q. unfold convolve_spectral_cube_PSF. ub. destruct (P3 o) as (_ & _ & T3). rewrite (HC o), T3, Stg.
      destruct (PSF_convolve (C o) _ _) as [d|e] eqn:Ep; intros Q; [|discriminate Q]. injection Q as <-. reflexivity. }
    destruct (Rltb 0 (i_fwhm (c_ins c))) eqn:G.
    - apply Rltb_true in G. destruct (Gst G) as (ker & Ek & K0 & K1 & K2 & Kp). 
      assert (Y : forall o, a_conv (A4 o) = Some (get3 (a_conv (A4 o)))).
      { intros o. apply get3_some. destruct (a_conv (A4 o)) as [d|] eqn:Ed; [now exists d|]. exfalso. specialize (Ep o). rewrite Ed, Ek in Ep. revert Ep. unfold PSF_convolve, fgtb, fltb. rewrite (proj2 (Rltb_true _ _) G).
        destruct (_ || _) eqn:Z; [|intros Q; discriminate Q]. destruct CC as (CC & _). destruct (CC o) as (D0 & D1 & D2 & _).
        apply orb_true_iff in Z. unfold size3 in Z. destruct Z as [Z|Z]; apply Nat.eqb_eq in Z; apply Nat.eq_mul_0 in Z; destruct Z as [Z|Z]; try apply Nat.eq_mul_0 in Z; lia. }
      split; [exact Y|]. apply (psf_cvg (w_n w2) (nY g) (nX g) C (fun o => get3 (a_conv (A4 o))) ker (i_fwhm (c_ins c))); auto. intros o. rewrite <- Y, <- Ep, Ek. reflexivity.
    - assert (Y : forall o, a_conv (A4 o) = Some (C o)).
      { intros o. specialize (Ep o). unfold PSF_convolve, fgtb, fltb in Ep. rewrite G in Ep. now injection Ep as <-. }
      split; [intros o; rewrite Y; reflexivity|]. destruct CC as (CC1 & CC2). split.
      + intros o. rewrite Y. apply CC1.
      + intros i j k Hi Hj Hk. apply (cv_ext (fun o => val3 (C o) i j k)); [intros o; now rewrite Y|now apply CC2]. }
  destruct X as (D & HD & CD).
  apply bindS_fam in E. destruct E as (A5 & E5 & E).
  assert (Nd : forall o, dim0 (D o) = w_n w2 /\ dim1 (D o) = nY g /\ dim2 (D o) = nX g) by (intros o; destruct (proj1 CD o) as (Q0 & Q1 & Q2 & _); auto).
  assert (NW : (0 < n_pix_y_whole g)%nat) by (rewrite F3; lia).
  assert (NS : (0 < o_nsub (c_opt c))%nat) by (destruct (o_nsub (c_opt c)); lia).
  assert (CT := cut_cvg (w_n w2) (nY g) (nX g) D (padY g) (n_pix_y g) (padX g) (n_pix_x g) (delt_x g) CD ltac:(lia) ltac:(rewrite (gg_nX _ _ _ (GG None)); lia) (gg_nx _ _ _ (GG None)) (gg_dx _ _ _ (GG None))).
  set (OUT := fun o => mk2 (w_n w2) (n_pix_y g) (fun w0 j => fmul (fsumn (n_pix_x g) (fun k => at3 (D o) w0 (padY g + j) (padX g + k))) (Fin (delt_x g)))) in CT.
  assert (X : exists M q, (forall o, a_out (A5 o) = Some (M o) /\ a_su (A5 o) = a_su aN /\ a_wv (A5 o) = w2) /\ (0 < q)%nat /\ cvg2 (w_n w2) (n_pix_y_whole g * q) M /\ (o_rebin (c_opt c) = false -> q = o_nsub (c_opt c)) /\ (o_rebin (c_opt c) = true -> q = 1%nat)).
  { assert (Y : forall o, if o_rebin (c_opt c) then exists b, rebin2 (OUT o) (w_n w2) (n_pix_y_whole g) = Ok b /\ a_out (A5 o) = Some b /\ a_su (A5 o) = a_su aN /\ a_wv (A5 o) = w2
        else a_out (A5 o) = Some (OUT o) /\ a_su (A5 o) = a_su aN /\ a_wv (A5 o) = w2).
    { intros o. pose proof (E5 o) as Q. revert Q. unfold trim_downsample_spectral_cube. ub. destruct (P4 o) as (S4 & V4). destruct (Nd o) as (D0 & D1 & D2). rewrite H16, (HD o), S4, V4, Sg. unfold cut. rewrite D0, D1, D2, (gg_nX _ _ _ (GG None)), GE.
      rewrite (Nat.min_l (padY g)) by lia. rewrite (Nat.min_l (n_pix_y g + padY g)) by lia. rewrite (Nat.min_l (padX g)) by lia. rewrite (Nat.min_l (n_pix_x g + padX g)) by lia.
      replace (n_pix_y g + padY g - padY g)%nat with (n_pix_y g) by lia. replace (n_pix_x g + padX g - padX g)%nat with (n_pix_x g) by lia. cbn [at3].
      change (mk2 (w_n w2) (n_pix_y g) (fun w0 j => fmul (fsumn (n_pix_x g) (fun k => at3 (D o) w0 (padY g + j) (padX g + k))) (Fin (delt_x g)))) with (OUT o).
      destruct (o_rebin (c_opt c)).
      - destruct (rebin2 (OUT o) (w_n w2) (n_pix_y_whole g)) as [b|e] eqn:Eb; intros Q; [|discriminate Q]. injection Q as <-. exists b. cbn [a_out a_su a_wv set_out set_conv]. repeat split; auto; congruence.
      - intros Q. injection Q as <-. cbn [a_out a_su a_wv set_out set_conv]. repeat split; auto; congruence. }
    exists (fun o => get2 (a_out (A5 o))). destruct (o_rebin (c_opt c)).
    - exists 1%nat. split; [intros o; destruct (Y o) as (b & _ & -> & -> & ->); auto|]. split; [lia|]. split; [|split; [discriminate|reflexivity]].
      rewrite Nat.mul_1_r. apply (rebin_cvg (w_n w2) (n_pix_y_whole g) 1 (o_nsub (c_opt c)) OUT); auto; try lia.
      + rewrite Nat.mul_1_r, <- GW. exact CT.
      + intros o. destruct (Y o) as (b & Eb & -> & _). exact Eb.
    - exists (o_nsub (c_opt c)). split; [intros o; destruct (Y o) as (-> & -> & ->); auto|]. split; [exact NS|]. split; [|split; [reflexivity|discriminate]].
      rewrite <- GW. destruct CT as (CT1 & CT2). split; [intros o; destruct (Y o) as (-> & _); apply CT1|]. intros i j Hi Hj. apply (cv_ext (fun o => val2 (OUT o) i j)); [intros o; destruct (Y o) as (-> & _); reflexivity|now apply CT2]. }
  destruct X as (M & q & HM & Pq & CM & Qf & Qt).
  apply bindS_fam in E. destruct E as (A6 & E6 & E).
  assert (X : exists M', (forall o, a_out (A6 o) = Some (M' o) /\ a_su (A6 o) = a_su aN) /\ cvg2 (w_n w2) (n_pix_y_whole g * q) M').
  { destruct (sh_res _ _ _ (Hsh None)) as (rs & Er). pose proof c_kms_pos as Hc.
    assert (Y : forall o, if Rltb 0 (rs / c_kms * (r0 * (1 + z))) then exists b, inst_convol_complete (M o) (map Fin x) (IdwFloat (Fin (rs / c_kms * (r0 * (1 + z))))) = Ok b /\ a_out (A6 o) = Some b /\ a_su (A6 o) = a_su aN
        else a_out (A6 o) = Some (M o) /\ a_su (A6 o) = a_su aN).
    { intros o. pose proof (E6 o) as Q. revert Q. destruct (HM o) as (O5 & S5 & V5). unfold convolve_instrument_resolution. ub. rewrite H14, H11, Er, S5, Sg, El. cbn [set_dvel a_idw a_out a_wv a_su].
      rewrite fdiv_Fin by lra. cbn [fmul]. unfold fgtb, fltb. destruct (Rltb 0 (rs / c_kms * (r0 * (1 + z)))) eqn:G.
      - rewrite O5, V5, X2. destruct (inst_convol_complete (M o) (map Fin x) _) as [b|e] eqn:Eb; intros Q; [|discriminate Q]. injection Q as <-. exists b. cbn [a_out a_su set_out set_dvel]. repeat split; auto.
      - intros Q. injection Q as <-. cbn [a_out a_su set_dvel]. now split. }
    exists (fun o => get2 (a_out (A6 o))). destruct (Rltb 0 (rs / c_kms * (r0 * (1 + z)))) eqn:G.
    - apply Rltb_true in G. split; [intros o; destruct (Y o) as (b & _ & -> & ->); auto|]. apply (inst_cvg (w_n w2) (n_pix_y_whole g * q) M _ x (rs / c_kms * (r0 * (1 + z)))); auto; try lra; try nia.
      intros o. destruct (Y o) as (b & Eb & -> & _). exact Eb.
    - split; [intros o; destruct (Y o) as (-> & ->); auto|]. destruct CM as (CM1 & CM2). split; [intros o; destruct (Y o) as (-> & _); apply CM1|]. intros i j Hi Hj. apply (cv_ext (fun o => val2 (M o) i j)); [intros o; destruct (Y o) as (-> & _); reflexivity|now apply CM2]. }
  destruct X as (M' & HM' & CM').
  apply bindS_fam in E. destruct E as (A7 & E7 & E).
  assert (X : exists N, (forall o, a_out (A7 o) = Some (N o)) /\ cvg2 (length l) (img_rows c) N).
  { unfold img_rows. destruct (o_adapt (c_opt c)) eqn:Ea.
    - rewrite orb_true_r. rewrite F3 in *. exists (fun o => get2 (a_out (A7 o))).
      assert (Y : forall o, exists b, rebin2 (M' o) (length l) (g_rows (c_gal c)) = Ok b /\ a_out (A7 o) = Some b).
      { intros o. pose proof (E7 o) as Q. revert Q. destruct (HM' o) as (O6 & S6). unfold downsample_to_real_wave. ub. rewrite S6, (Rl eq_refl), O6, Sg, W2, F3. destruct (rebin2 (M' o) _ _) as [b|e] eqn:Eb; intros Q; [|discriminate Q]. injection Q as <-. exists b. now split. }
      split; [intros o; destruct (Y o) as (b & _ & ->); reflexivity|]. apply (rebin_cvg (length l) (g_rows (c_gal c)) f q M'); auto; try lia; [now rewrite <- N2|]. intros o. destruct (Y o) as (b & Eb & ->). exact Eb.
    - rewrite orb_false_r. exists M'. split; [intros o; pose proof (E7 o) as Q; injection Q as <-; apply HM'|]. rewrite (Lf' eq_refl), Nat.mul_1_r in N2. rewrite N2, F3 in CM'.
      destruct (o_rebin (c_opt c)); [rewrite (Qt eq_refl), Nat.mul_1_r in CM'|rewrite (Qf eq_refl) in CM']; exact CM'. }
  destruct X as (N & HN & CN).
  assert (Y : forall o, get2 (a_model (B o)) = transpose (N o)).
  { intros o. specialize (E o). revert E. ub. rewrite (HN o). intros Q. injection Q as <-. reflexivity. }
  destruct CN as (CN1 & CN2). split.
  - intros o. rewrite Y. destruct (CN1 o) as (R & C' & P). cbn [transpose rows cols]. split; [exact C'|]. split; [exact R|]. intros i j Hi Hj. cbn [transpose rows cols at2] in *. now apply P.
  - intros i j Hi Hj. apply (cv_ext (fun o => val2 (N o) j i)); [intros o; rewrite Y; reflexivity|now apply CN2].
Qed.
End Lim.
