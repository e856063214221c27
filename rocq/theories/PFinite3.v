From Coq Require Import Reals Lra List Bool Arith ZArith Lia.
From Verif Require Import PyFloat PyBase Arr PyNum MParams MKernels MAper2D SParams SKernels SAper2D SAper1D SLine SLos SReach SFinite PParams PMask PAper2D PAper2DHist PAper2DGrid PAper2DShape PAper2DOk PAper2DVal PAper2DGeo PKernels PKernels2 PProf PAper1D5 PLine PLos PLos3 PFinite PFinite2.
Import ListNotations.
Local Open Scope R_scope.

Lemma upsample_vel c a b r : check_do_upsample_wave c a = (b, r) -> a_vel b = a_vel a.
Proof.
  unfold check_do_upsample_wave. ub. destruct (abs_lt_truth _ _) as [[|]|]; try (intros E; injection E as <- <-; reflexivity).
  destruct (s_real _) as [re|]; [|intros E; injection E as <- <-; reflexivity]. cbn [a_wv set_wv w_arr].
  destruct (np_min _); [|intros E; injection E as <- <-; reflexivity]. destruct (np_max _); [|intros E; injection E as <- <-; reflexivity].
  destruct (int_round _) as [n|]; [|intros E; injection E as <- <-; reflexivity]. destruct (n <? 0)%Z; intros E; injection E as <- <-; reflexivity.
Qed.

Lemma pixel_pos l lam : increasing l -> (2 <= length l)%nat -> 0 < lam -> 0 < pixel_velocity l lam.
Proof.
  intros Hi Hl Hlam. unfold pixel_velocity. destruct l as [|x [|y l]]; [cbn in Hl; lia|cbn in Hl; lia|]. pose proof (increasing_last _ _ _ Hi) as X.
  assert (1 < INR (length (x :: y :: l))) by (apply (lt_INR 1); exact Hl). cbn [hd]. pose proof c_kms_pos.
  apply Rmult_lt_0_compat; [|exact H0]. repeat apply Rdiv_lt_0_compat; lra.
Qed.

Lemma inst_stage_lit c a b m x : o_shift (c_opt c) = false -> o_spec (c_opt c) = Wave -> a_out a = Some m -> lit2 m -> (0 < rows m)%nat -> (0 < cols m)%nat ->
  (exists rs, i_res (c_ins c) = Fin rs) -> (exists y, lam0_primary (s_grid (a_su a)) = Fin y /\ 0 < y) -> w_arr (a_wv a) = map Fin x -> x <> [] ->
  convolve_instrument_resolution c a = (b, Ok tt) -> exists m', a_out b = Some m' /\ lit2 m'.
Proof.
  intros Hs Hsp Ho Lm Hr Hc (rs & Er) (lam & El & Pl) Hx Nx. unfold convolve_instrument_resolution. ub. rewrite Hs, Hsp, Er, El. cbn [set_dvel a_idw a_out a_wv].
  pose proof c_kms_pos. rewrite fdiv_Fin by lra. cbn [fmul]. unfold fgtb, fltb. destruct (Rltb 0 (rs / c_kms * lam)) eqn:G.
  - apply Rltb_true in G. rewrite Ho, Hx. destruct (inst_convol_complete m (map Fin x) _) as [o|e] eqn:E; intros Q; [|discriminate Q]. injection Q as <-. exists o. split; [reflexivity|].
    refine (inst_lit m x _ o Lm Hr Hc _ Nx E). lra.
  - intros Q. injection Q as <-. exists m. now split.
Qed.

Lemma eval_lit c th l : shining c th l -> exists m, image_is c th m /\ sound_image (img_rows c) (length l) m.
Proof.
  intros Sh. pose proof (sh_posed _ _ _ Sh) as Hwp. destruct (well_posed_eval _ _ _ Hwp) as (a0 & b & Es & E).
  destruct (setup_ok _ _ _ Hwp) as (g & w & Hg). destruct (good_setup _ _ _ _ _ Sh Hg) as (Gg & Gst).
  pose proof Hwp as (H1&H2&H3&H4&H5&H6&H7&H8&H9&H10&H11&H12&H13&H14&H15&H16&H17&H18&H19).
  destruct (setup_fields _ _ _ _ Hg) as (F1&F2&F3&F4&F5&F6&F7&F8&F9&F10&F11&F12&F13&F14&F15&F16&F17&F18&F19&F20&F21&F22&F23).
  destruct (setup_calcs_inv _ _ _ Es) as (w'&Rl&W&I&T).
  assert (Sg : s_grid (a_su a0) = g /\ a_wv a0 = w /\ a_stamp a0 = make_stamp (c_ins c) g).
  { revert Es. unfold setup_calcs. rewrite Hg. cbn [bind]. intros Q. injection Q as <-. repeat split. }
  destruct Sg as (Sg & Wg & Stg). rewrite Wg in W. subst w'.
  destruct (eval_shape c th g w (a_su a0) (a_stamp a0) a0 b Hg Sg Rl I Wg E) as (m & Em & Rm & Cm). rewrite H5, map_length in Cm.
  exists m. split; [exists a0, b; auto|]. split; [exact Rm|]. split; [exact Cm|].
  assert (Fl : forall v, s_floor (a_su a0) = Some v -> exists y, v = Fin y /\ 0 < y).
  { destruct (gg_lam _ _ _ Gg) as (lam & El & Pl). destruct (sigma_thresholds c th a0 l lam Es H5 H7 H11) as (_ & Q); [now rewrite Sg|lra| |].
    - intros Ha. destruct (H17 Ha) as (f & Lf & ->). assert (0 < INR f) by (apply lt_0_INR; lia). lra.
    - rewrite Q. pose proof (pixel_pos l lam H6 H7 Pl) as Pp. intros v. destruct (o_floor (c_opt c)); intros X; [|discriminate X]. injection X as <-. eexists. split; [reflexivity|].
      destruct (o_adapt (c_opt c)) eqn:Ea; [|apply Rdiv_lt_0_compat; lra]. destruct (H17 eq_refl) as (f & Lf & ->). assert (0 < INR f) by (apply lt_0_INR; lia).
      apply Rmult_lt_0_compat; [lra|]. apply Rdiv_lt_0_compat; [|lra]. apply Rdiv_lt_0_compat; lra. }
  destruct (sh_s _ _ _ Sh) as (s & Hs & Ss). destruct (sh_rest _ _ _ Sh) as (rest & Hre & Pre). destruct (sh_ratio _ _ _ Sh) as (ratio & Hra & Pra).
  assert (Gok : geom_ok c g) by (unfold geom_ok; rewrite F3; repeat split; auto; nia).
  unfold do_model_calcs in E. destruct (update_theta c a0) as [a1 [u1|]] eqn:E1; [|discriminate].
  rewrite (bindS_Ok _ _ _ _ _ E1) in E. injection E1 as <- <-. rewrite T in E. set (a1 := set_prof _ _ a0) in E.
  assert (HD : a_disp a1 = [Fin s]).
  { unfold a1. cbn [a_disp set_prof]. rewrite H9. rewrite <- Hs. assert (Q := firstn_skipn (p_nvel (c_prof c)) th).
    destruct (skipn (p_nvel (c_prof c)) th) as [|y t] eqn:Ek.
    - apply (f_equal (@length _)) in Ek. rewrite skipn_length in Ek. cbn in Ek. lia.
    - cbn [firstn]. f_equal. rewrite <- Q, app_nth2; rewrite firstn_length, Nat.min_l by lia; [|lia]. now rewrite Nat.sub_diag. }
  assert (WN : w_arr w = map Fin l /\ w_n w = length l /\ w_d w = average (diffs (map Fin l)) /\ wave_ok g w).
  { rewrite F23, H5. cbn [w_arr w_n w_d]. rewrite map_length. repeat split. cbn [w_arr w_n]. now rewrite map_length. }
  destruct WN as (W1 & W2 & W3 & W4).
  destruct ((if o_adapt (c_opt c) then check_do_upsample_wave c else ret tt) a1) as [a2 [u2|e]] eqn:E2;
    [rewrite (bindS_Ok _ _ _ _ _ E2) in E|rewrite (bindS_Err _ _ _ _ _ E2) in E; discriminate].
  assert (X : exists x f, a_su a2 = a_su a0 /\ a_stamp a2 = a_stamp a0 /\ a_disp a2 = [Fin s] /\ a_vel a2 = firstn (p_nvel (c_prof c)) th /\
     wave_ok g (a_wv a2) /\ w_arr (a_wv a2) = map Fin x /\ w_n (a_wv a2) = (length l * f)%nat /\ (1 <= f)%nat).
  { destruct (o_adapt (c_opt c)) eqn:Ea.
    - assert (Vv := upsample_vel _ _ _ _ E2). destruct (H17 eq_refl) as (f & Lf & Ef).
      destruct (abs_lt_truth (a_disp a1) (s_up (a_su a0))) as [[|]|] eqn:At.
      + destruct (upsample_triggered c (a_su a0) w a1 l f) as (a2'&E2'&S2&D2&T2&I2&R2&N2&L2&_&V2); auto.
        rewrite E2' in E2. injection E2 as -> _. rewrite Sg in I2, R2.
        exists (map val (w_arr (a_wv a2))), f. rewrite S2, T2, D2, Vv. repeat (split; [auto; fail|]). split; [unfold wave_ok; rewrite I2, R2, N2; auto|].
        split; [|auto]. apply nth_ext with (d := NaN) (d' := Fin (val NaN)); [now rewrite !map_length|]. intros k Hk. rewrite map_map, (map_nth (fun y => Fin (val y))).
        rewrite L2 in Hk. specialize (V2 k Hk). unfold lnth in V2. now rewrite V2.
      + unfold check_do_upsample_wave in E2. revert E2. ub. change (a_su a1) with (a_su a0). rewrite At. intros Q. injection Q as <- _.
        exists l, 1%nat. repeat (split; [auto; fail|]). change (a_wv a1) with (a_wv a0). rewrite Wg. repeat (split; [auto; fail|]). lia.
      + unfold check_do_upsample_wave in E2. revert E2. ub. change (a_su a1) with (a_su a0). rewrite At. intros Q. discriminate Q.
    - injection E2 as <- _. exists l, 1%nat. repeat (split; [auto; fail|]). change (a_wv a1) with (a_wv a0). rewrite Wg. repeat (split; [auto; fail|]). lia. }
  destruct X as (x & f & S2 & T2 & D2 & V2 & Wo2 & X2 & N2 & Lf).
  assert (Lx : length x = w_n (a_wv a2)) by (destruct Wo2 as (_&_&Q); rewrite <- Q, X2, map_length; reflexivity).
  assert (N0 : (0 < w_n (a_wv a2))%nat) by (rewrite N2; nia).
  assert (Nx : x <> []) by (destruct x; [cbn in Lx; lia|discriminate]).
  destruct (calculate_spectral_cube c a2) as [a3 [[]|e]] eqn:E3;
    [rewrite (bindS_Ok _ _ _ _ _ E3) in E|rewrite (bindS_Err _ _ _ _ _ E3) in E; discriminate].
  destruct (calc_lit c a2 a3 s x rest ratio (firstn (p_nvel (c_prof c)) th)) as (cube & C3 & L3); rewrite ?S2, ?Sg; auto.
  { intros Q. apply H12. now rewrite Hre, Q. } { rewrite Hre, Hra, !map_length in H13. exact H13. } { apply (sh_disp _ _ _ Sh). }
  destruct (calc_shape _ _ _ E3) as (S3&Wv3&T3&cube'&C3'&D0&D1&D2'). rewrite C3 in C3'. injection C3' as <-. rewrite S2, Sg in D1, D2'.
  destruct (convolve_spectral_cube_PSF c a3) as [a4 [[]|e]] eqn:E4;
    [rewrite (bindS_Ok _ _ _ _ _ E4) in E|rewrite (bindS_Err _ _ _ _ _ E4) in E; discriminate].
  destruct (conv_shape _ _ _ _ C3 E4) as (S4&Wv4&T4&C4).
  assert (X : exists cv, a_conv a4 = Some cv /\ lit3 cv).
  { revert E4. unfold convolve_spectral_cube_PSF. ub. rewrite C3, T3, T2, Stg. destruct (PSF_convolve cube _ _) as [o|e] eqn:Ep; intros Q; [|discriminate Q]. injection Q as <-. cbn [a_conv set_conv].
    destruct (Rltb 0 (i_fwhm (c_ins c))) eqn:G.
    - apply Rltb_true in G. destruct (Gst G) as (ker & Ek & K0 & K1 & K2 & Kp). rewrite Ek in Ep.
      destruct o as [o|]. 
      + exists o. split; [reflexivity|]. apply (psf_lit cube ker (i_fwhm (c_ins c))); auto; destruct Gok as (_&_&_&_&_&?&?&_); lia.
      + exfalso. revert Ep. unfold PSF_convolve, fgtb, fltb. rewrite (proj2 (Rltb_true _ _) G). destruct (_ || _) eqn:Z; [|intros Q; discriminate Q].
        destruct Gok as (_&_&_&_&?&?&?&_). apply orb_true_iff in Z. unfold size3 in Z. destruct Z as [Z|Z]; apply Nat.eqb_eq in Z; apply Nat.eq_mul_0 in Z; destruct Z as [Z|Z]; try apply Nat.eq_mul_0 in Z; lia.
    - unfold PSF_convolve, fgtb, fltb in Ep. rewrite G in Ep. injection Ep as <-. exists cube. now split. }
  destruct X as (cv & Cv & L4). destruct (C4 cv Cv) as (V0 & V1 & V2').
  assert (SE : a_su a4 = a_su a0) by congruence. assert (WE : a_wv a4 = a_wv a2) by congruence.
  destruct (trim_downsample_spectral_cube c a4) as [a5 [[]|e]] eqn:E5;
    [rewrite (bindS_Ok _ _ _ _ _ E5) in E|rewrite (bindS_Err _ _ _ _ _ E5) in E; discriminate].
  destruct (trim_lit c a4 a5 cv (w_n (a_wv a4)) H16 Cv L4) as (m5 & O5 & L5); rewrite ?SE, ?WE, ?Sg; auto; try congruence; try apply Gg.
  apply trim_shape in E5; [|intros cv' Hcv; destruct (C4 cv' Hcv) as (?&?&?); rewrite ?WE, ?SE, ?Sg; repeat split; congruence|rewrite SE, Sg; auto].
  destruct E5 as (S5&Wv5&m5'&O5'&R5&K5). rewrite O5 in O5'. injection O5' as <-. rewrite SE, Sg in K5. rewrite WE in R5.
  assert (K5' : exists q, (0 < q)%nat /\ cols m5 = (n_pix_y_whole g * q)%nat).
  { rewrite K5. destruct (o_rebin (c_opt c)); [exists 1%nat; lia|exists (o_nsub (c_opt c)); split; [lia|]]. rewrite F4, F3. reflexivity. }
  destruct K5' as (q & Q0 & K5'). assert (NW : (0 < n_pix_y_whole g)%nat) by (rewrite F3; lia).
  destruct (convolve_instrument_resolution c a5) as [a6 [[]|e]] eqn:E6;
    [rewrite (bindS_Ok _ _ _ _ _ E6) in E|rewrite (bindS_Err _ _ _ _ _ E6) in E; discriminate].
  destruct (inst_stage_lit c a5 a6 m5 x H14 H11 O5 L5) as (m6 & O6 & L6); auto; try (rewrite R5; lia); try (rewrite K5'; nia).
  { apply (sh_res _ _ _ Sh). } { rewrite S5, SE, Sg. apply Gg. } { rewrite Wv5, WE. exact X2. }
  destruct (inst_shape _ _ _ _ O5 E6) as (S6&Wv6&m6'&O6'&R6&K6). rewrite O6 in O6'. injection O6' as <-.
  destruct ((if o_adapt (c_opt c) then downsample_to_real_wave c else ret tt) a6) as [a7 [u7|e]] eqn:E7;
    [rewrite (bindS_Ok _ _ _ _ _ E7) in E|rewrite (bindS_Err _ _ _ _ _ E7) in E; discriminate].
  assert (X : exists m7, a_out a7 = Some m7 /\ lit2 m7).
  { destruct (o_adapt (c_opt c)) eqn:Ea.
    - revert E7. unfold downsample_to_real_wave. ub. rewrite S6, S5, SE, (Rl eq_refl), O6, Sg. destruct (rebin2 m6 _ _) as [b7|] eqn:Eb; intros Q; [|discriminate Q]. injection Q as <- _.
      exists b7. split; [reflexivity|]. refine (rebin_lit m6 (w_n w) (n_pix_y_whole g) f q b7 L6 _ NW Q0 _ _ Eb); [lia| |congruence]. rewrite R6, R5, N2, W2. reflexivity.
    - injection E7 as <- _. exists m6. now split. }
  destruct X as (m7 & O7 & L7). revert E. ub. rewrite O7. intros Q. injection Q as <-. cbn [a_model set_model] in Em. injection Em as <-. destruct L7 as (N7 & L7).
  cbn [transpose rows cols] in Rm, Cm. split.
  - intros i j Hi Hj. cbn [transpose rows cols at2] in *. now apply N7.
  - intros i Hi. destruct (L7 i) as (j & y & Hj & Ey & Py); [lia|]. exists j, y. split; [lia|]. now split.
Qed.
