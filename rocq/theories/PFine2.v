From Coq Require Import Reals Lra List Bool Arith ZArith Lia.
From Verif Require Import PyFloat PyBase Arr PyNum MParams MKernels MAper2D SParams SKernels SAper2D SAper1D SLine SLos SReach SFinite SFine PParams PMask PAper2D PAper2DHist PAper2DGrid PAper2DShape PAper2DOk PAper2DVal PAper2DGeo PKernels PKernels2 PLine PLos PLos3 PFinite PFinite2 PFinite3 PFine.
Import ListNotations.
Local Open Scope R_scope.

Lemma do_stages c a : do_model_calcs c a = (sdo u0 <- update_theta c;
  sdo u1 <- (if o_adapt (c_opt c) then check_do_upsample_wave c else ret tt);
  sdo u2 <- stages c;
  sdo u6 <- (if o_adapt (c_opt c) then downsample_to_real_wave c else ret tt);
  sdo a <- getS;
  match a_out a with None => raise AttributeError | Some m => putS (set_model (Some (transpose m)) a) end) a.
Proof.
  unfold do_model_calcs, stages. unfold bindS. destruct (update_theta c a) as [a1 [u1|e1]]; [|reflexivity]. destruct ((if o_adapt (c_opt c) then check_do_upsample_wave c else ret tt) a1) as [a2 [u2|e2]]; [|reflexivity].
  destruct (calculate_spectral_cube c a2) as [a3 [u3|e3]]; [|reflexivity]. destruct (convolve_spectral_cube_PSF c a3) as [a4 [u4|e4]]; [|reflexivity]. destruct (trim_downsample_spectral_cube c a4) as [a5 [u5|e5]]; reflexivity.
Qed.

Lemma upsample_form c a a' : check_do_upsample_wave c a = (a', Ok tt) -> exists W, a' = set_wv W a.
Proof.
  unfold check_do_upsample_wave. ub. destruct (abs_lt_truth _ _) as [[|]|]; [| |intros Q; discriminate Q].
  - destruct (s_real _) as [re|]; [|intros Q; discriminate Q]. destruct (np_min _) as [mn|]; [|intros Q; discriminate Q]. destruct (np_max _) as [mx|]; [|intros Q; discriminate Q].
    destruct (int_round _) as [n|]; [|intros Q; discriminate Q]. destruct (n <? 0)%Z; [intros Q; discriminate Q|]. intros Q. injection Q as <-. eexists. reflexivity.
  - intros Q. injection Q as <-. exists (a_wv a). now destruct a.
Qed.

Lemma sigma_su c a b r : sigma_options c a = (b, r) -> a_su b = a_su a.
Proof.
  unfold sigma_options. ub. destruct (o_abs (c_opt c)); (destruct (o_floor (c_opt c)); [|intros Q; injection Q as <-; reflexivity]); cbn [set_prof a_disp a_su]; (destruct (abs_lt_truth _ _) as [[|]|]; [destruct (s_floor (a_su a))| |]); intros Q; injection Q as <-; reflexivity.
Qed.
Lemma cache_su c a b r : shift_cache c a = (b, r) -> a_su b = a_su a.
Proof.
  unfold shift_cache. ub. destruct (o_shift (c_opt c) || o_eff (c_opt c))%bool; [|intros Q; injection Q as <-; reflexivity]. destruct (a_dvel a); [destruct (a_idw a)|]; try (intros Q; injection Q as <-; reflexivity);
    destruct (eff_inst_res c _ _); intros Q; injection Q as <-; reflexivity.
Qed.
Lemma stages_su c a b : stages c a = (b, Ok tt) -> a_su b = a_su a.
Proof.
  unfold stages. intros E. unfold bindS in E.
  destruct (calculate_spectral_cube c a) as [a3 [u3|e3]] eqn:E3; [|discriminate]. destruct (convolve_spectral_cube_PSF c a3) as [a4 [u4|e4]] eqn:E4; [|discriminate]. destruct (trim_downsample_spectral_cube c a4) as [a5 [u5|e5]] eqn:E5; [|discriminate].
  transitivity (a_su a5); [|transitivity (a_su a4); [|transitivity (a_su a3)]].
  - revert E. unfold convolve_instrument_resolution. ub. destruct (o_shift (c_opt c)).
    + destruct (o_spec _); try (intros Q; discriminate Q); destruct (negb _); cbn [set_dvel a_idw a_out a_wv]; destruct (a_idw a5); try (intros Q; discriminate Q);
        try (destruct (np_min _); [|intros Q; discriminate Q]); (destruct (fgtb _ _); [|intros Q; injection Q as <-; reflexivity]); (destruct (a_out _); [|intros Q; discriminate Q]); (destruct (inst_convol_complete _ _ _); intros Q; [injection Q as <-; reflexivity|discriminate Q]).
    + destruct (fgtb _ _); [|intros Q; injection Q as <-; reflexivity]. destruct (a_out _); [|intros Q; discriminate Q]. destruct (inst_convol_complete _ _ _); intros Q; [injection Q as <-; reflexivity|discriminate Q].
  - revert E5. unfold trim_downsample_spectral_cube. ub. destruct (i_slitmask _); [intros Q; discriminate Q|]. destruct (a_conv a4); [|intros Q; discriminate Q]. destruct (cut _ _ _), (cut _ _ _). destruct (o_rebin _); [|intros Q; injection Q as <-; reflexivity].
    destruct (rebin2 _ _ _); intros Q; [injection Q as <-; reflexivity|discriminate Q].
  - revert E4. unfold convolve_spectral_cube_PSF. ub. destruct (a_cube a3); [|intros Q; discriminate Q]. destruct (PSF_convolve _ _ _); intros Q; [injection Q as <-; reflexivity|discriminate Q].
  - revert E3. rewrite calc_unfold. unfold calc_tail. unfold bindS at 1. destruct (sigma_options c a) as [b1 [v1|]] eqn:Q1; [|intros Q; discriminate Q]. rewrite <- (sigma_su _ _ _ _ Q1). unfold calc_tail2. unfold bindS at 1.
    destruct (shift_cache c b1) as [b2 [v2|]] eqn:Q2; [|intros Q; discriminate Q]. rewrite <- (cache_su _ _ _ _ Q2). unfold calc_tail3. ub.
    destruct (shift_V c _ _); [|intros Q; discriminate Q]. destruct (add_sigma_collapse_z _ _ _ _ _ _ _ _ _ _ _ _ _ _ _); intros Q; [injection Q as <-; reflexivity|discriminate Q].
Qed.

Lemma grid_same c l' th g w : setup_model_grid c th = Ok (g, w) -> exists w', setup_model_grid (on_grid l' c) th = Ok (g, w') /\
  w' = mkwv (map Fin l') (length l') (average (diffs (map Fin l'))) (tile_I (I_wide g) (length l')) (repeat_wave (map Fin l') (nZ g) (nY g) (nX g)).
Proof.
  unfold setup_model_grid. cbn [on_grid c_gal c_ins c_opt c_prof g_q g_q0 g_dPA g_rows g_wave g_m0 g_rest g_ratio o_nsub o_pad o_xc o_spec]. change (slit_npix (c_ins c) (mkopts _ _ _ _ _ _ _ _ _ _ _)) with (slit_npix (c_ins c) (c_opt c)).
  destruct (Nat.eqb (o_nsub (c_opt c)) 0); [intros Q; discriminate Q|]. destruct (Nat.eqb _ 0); [intros Q; discriminate Q|]. destruct (getz th (-1)); [|intros Q; discriminate Q]. destruct (getz th (-2)); [|intros Q; discriminate Q]. cbn [bind].
  destruct (match o_spec (c_opt c) with Wave => _ | _ => _ end); [|intros Q; discriminate Q]. cbn [bind]. intros Q. injection Q as <- <-. eexists. split; [reflexivity|]. rewrite map_length. reflexivity.
Qed.

Lemma well_posed_on c th l l' : well_posed c th l -> increasing l' -> (2 <= length l')%nat -> well_posed (on_grid l' c) th l'.
Proof.
  intros (H1&H2&H3&H4&H5&H6&H7&H8&H9&H10&H11&H12&H13&H14&H15&H16&H17&H18&H19) I L.
  unfold well_posed. cbn [on_grid c_gal c_ins c_opt c_prof g_rows g_wave g_m0 g_rest g_ratio o_nsub o_pad o_spec o_shift o_eff o_adapt o_factor].
  repeat (split; [first [assumption|reflexivity]|]). split; [intros Q; discriminate Q|]. split; assumption.
Qed.

Lemma core c th l l' f s r0 z : well_posed c th l -> o_adapt (c_opt c) = true ->
  increasing l' -> length l' = (length l * f)%nat -> (1 <= f)%nat ->
  nth (p_nvel (c_prof c)) th NaN = Fin s -> hd NaN (g_rest (c_gal c)) = Fin r0 -> nth (length th - 1) th NaN = Fin z -> 0 < r0 * (1 + z) ->
  (o_floor (c_opt c) = true -> 3 / 4 * (pixel_velocity l (r0 * (1 + z)) / (235 / 100) / o_factor (c_opt c)) <= Rabs s) ->
  (forall a0 a2, setup_calcs c th = Ok a0 -> check_do_upsample_wave c (set_prof (firstn (p_nvel (c_prof c)) th) [Fin s] a0) = (a2, Ok tt) ->
     w_arr (a_wv a2) = map Fin l' /\ w_n (a_wv a2) = length l' /\ w_I4 (a_wv a2) = tile_I (I_wide (s_grid (a_su a0))) (length l') /\
     w_ref (a_wv a2) = repeat_wave (map Fin l') (nZ (s_grid (a_su a0))) (nY (s_grid (a_su a0))) (nX (s_grid (a_su a0)))) ->
  exists m m', image_is c th m /\ image_is (on_grid l' c) th m' /\ rows m = g_rows (c_gal c) /\ cols m = length l /\
    rows m' = (g_rows (c_gal c) * sub_rows c)%nat /\ cols m' = length l' /\
    forall i t, (i < g_rows (c_gal c))%nat -> (t < length l)%nat ->
      at2 m i t = fsumn f (fun b => fsumn (sub_rows c) (fun a => at2 m' (i * sub_rows c + a) (t * f + b))).
Proof.
  intros Hwp Ha Hi Hl Hf Hs Hr Hz Pl Hfl Hup. pose proof Hwp as (H1&H2&H3&H4&H5&H6&H7&H8&H9&H10&H11&H12&H13&H14&H15&H16&H17&H18&H19).
  assert (Hwp' : well_posed (on_grid l' c) th l') by (apply (well_posed_on c th l); auto; nia).
  destruct (well_posed_eval _ _ _ Hwp) as (a0 & b & Es & E). destruct (well_posed_eval _ _ _ Hwp') as (a0' & b' & Es' & E').
  destruct (setup_ok _ _ _ Hwp) as (g & w & Hg). destruct (grid_same c l' th g w Hg) as (w' & Hg' & Ew').
  destruct (setup_fields _ _ _ _ Hg) as (F1&F2&F3&F4&F5&F6&F7&F8&F9&F10&F11&F12&F13&F14&F15&F16&F17&F18&F19&F20&F21&F22&F23).
  destruct (setup_calcs_inv _ _ _ Es) as (w1&Rl&W&I&T). destruct (setup_calcs_inv _ _ _ Es') as (w1'&Rl'&W'&I'&T').
  assert (Sg : s_grid (a_su a0) = g /\ a_wv a0 = w /\ a_stamp a0 = make_stamp (c_ins c) g /\ a0 = mkaper (a_su a0) th [] [] w None IdwNone None None None None (make_stamp (c_ins c) g)).
  { revert Es. unfold setup_calcs. rewrite Hg. cbn [bind]. intros Q. injection Q as <-. repeat split. }
  assert (Sg' : s_grid (a_su a0') = g /\ a_wv a0' = w' /\ a_stamp a0' = make_stamp (c_ins c) g /\ a0' = mkaper (a_su a0') th [] [] w' None IdwNone None None None None (make_stamp (c_ins c) g)).
  { revert Es'. unfold setup_calcs. rewrite Hg'. cbn [bind]. intros Q. injection Q as <-. repeat split. }
  destruct Sg as (Sg & Wg & Stg & A0). destruct Sg' as (Sg' & Wg' & Stg' & A0'). rewrite Wg in W. subst w1. rewrite Wg' in W'. subst w1'.
  destruct (eval_shape c th g w (a_su a0) (a_stamp a0) a0 b Hg Sg Rl I Wg E) as (m & Em & Rm & Cm). rewrite H5, map_length in Cm.
  destruct (eval_shape (on_grid l' c) th g w' (a_su a0') (a_stamp a0') a0' b' Hg' Sg' Rl' I' Wg' E') as (m' & Em' & Rm' & Cm').
  change (g_wave (c_gal (on_grid l' c))) with (map Fin l') in Cm'. rewrite map_length in Cm'.
  unfold img_rows in Rm. rewrite Ha, orb_true_r in Rm. unfold img_rows in Rm'. cbn [on_grid c_gal c_opt o_rebin o_adapt g_rows o_nsub] in Rm'. rewrite orb_false_r in Rm'.
  assert (Rm2 : rows m' = (g_rows (c_gal c) * sub_rows c)%nat) by (rewrite Rm'; unfold sub_rows; destruct (o_rebin (c_opt c)); lia).
  exists m, m'. split; [now exists a0, b|]. split; [now exists a0', b'|]. split; [exact Rm|]. split; [exact Cm|]. split; [exact Rm2|]. split; [exact Cm'|].
  rewrite do_stages in E, E'. unfold bindS at 1 in E. unfold bindS at 1 in E'. unfold update_theta, modS in E, E'. cbn [fst snd] in E, E'. rewrite T in E. rewrite T' in E'. rewrite Ha in E. change (o_adapt (c_opt (on_grid l' c))) with false in E'. cbv iota in E'.
  change (c_prof (on_grid l' c)) with (c_prof c) in E'.
  assert (HD : firstn (p_ndisp (c_prof c)) (skipn (p_nvel (c_prof c)) th) = [Fin s]).
  { rewrite H9, <- Hs. assert (Q := firstn_skipn (p_nvel (c_prof c)) th). destruct (skipn (p_nvel (c_prof c)) th) as [|y t] eqn:Ek.
    - apply (f_equal (@length _)) in Ek. rewrite skipn_length in Ek. cbn in Ek. lia.
    - cbn [firstn]. f_equal. rewrite <- Q, app_nth2; rewrite firstn_length, Nat.min_l by lia; [|lia]. now rewrite Nat.sub_diag. }
  rewrite HD in E, E'. set (a1 := set_prof _ _ a0) in E. set (a1' := set_prof _ _ a0') in E'.
  unfold bindS at 1 in E. destruct (check_do_upsample_wave c a1) as [a2 [[]|e]] eqn:E2; [|discriminate].
  unfold bindS at 1 in E'. unfold ret at 1 in E'.
  destruct (Hup a0 a2 Es E2) as (V1 & V2 & V3 & V4). rewrite Sg in V3, V4. destruct (upsample_form _ _ _ E2) as (Wv & Ea2).
  assert (SS : sim a2 a1').
  { subst a2 a1 a1'. rewrite A0, A0'. rewrite A0 in V1, V2, V3, V4. cbn [set_prof set_wv a_wv w_arr w_n w_I4 w_ref] in V1, V2, V3, V4. rewrite Ew'. split; cbn [set_prof set_wv a_su a_wv a_vel a_disp a_dvel a_idw a_cube a_conv a_out a_stamp w_arr w_n w_I4 w_ref]; auto. congruence. }
  assert (Sf : o_floor (c_opt c) = true -> abs_lt_truth (if o_abs (c_opt c) then map fabs (a_disp a2) else a_disp a2) (s_floor (a_su a2)) = Ok false).
  { intros Q. assert (a_disp a2 = [Fin s] /\ a_su a2 = a_su a0) as (-> & ->) by (subst a2 a1; split; reflexivity).
    assert (El : lam0_primary g = Fin (r0 * (1 + z))).
    { destruct (setup_cubes _ _ _ _ Hg) as (_&CL&_). destruct (CL H11) as (r & Er & Elr). assert (T1 : getz th (-1) = Ok (nth (length th - 1) th NaN)) by (apply (getz_neg th NaN 1); lia).
      assert (gz g = Fin z) as Gz by congruence. destruct (g_rest (c_gal c)) as [|x rs]; [discriminate Er|]. injection Er as <-. cbn [hd] in Hr. subst x. now rewrite Elr, Gz. }
    destruct (sigma_thresholds c th a0 l (r0 * (1 + z)) Es H5 H7 H11) as (_ & Fv); [now rewrite Sg|lra| |].
    { intros _. destruct (H17 Ha) as (k & Lk & ->). apply not_0_INR. lia. }
    rewrite Fv, Q, Ha. specialize (Hfl Q). assert (Rabs (Rabs s) = Rabs s) by (apply Rabs_pos_eq, Rabs_pos).
    destruct (o_abs (c_opt c)); cbn [map abs_lt_truth fabs fltb]; f_equal; apply Rltb_false; lra. }
  destruct (sim_stages c l' a2 a1' SS Sf) as (S3 & R3).
  unfold bindS at 1 in E. unfold bindS at 1 in E'. destruct (stages c a2) as [a3 [[]|e]] eqn:E3; [|discriminate]. destruct (stages (on_grid l' c) a1') as [a3' [[]|e]] eqn:E3'; [|discriminate]. cbn [fst snd] in S3. clear R3.
  unfold bindS at 1 in E'. unfold ret at 1 in E'. unfold bindS, getS in E'. destruct (a_out a3') as [mo|] eqn:Eo; [|discriminate]. unfold putS in E'. injection E' as <-. cbn [set_model a_model] in Em'. injection Em' as <-.
  assert (Eo3 : a_out a3 = Some mo) by now rewrite (m_out _ _ S3). assert (Su3 : a_su a3 = a_su a0) by (rewrite (stages_su _ _ _ E3), Ea2; reflexivity).
  unfold downsample_to_real_wave in E. unfold bindS, getS in E. rewrite Su3, (Rl Ha), Eo3, Sg in E. rewrite F23 in E. cbn [w_n] in E. rewrite H5, map_length, F3 in E. unfold liftR in E.
  cbn [transpose rows cols] in Rm2, Cm'. rewrite Hl in Cm'.
  destruct (rebin2_blocks mo (length l) (g_rows (c_gal c)) f (sub_rows c)) as (bb & Eb & Rb & Cb & Vb); [lia|lia|exact Cm'|exact Rm2|].
  rewrite Eb in E. cbn [fst snd set_wv set_out a_out] in E. unfold putS in E. cbn [set_wv set_out a_out] in E. injection E as <-. cbn [set_model a_model] in Em. injection Em as <-.
  intros i t Hit Htt. cbn [transpose at2]. rewrite (Vb t i Htt Hit). reflexivity.
Qed.
