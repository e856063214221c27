From Coq Require Import Reals Lra List Bool Arith ZArith Lia.
From Verif Require Import PyFloat PyBase Arr PyNum MParams MKernels MAper2D SParams SAper2D PParams PAper2D PAper2DGrid PKernels PKernels2.
Import ListNotations.
Local Open Scope R_scope.

Lemma collapse_dims I V S wave z rest ratio nW nz ny nx dz I4 wr sp cube :
  add_sigma_collapse_z I V S wave z rest ratio nW nz ny nx dz I4 wr sp = Ok cube ->
  dim0 cube = nW /\ dim1 cube = ny /\ dim2 cube = nx.
Proof.
  unfold add_sigma_collapse_z. destruct sp.
  - destruct (Nat.eqb _ _); [intros E; injection E as <-; cbn; auto|].
    destruct (np_max _); [|discriminate]. cbn [bind].
    destruct (_ && _); [discriminate|]. destruct (Nat.ltb _ _); [discriminate|].
    intros E. injection E as <-. cbn; auto.
  - destruct (np_max _); [|discriminate]. cbn [bind]. destruct (fgtb _ _); [|discriminate].
    destruct (_ && _); [|discriminate]. intros E. injection E as <-. cbn; auto.
  - intros E; injection E as <-; cbn; auto.
Qed.

Lemma psf_dims cube f st o : PSF_convolve cube f st = Ok (Some o) ->
  dim0 o = dim0 cube /\ dim1 o = dim1 cube /\ dim2 o = dim2 cube.
Proof.
  unfold PSF_convolve. destruct (fgtb _ _); [|intros E; injection E as <-; auto].
  destruct st; try discriminate. destruct (_ || _); [discriminate|].
  intros E. injection E as <-. unfold map3. cbn [dim0 dim1 dim2]. apply conv3_dims.
Qed.

Lemma rebin2_dims a m n b : rebin2 a m n = Ok b -> rows b = m /\ cols b = n.
Proof.
  unfold rebin2. destruct (_ || _); [discriminate|].
  destruct (Nat.eqb _ _); [|discriminate]. intros E. injection E as <-. auto.
Qed.

Lemma inst_dims m wave w o : inst_convol_complete m wave w = Ok o -> rows o = rows m /\ cols o = cols m.
Proof.
  unfold inst_convol_complete. destruct w; try discriminate. unfold convol_instconstfwhm.
  destruct (_ || _); [discriminate|]. intros E. injection E as <-. unfold map2. cbn [rows cols].
  apply conv2_dims.
Qed.

(* fields not touched by the steps after the parameter update *)
Lemma sigma_options_keep c a b r : sigma_options c a = (b, r) ->
  a_su b = a_su a /\ a_wv b = a_wv a /\ a_stamp b = a_stamp a /\ a_dvel b = a_dvel a /\ a_idw b = a_idw a.
Proof.
  unfold sigma_options. ub. destruct (o_abs _), (o_floor _).
  1,3: destruct (abs_lt_truth _ _) as [[|]|]; [destruct (s_floor _)| |].
  all: intros E; injection E as <- <-; cbn; auto 10.
Qed.

Lemma shift_cache_keep c a b r : shift_cache c a = (b, r) ->
  a_su b = a_su a /\ a_wv b = a_wv a /\ a_stamp b = a_stamp a /\ a_disp b = a_disp a.
Proof.
  unfold shift_cache. ub. destruct (_ || _); [|intros E; injection E as <- <-; auto].
  destruct (a_dvel a), (a_idw a); try destruct (eff_inst_res _ _ _); intros E; injection E as <- <-; cbn; auto.
Qed.

Lemma calc_shape c a b : calculate_spectral_cube c a = (b, Ok tt) ->
  a_su b = a_su a /\ a_wv b = a_wv a /\ a_stamp b = a_stamp a /\
  exists cube, a_cube b = Some cube /\ dim0 cube = w_n (a_wv a) /\
    dim1 cube = nY (s_grid (a_su a)) /\ dim2 cube = nX (s_grid (a_su a)).
Proof.
  rewrite calc_unfold. unfold calc_tail.
  destruct (sigma_options c a) as [a1 [u1|]] eqn:E1;
    [rewrite (bindS_Ok _ _ _ _ _ E1)|rewrite (bindS_Err _ _ _ _ _ E1); discriminate].
  unfold calc_tail2. destruct (shift_cache c a1) as [a2 [u2|]] eqn:E2;
    [rewrite (bindS_Ok _ _ _ _ _ E2)|rewrite (bindS_Err _ _ _ _ _ E2); discriminate].
  apply sigma_options_keep in E1. apply shift_cache_keep in E2.
  destruct E1 as (P1&P2&P3&_). destruct E2 as (Q1&Q2&Q3&_).
  unfold calc_tail3. ub. destruct (shift_V _ _ _); [|discriminate].
  destruct (add_sigma_collapse_z _ _ _ _ _ _ _ _ _ _ _ _ _ _ _) eqn:Ec; [|discriminate].
  intros E. injection E as <-. cbn. apply collapse_dims in Ec. destruct Ec as (D0&D1&D2).
  repeat split; try congruence. eexists. split; [reflexivity|]. rewrite D0, Q2, P2. auto.
Qed.

Lemma conv_shape c a b cube : a_cube a = Some cube -> convolve_spectral_cube_PSF c a = (b, Ok tt) ->
  a_su b = a_su a /\ a_wv b = a_wv a /\ a_stamp b = a_stamp a /\
  (forall cv, a_conv b = Some cv -> dim0 cv = dim0 cube /\ dim1 cv = dim1 cube /\ dim2 cv = dim2 cube).
Proof.
  intros Hc. unfold convolve_spectral_cube_PSF. ub. rewrite Hc.
  destruct (PSF_convolve _ _ _) as [o|] eqn:E; [|discriminate]. intros X. injection X as <-. cbn.
  repeat split; auto; subst o; now apply psf_dims in E.
Qed.

Lemma trim_shape c a b :
  (forall cv, a_conv a = Some cv -> dim0 cv = w_n (a_wv a) /\
     dim1 cv = nY (s_grid (a_su a)) /\ dim2 cv = nX (s_grid (a_su a))) ->
  nY (s_grid (a_su a)) = (n_pix_y (s_grid (a_su a)) + 2 * padY (s_grid (a_su a)))%nat ->
  trim_downsample_spectral_cube c a = (b, Ok tt) ->
  a_su b = a_su a /\ a_wv b = a_wv a /\
  exists m, a_out b = Some m /\ rows m = w_n (a_wv a) /\
    cols m = if o_rebin (c_opt c) then n_pix_y_whole (s_grid (a_su a)) else n_pix_y (s_grid (a_su a)).
Proof.
  intros Hd HY. unfold trim_downsample_spectral_cube. ub.
  destruct (i_slitmask _); [discriminate|]. destruct (a_conv a) as [cv|]; [|discriminate].
  destruct (Hd cv eq_refl) as (D0&D1&D2). unfold cut.
  destruct (o_rebin _).
  - destruct (rebin2 _ _ _) eqn:Er; [|discriminate]. intros E. injection E as <-. cbn.
    apply rebin2_dims in Er. destruct Er. repeat split; auto. eexists; split; [reflexivity|auto].
  - intros E. injection E as <-. cbn. repeat split; auto. eexists; split; [reflexivity|]. cbn.
    split; [auto|]. rewrite D1, HY. lia.
Qed.

Lemma inst_shape c a b m : a_out a = Some m -> convolve_instrument_resolution c a = (b, Ok tt) ->
  a_su b = a_su a /\ a_wv b = a_wv a /\
  exists m', a_out b = Some m' /\ rows m' = rows m /\ cols m' = cols m.
Proof.
  intros Ho. unfold convolve_instrument_resolution. ub.
  destruct (o_shift (c_opt c)) eqn:Es;
  [destruct (o_eff (c_opt c)) eqn:Ee|]; destruct (o_spec (c_opt c)) eqn:Esp;
    cbn [fst snd negb set_dvel a_idw a_out a_wv a_dvel a_su]; try discriminate.
  1,2: destruct (match a_idw a with IdwNone => _ | IdwFloat x => _ | IdwArr l => _ end); try discriminate.
  all: destruct (fgtb _ _); rewrite ?Ho;
    [destruct (inst_convol_complete _ _ _) eqn:E; [|discriminate]; apply inst_dims in E; destruct E|];
    intros X; injection X as <-; cbn; repeat split; auto; eexists; (split; [try reflexivity; eassumption|]); auto.
Qed.

Lemma eval_shape c th g w su st a b : setup_model_grid c th = Ok (g, w) -> s_grid su = g ->
  (o_adapt (c_opt c) = true -> s_real su = Some w) -> inv c su w st a -> a_wv a = w ->
  do_model_calcs c a = (b, Ok tt) ->
  exists m, a_model b = Some m /\ rows m = img_rows c /\ cols m = length (g_wave (c_gal c)).
Proof.
  intros Hg Hsu Hreal Hi Hw E.
  destruct (setup_fields _ _ _ _ Hg) as (F1&F2&F3&F4&F5&F6&F7&F8&F9&F10&F11&F12&F13&F14&F15&F16&F17&F18&F19&F20&F21&F22&F23).
  unfold do_model_calcs in E.
  destruct (update_theta c a) as [a1 [u1|]] eqn:E1; [|discriminate].
  rewrite (bindS_Ok _ _ _ _ _ E1) in E. injection E1 as <- <-.
  set (a1 := set_prof _ _ a) in E.
  assert (Hi1 : inv c su w st a1) by now apply inv_prof.
  destruct ((if o_adapt (c_opt c) then check_do_upsample_wave c else ret tt) a1) as [a2 [u2|e]] eqn:E2;
    [rewrite (bindS_Ok _ _ _ _ _ E2) in E|rewrite (bindS_Err _ _ _ _ _ E2) in E; discriminate].
  assert (Hi2 : inv c su w st a2).
  { revert E2. case_eq (o_adapt (c_opt c)); intros Ea E2.
    - pose proof (upsample_pres c su w st Ea a1 Hi1) as P. rewrite E2 in P. exact P.
    - injection E2 as <-. exact Hi1. }
  assert (S2 : a_su a2 = su) by apply Hi2.
  destruct (calculate_spectral_cube c a2) as [a3 [[]|e]] eqn:E3;
    [rewrite (bindS_Ok _ _ _ _ _ E3) in E|rewrite (bindS_Err _ _ _ _ _ E3) in E; discriminate].
  destruct (calc_shape _ _ _ E3) as (S3&W3&T3&cube&C3&D0&D1&D2).
  destruct (convolve_spectral_cube_PSF c a3) as [a4 [[]|e]] eqn:E4;
    [rewrite (bindS_Ok _ _ _ _ _ E4) in E|rewrite (bindS_Err _ _ _ _ _ E4) in E; discriminate].
  destruct (conv_shape _ _ _ _ C3 E4) as (S4&W4&T4&C4).
  destruct (trim_downsample_spectral_cube c a4) as [a5 [[]|e]] eqn:E5;
    [rewrite (bindS_Ok _ _ _ _ _ E5) in E|rewrite (bindS_Err _ _ _ _ _ E5) in E; discriminate].
  apply trim_shape in E5;
    [|intros cv Hcv; destruct (C4 cv Hcv) as (?&?&?); rewrite S4, S3, W4, W3; repeat split; congruence
     |rewrite S4, S3, S2, Hsu; auto].
  destruct E5 as (S5&W5&m5&O5&R5&K5).
  destruct (convolve_instrument_resolution c a5) as [a6 [[]|e]] eqn:E6;
    [rewrite (bindS_Ok _ _ _ _ _ E6) in E|rewrite (bindS_Err _ _ _ _ _ E6) in E; discriminate].
  destruct (inst_shape _ _ _ _ O5 E6) as (S6&W6&m6&O6&R6&K6).
  destruct ((if o_adapt (c_opt c) then downsample_to_real_wave c else ret tt) a6) as [a7 [u7|e]] eqn:E7;
    [rewrite (bindS_Ok _ _ _ _ _ E7) in E|rewrite (bindS_Err _ _ _ _ _ E7) in E; discriminate].
  assert (X : exists m7, a_out a7 = Some m7 /\ cols m7 = img_rows c /\ rows m7 = length (g_wave (c_gal c))).
  { unfold img_rows. revert E7. case_eq (o_adapt (c_opt c)); intros Ea E7.
    - unfold downsample_to_real_wave in E7. revert E7. ub.
      rewrite S6, S5, S4, S3, S2, (Hreal Ea), O6.
      destruct (rebin2 _ _ _) eqn:Er; [|discriminate]. intros X. injection X as <- <-. cbn.
      apply rebin2_dims in Er. destruct Er as [Er1 Er2]. rewrite orb_true_r.
      eexists. split; [reflexivity|]. rewrite Er1, Er2, Hsu, F3, F23. cbn. auto.
    - injection E7 as <- <-. rewrite orb_false_r. exists m6. split; [auto|].
      rewrite K6, K5, R6, R5, S4, S3, S2, W4, W3, Hsu, F3, F4.
      assert (a_wv a2 = w) by (apply Hi2; auto). rewrite H, F23. cbn. auto. }
  destruct X as (m7&O7&K7&R7). revert E. ub. rewrite O7. intros X. injection X as <-.
  cbn. eexists. split; [reflexivity|]. cbn. auto.
Qed.
