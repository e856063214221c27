From Coq Require Import Reals Lra List Bool Arith ZArith Lia.
From Verif Require Import PyFloat PyBase Arr PyNum MParams MKernels MAper2D SParams SKernels SAper2D PParams PAper2D PAper2DGrid PAper2DShape PKernels PKernels2.
Import ListNotations.
Local Open Scope R_scope.

Lemma np_max_ok l : l <> [] -> exists m, np_max l = Ok m.
Proof. destruct l; [congruence|]. eexists; reflexivity. Qed.

Lemma flat_list3_ne {A} (a : arr3 A) : (0 < dim0 a)%nat -> (0 < dim1 a)%nat -> (0 < dim2 a)%nat -> flat_list3 a <> [].
Proof.
  intros H0 H1 H2. unfold flat_list3.
  destruct (dim0 a); [lia|]. destruct (dim1 a); [lia|]. destruct (dim2 a); [lia|]. cbn. discriminate.
Qed.

Lemma collapse_ok I V S wave z rest ratio nW nz ny nx dz I4 wr :
  shape4_eqb I4 nW nz ny nx = true -> shape4_eqb wr nW nz ny nx = true ->
  (0 < dim0 S)%nat -> (0 < dim1 S)%nat -> (0 < dim2 S)%nat -> rest <> [] ->
  (length rest <= length ratio)%nat ->
  exists cube, add_sigma_collapse_z I V S wave z rest ratio nW nz ny nx dz I4 wr Wave = Ok cube.
Proof.
  intros H1 H2 D0 D1 D2 Hr Hl. unfold add_sigma_collapse_z.
  destruct (Nat.eqb_spec (length rest) 0); [destruct rest; [congruence|discriminate]|].
  destruct (np_max_ok (map fabs (flat_list3 S))) as [m Hm].
  { pose proof (flat_list3_ne S D0 D1 D2). destruct (flat_list3 S); [congruence|discriminate]. }
  rewrite Hm. cbn [bind]. rewrite H1, H2. cbn [andb negb]. rewrite andb_false_r.
  destruct (Nat.ltb_spec (length ratio) (length rest)); [lia|]. eexists; reflexivity.
Qed.

Lemma rebin2_ok a m n : (0 < m)%nat -> (0 < n)%nat -> (exists f0, rows a = m * f0)%nat -> (exists f1, cols a = n * f1)%nat ->
  exists b, rebin2 a m n = Ok b.
Proof.
  intros Hm Hn [f0 E0] [f1 E1]. unfold rebin2.
  destruct (Nat.eqb_spec m 0); [lia|]. destruct (Nat.eqb_spec n 0); [lia|]. cbn [orb].
  rewrite E0, E1. rewrite (Nat.mul_comm m f0), (Nat.mul_comm n f1), !Nat.div_mul by lia.
  destruct (Nat.eqb_spec (m * f0 * (n * f1)) (f0 * m * (f1 * n))) as [|X]; [eexists; reflexivity|].
  exfalso. apply X. ring.
Qed.

Lemma inst_ok m wave s : (0 < rows m)%nat -> (0 < cols m)%nat -> (2 <= length wave)%nat ->
  exists o, inst_convol_complete m wave (IdwFloat s) = Ok o.
Proof.
  intros Hr Hc Hw. unfold inst_convol_complete, convol_instconstfwhm, size2. cbn [rows cols].
  destruct (Nat.eqb_spec (rows m * cols m) 0) as [E|_]; [apply Nat.eq_mul_0 in E; lia|].
  match goal with |- context [Nat.eqb (?n * 1) 0] => assert (n <> 0)%nat end.
  { destruct (Nat.even (length wave)); [unfold droplast; rewrite firstn_length|]; lia. }
  match goal with |- context [Nat.eqb ?n 0] => destruct (Nat.eqb_spec n 0); [lia|] end.
  eexists; reflexivity.
Qed.

(* the state of the wavelength attributes in which the pipeline works *)
Definition wave_ok (g : grid) (w : wv) : Prop :=
  w_I4 w = tile_I (I_wide g) (w_n w) /\ w_ref w = repeat_wave (w_arr w) (nZ g) (nY g) (nX g) /\
  length (w_arr w) = w_n w.

Lemma wave_ok_shapes g w : wave_ok g w -> dim0 (I_wide g) = nZ g -> dim1 (I_wide g) = nY g -> dim2 (I_wide g) = nX g ->
  shape4_eqb (w_I4 w) (w_n w) (nZ g) (nY g) (nX g) = true /\ shape4_eqb (w_ref w) (w_n w) (nZ g) (nY g) (nX g) = true.
Proof.
  intros (E1&E2&E3) D0 D1 D2. rewrite E1, E2. unfold tile_I, repeat_wave, shape4_eqb. cbn.
  rewrite D0, D1, D2, E3, !Nat.eqb_refl. auto.
Qed.

Lemma sigma_options_ok c a x : a_disp a = [x] -> (o_floor (c_opt c) = true -> s_floor (a_su a) <> None) ->
  exists b, sigma_options c a = (b, Ok tt).
Proof.
  intros Hd Hf. unfold sigma_options. ub.
  destruct (o_abs (c_opt c)); destruct (o_floor (c_opt c)); try (eexists; reflexivity).
  - cbn [a_disp set_prof a_su]. rewrite Hd. cbn [map abs_lt_truth].
    destruct (s_floor (a_su a)) as [v|]; [|now elim Hf]. cbn [abs_lt_truth]. destruct (fltb _ _); eexists; reflexivity.
  - rewrite Hd. destruct (s_floor (a_su a)) as [v|]; [|now elim Hf]. cbn [abs_lt_truth]. destruct (fltb _ _); eexists; reflexivity.
Qed.

Definition geom_ok (c : cfg) (g : grid) : Prop :=
  dim0 (I_wide g) = nZ g /\ dim1 (I_wide g) = nY g /\ dim2 (I_wide g) = nX g /\
  (0 < nZ g)%nat /\ (0 < nX g)%nat /\ (0 < n_pix_y g)%nat /\ nY g = (n_pix_y g + 2 * padY g)%nat /\
  n_pix_y g = (n_pix_y_whole g * o_nsub (c_opt c))%nat.

Lemma calc_ok c a x : o_shift (c_opt c) = false -> o_eff (c_opt c) = false -> o_spec (c_opt c) = Wave ->
  g_rest (c_gal c) <> [] -> (length (g_rest (c_gal c)) <= length (g_ratio (c_gal c)))%nat ->
  geom_ok c (s_grid (a_su a)) -> wave_ok (s_grid (a_su a)) (a_wv a) -> a_disp a = [x] ->
  (o_floor (c_opt c) = true -> s_floor (a_su a) <> None) ->
  exists b, calculate_spectral_cube c a = (b, Ok tt).
Proof.
  intros Hs He Hsp Hr Hl Hg Hw Hd Hf. rewrite calc_unfold. unfold calc_tail.
  destruct (sigma_options_ok c a x Hd Hf) as [a1 E1]. rewrite (bindS_Ok _ _ _ _ _ E1).
  apply sigma_options_keep in E1. destruct E1 as (P1&P2&P3&_).
  unfold calc_tail2, shift_cache. rewrite Hs, He. cbn [orb]. unfold calc_tail3. ub.
  unfold shift_V. rewrite Hs, Hsp. ub.
  destruct Hg as (D0&D1&D2&Z0&X0&Y0&EY&EW).
  destruct (wave_ok_shapes _ _ Hw D0 D1 D2) as [S1 S2]. rewrite P2.
  match goal with |- context [add_sigma_collapse_z ?I ?V ?S ?wave ?z ?rest ?ratio ?nW ?nz ?ny ?nx ?dz ?I4 ?wr Wave] =>
    destruct (collapse_ok I V S wave z rest ratio nW nz ny nx dz I4 wr) as [cube Hc] end; auto; cbn [dim0 dim1 dim2]; try lia.
  rewrite Hc. eexists; reflexivity.
Qed.

Definition stamp_ok (c : cfg) (st : stamp) : Prop :=
  0 < i_fwhm (c_ins c) -> exists k, st = Stamp3 k /\ (0 < size3 k)%nat.

Lemma conv_ok c a cube : a_cube a = Some cube -> (0 < size3 cube)%nat -> stamp_ok c (a_stamp a) ->
  exists b cv, convolve_spectral_cube_PSF c a = (b, Ok tt) /\ a_conv b = Some cv.
Proof.
  intros Hc Hz Hst. unfold convolve_spectral_cube_PSF. ub. rewrite Hc. unfold PSF_convolve, fgtb, fltb.
  destruct (Rltb 0 (i_fwhm (c_ins c))) eqn:E.
  - apply Rltb_true in E. destruct (Hst E) as (k&Ek&Hk). rewrite Ek.
    destruct (Nat.eqb_spec (size3 cube) 0); [lia|]. destruct (Nat.eqb_spec (size3 k) 0); [lia|]. cbn [orb].
    eexists _, _. split; reflexivity.
  - eexists _, _. split; reflexivity.
Qed.

Lemma trim_ok c a cv : i_slitmask (c_ins c) = false -> a_conv a = Some cv ->
  dim0 cv = w_n (a_wv a) -> dim1 cv = nY (s_grid (a_su a)) -> (0 < w_n (a_wv a))%nat ->
  geom_ok c (s_grid (a_su a)) ->
  exists b, trim_downsample_spectral_cube c a = (b, Ok tt).
Proof.
  intros Hm Hc D0 D1 Hw (_&_&_&Z0&X0&Y0&EY&EW). unfold trim_downsample_spectral_cube. ub. rewrite Hm, Hc. unfold cut.
  destruct (o_rebin (c_opt c)); [|eexists; reflexivity].
  match goal with |- context [rebin2 ?o ?m ?n] => destruct (rebin2_ok o m n) as [b Hb] end; cbn [rows cols].
  - lia.
  - destruct (n_pix_y_whole (s_grid (a_su a))); cbn in EW; lia.
  - exists 1%nat. lia.
  - exists (o_nsub (c_opt c)). rewrite D1, EY, <- EW. lia.
  - rewrite Hb. eexists; reflexivity.
Qed.

Lemma instres_ok c a m : o_shift (c_opt c) = false -> a_out a = Some m -> (0 < rows m)%nat -> (0 < cols m)%nat ->
  (2 <= length (w_arr (a_wv a)))%nat -> exists b, convolve_instrument_resolution c a = (b, Ok tt).
Proof.
  intros Hs Ho Hr Hc Hw. unfold convolve_instrument_resolution. ub. rewrite Hs.
  cbn [set_dvel a_idw a_out a_wv].
  destruct (fgtb _ _); [|eexists; reflexivity].
  rewrite Ho.
  match goal with |- context [inst_convol_complete m ?l (IdwFloat ?s)] => destruct (inst_ok m l s Hr Hc Hw) as [o Eo] end.
  rewrite Eo. eexists; reflexivity.
Qed.

Lemma eval_ok c su w st a l : inv c su w st a -> a_wv a = w ->
  geom_ok c (s_grid su) -> wave_ok (s_grid su) w -> w_arr w = map Fin l ->
  w_d w = average (diffs (map Fin l)) -> increasing l -> (2 <= length l)%nat ->
  p_ndisp (c_prof c) = 1%nat -> (p_nvel (c_prof c) < length (a_theta a))%nat ->
  o_spec (c_opt c) = Wave -> g_rest (c_gal c) <> [] -> (length (g_rest (c_gal c)) <= length (g_ratio (c_gal c)))%nat ->
  o_shift (c_opt c) = false -> o_eff (c_opt c) = false -> i_slitmask (c_ins c) = false ->
  (o_adapt (c_opt c) = true -> (exists f, (1 <= f)%nat /\ o_factor (c_opt c) = INR f) /\ s_up su <> None /\ s_real su = Some w) ->
  (o_floor (c_opt c) = true -> s_floor su <> None) ->
  stamp_ok c st ->
  exists b, do_model_calcs c a = (b, Ok tt).
Proof.
  intros Hi Hw Hg Hwo Hl Hd Hinc Hlen Hnd Hnv Hsp Hr Hra Hsh He Hm Ha Hf Hst.
  unfold do_model_calcs.
  assert (HT : update_theta c a = (set_prof (firstn (p_nvel (c_prof c)) (a_theta a)) (firstn (p_ndisp (c_prof c)) (skipn (p_nvel (c_prof c)) (a_theta a))) a, Ok tt)) by reflexivity.
  rewrite (bindS_Ok _ _ _ _ _ HT). clear HT.
  set (a1 := set_prof _ _ a).
  assert (Hi1 : inv c su w st a1) by now apply inv_prof.
  assert (HD : exists x, a_disp a1 = [x]).
  { unfold a1. cbn [a_disp set_prof]. rewrite Hnd.
    destruct (skipn (p_nvel (c_prof c)) (a_theta a)) as [|x t] eqn:Es.
    - apply (f_equal (@length _)) in Es. rewrite skipn_length in Es. cbn in Es. lia.
    - exists x. reflexivity. }
  destruct HD as [x HD].
  assert (Hsu1 : a_su a1 = su) by apply Hi1.
  assert (Hst1 : a_stamp a1 = st) by apply Hi1.
  assert (Hw1 : a_wv a1 = w) by exact Hw.
  (* up-sampling *)
  assert (X : exists a2 f, (if o_adapt (c_opt c) then check_do_upsample_wave c else ret tt) a1 = (a2, Ok tt) /\
    a_su a2 = su /\ a_stamp a2 = st /\ a_disp a2 = [x] /\ wave_ok (s_grid su) (a_wv a2) /\
    (1 <= f)%nat /\ w_n (a_wv a2) = (length l * f)%nat).
  { assert (W1 : w_n w = length l) by (destruct Hwo as (_&_&E); rewrite <- E, Hl, map_length; auto).
    destruct (o_adapt (c_opt c)) eqn:Ea.
    - destruct (Ha eq_refl) as ((f&F1&F2)&U&Rl). destruct (s_up su) as [D|] eqn:EU; [|congruence].
      destruct (fltb (fabs x) D) eqn:Ex.
      + destruct (upsample_triggered c su w a1 l f (proj1 Hi1) Rl Hw1) as (a2&E2&S2&D2&T2&I2&R2&N2&L2&_); auto.
        { rewrite HD, EU. cbn [abs_lt_truth]. now rewrite Ex. }
        exists a2, f. split; [exact E2|]. rewrite S2, T2, D2. repeat (split; [auto; fail|]).
        split; [|auto]. unfold wave_ok. rewrite I2, R2, N2. repeat split; auto.
      + exists a1, 1%nat. unfold check_do_upsample_wave. ub. rewrite Hsu1, EU, HD. cbn [abs_lt_truth]. rewrite Ex.
        repeat (split; [auto; fail|]). rewrite Hw1. repeat (split; [auto; fail|]). lia.
    - exists a1, 1%nat. repeat (split; [auto; fail|]). rewrite Hw1. repeat (split; [auto; fail|]). lia. }
  destruct X as (a2&f&E2&S2&T2&D2&W2&F2&N2).
  assert (PN : (2 <= w_n (a_wv a2))%nat) by (rewrite N2; destruct f; [lia|nia]).
  rewrite (bindS_Ok _ _ _ _ _ E2).
  destruct (calc_ok c a2 x) as [a3 E3]; auto; [now rewrite S2|now rewrite S2|now rewrite S2|].
  rewrite (bindS_Ok _ _ _ _ _ E3).
  destruct (calc_shape _ _ _ E3) as (S3&W3&T3&cube&C3&Q0&Q1&Q2).
  pose proof Hg as (D0'&D1'&D2'&Z0&X0&Y0&EY&EW).
  destruct (conv_ok c a3 cube C3) as (a4&cv&E4&C4).
  { unfold size3. rewrite Q0, Q1, Q2, S2, EY. assert (0 < n_pix_y (s_grid su) + 2 * padY (s_grid su))%nat by lia. nia. }
  { now rewrite T3, T2. }
  rewrite (bindS_Ok _ _ _ _ _ E4).
  destruct (conv_shape _ _ _ _ C3 E4) as (S4&W4&T4&C4'). destruct (C4' cv C4) as (V0&V1&V2).
  assert (WE : a_wv a4 = a_wv a2) by congruence.
  assert (SE : a_su a4 = su) by congruence.
  destruct (trim_ok c a4 cv Hm C4) as [a5 E5]; rewrite ?WE, ?SE; auto; try lia; try congruence.
  rewrite (bindS_Ok _ _ _ _ _ E5).
  apply trim_shape in E5; [|intros cv' Hcv; destruct (C4' cv' Hcv) as (?&?&?); rewrite ?WE, ?SE; repeat split; congruence
     |rewrite SE; auto].
  destruct E5 as (S5&W5&m5&O5&R5&K5).
  assert (K5' : exists q, (0 < q)%nat /\ cols m5 = (n_pix_y_whole (s_grid su) * q)%nat).
  { rewrite K5, SE. destruct (o_rebin (c_opt c)).
    - exists 1%nat. lia.
    - exists (o_nsub (c_opt c)). split; [|auto]. destruct (o_nsub (c_opt c)); lia. }
  destruct K5' as (q&q0&K5').
  assert (NW : (0 < n_pix_y_whole (s_grid su))%nat) by (destruct (n_pix_y_whole (s_grid su)); cbn in EW; lia).
  destruct (instres_ok c a5 m5 Hsh O5) as [a6 E6].
  { rewrite R5, WE. lia. } { rewrite K5'. nia. }
  { rewrite W5, WE. destruct W2 as (_&_&E). lia. }
  rewrite (bindS_Ok _ _ _ _ _ E6).
  destruct (inst_shape _ _ _ _ O5 E6) as (S6&W6&m6&O6&R6&K6).
  assert (X : exists a7 m7, (if o_adapt (c_opt c) then downsample_to_real_wave c else ret tt) a6 = (a7, Ok tt) /\ a_out a7 = Some m7).
  { destruct (o_adapt (c_opt c)) eqn:Ea; [|exists a6, m6; auto].
    destruct (Ha eq_refl) as (_&_&Rl). unfold downsample_to_real_wave. ub.
    assert (SS : a_su a6 = su) by congruence. rewrite SS, Rl, O6.
    match goal with |- context [rebin2 ?o ?m ?n] => destruct (rebin2_ok o m n) as [b Hb] end; auto.
    - destruct Hwo as (_&_&E). rewrite <- E, Hl, map_length. lia.
    - exists f. rewrite R6, R5, WE, N2. destruct Hwo as (_&_&E). rewrite <- E, Hl, map_length. auto.
    - exists q. congruence.
    - rewrite Hb. eexists _, _. split; reflexivity. }
  destruct X as (a7&m7&E7&O7). rewrite (bindS_Ok _ _ _ _ _ E7). ub. rewrite O7. eexists; reflexivity.
Qed.

Lemma getz_neg {A} (l : list A) (d : A) (k : nat) : (1 <= k <= length l)%nat ->
  getz l (- Z.of_nat k) = Ok (nth (length l - k) l d).
Proof.
  intros H. unfold getz. destruct (Z.ltb_spec (- Z.of_nat k) 0); [|lia].
  destruct (Z.leb_spec 0 (- Z.of_nat k + Z.of_nat (length l))); [|lia].
  unfold getn. replace (Z.to_nat (- Z.of_nat k + Z.of_nat (length l))) with (length l - k)%nat by lia.
  rewrite (nth_error_nth' l d) by lia. reflexivity.
Qed.

Lemma slit_npix_pos ins o nw : 0 < i_slit ins -> 0 < i_pix ins -> (1 <= o_nsub o)%nat -> (1 <= nw)%nat ->
  (1 <= slit_npix ins o nw)%nat.
Proof.
  intros Hs Hp Hn Hr. unfold slit_npix.
  assert (Hu : 0 < INR (o_nsub o)) by (apply lt_0_INR; lia).
  assert (Hy : 0 < i_pix ins / INR (o_nsub o)) by (apply Rdiv_lt_0_compat; auto).
  destruct (Reqb _ _); [nia|]. unfold nat_of_ceil.
  pose proof (Rceil_spec (i_slit ins / (i_pix ins / INR (o_nsub o)))) as [C1 C2].
  assert (0 < i_slit ins / (i_pix ins / INR (o_nsub o))) by (apply Rdiv_lt_0_compat; auto).
  assert (0 < Rceil (i_slit ins / (i_pix ins / INR (o_nsub o))))%Z by (apply lt_IZR; lra). lia.
Qed.

Lemma setup_ok c th l : well_posed c th l -> exists g w, setup_model_grid c th = Ok (g, w).
Proof.
  intros (H1&H2&H3&H4&H5&H6&H7&H8&H9&H10&H11&H12&H13&_).
  unfold setup_model_grid.
  destruct (Nat.eqb_spec (o_nsub (c_opt c)) 0); [lia|].
  pose proof (slit_npix_pos (c_ins c) (c_opt c) (g_rows (c_gal c)) H2 H3 H1 H4).
  destruct (Nat.eqb_spec (slit_npix (c_ins c) (c_opt c) (g_rows (c_gal c))) 0); [lia|].
  pose proof (getz_neg th NaN 1 ltac:(lia)) as G1. pose proof (getz_neg th NaN 2 ltac:(lia)) as G2.
  change (- Z.of_nat 1)%Z with (-1)%Z in G1. change (- Z.of_nat 2)%Z with (-2)%Z in G2.
  rewrite G1, G2. cbn [bind]. rewrite H11.
  destruct (g_rest (c_gal c)) as [|r0 rr]; [congruence|]. cbn [getn nth_error bind].
  eexists _, _. reflexivity.
Qed.

Lemma near_len fwhm l : near fwhm l <> [] -> (0 < length (near fwhm l))%nat.
Proof. destruct (near fwhm l); [congruence|cbn; lia]. Qed.

Lemma stamp_nonempty c th l g w : well_posed c th l -> setup_model_grid c th = Ok (g, w) ->
  stamp_ok c (make_stamp (c_ins c) g).
Proof.
  intros Hwp Hg Hf. pose proof Hwp as (H1&H2&H3&H4&H5&H6&H7&H8&H9&H10&H11&H12&H13&H14&H15&H16&H17&H18&H19).
  destruct H19 as [H19|(_&Hd&m&Hm)]; [lra|].
  destruct (setup_fields _ _ _ _ Hg) as (F1&F2&F3&F4&F5&F6&F7&F8&F9&F10&F11&F12&F13&F14&F15&F16&F17&F18&(sh&F19&F20)&_).
  destruct (slit_tiling _ _ _ _ Hg H2 H3) as (_&(Dx0&Dx1)&_).
  pose proof (getz_neg th NaN 2 ltac:(lia)) as G2.
  change (- Z.of_nat 2)%Z with (-2)%Z in G2. rewrite G2 in F19. injection F19 as <-. rewrite Hm in F20.
  rewrite <- F7 in Hd.
  eexists. split; [reflexivity|]. unfold size3. cbn [dim0 dim1 dim2].
  assert (X : near (i_fwhm (c_ins c)) (x_arr g) <> []).
  { destruct (x_grid _ _ _ _ Hg) as [L1 L2].
    apply (near_ap _ (nX g) (- (INR (nX g) - 1) / 2 * delt_x g - o_xc (c_opt c)) (delt_x g)); auto; [lia| |].
    - intros i Hi. rewrite L2 by auto. f_equal. unfold xat. field.
    - rewrite Rabs_pos_eq by lra. lra. }
  assert (Y : near (i_fwhm (c_ins c)) (y_arr g) <> []).
  { destruct (y_grid _ _ _ _ _ Hg F20) as [L1 L2].
    assert (YN : (1 <= nY g)%nat) by nia.
    assert (PY : 0 < delt_y g) by lra.
    destruct (Nat.eqb_spec (nY g) 1) as [E1|E1].
    - assert (L2' := L2 0%nat ltac:(lia)).
      apply (near_ap _ (nY g) (true_y g (c_opt c) m 0 + INR (o_nsub (c_opt c)) * delt_y g * (1/2 - 0)) 0); auto.
      + intros i Hi. assert (i = 0)%nat by lia. subst i. rewrite L2'. f_equal. simpl (INR 0). ring.
      + rewrite Rabs_R0. lra.
    - assert (N1 : 0 < INR (nY g) - 1) by (assert (1 < INR (nY g)) by (apply (lt_INR 1); lia); lra).
      apply (near_ap _ (nY g) (true_y g (c_opt c) m 0 + INR (o_nsub (c_opt c)) * delt_y g * (1/2))
                     (delt_y g * (1 - INR (o_nsub (c_opt c)) / (INR (nY g) - 1)))); auto.
      + intros i Hi. rewrite L2 by auto. f_equal. unfold true_y. simpl (INR 0). field. lra.
      + assert (Q : -1 <= 1 - INR (o_nsub (c_opt c)) / (INR (nY g) - 1) <= 1).
        { assert (P : 0 < INR (o_nsub (c_opt c)) / (INR (nY g) - 1)) by (apply Rdiv_lt_0_compat; auto; apply lt_0_INR; lia).
          assert (B : INR (o_nsub (c_opt c)) <= 2 * (INR (nY g) - 1)).
          { assert (E : (o_nsub (c_opt c) <= nY g)%nat) by nia. apply le_INR in E.
            assert (2 <= INR (nY g)) by (apply (le_INR 2); lia). lra. }
          assert (INR (o_nsub (c_opt c)) / (INR (nY g) - 1) <= 2).
          { apply (Rmult_le_reg_r (INR (nY g) - 1)); auto. unfold Rdiv. rewrite Rmult_assoc, Rinv_l, Rmult_1_r; lra. }
          lra. }
        assert (Rabs (delt_y g * (1 - INR (o_nsub (c_opt c)) / (INR (nY g) - 1))) <= delt_y g).
        { rewrite Rabs_mult, (Rabs_pos_eq (delt_y g)) by lra.
          assert (Rabs (1 - INR (o_nsub (c_opt c)) / (INR (nY g) - 1)) <= 1) by (apply Rabs_le; lra). nra. }
        lra. }
  apply near_len in X. apply near_len in Y. nia.
Qed.

Lemma well_posed_eval c th l : well_posed c th l ->
  exists a0 b, setup_calcs c th = Ok a0 /\ do_model_calcs c a0 = (b, Ok tt).
Proof.
  intros Hwp. destruct (setup_ok _ _ _ Hwp) as (g&w&Hg).
  pose proof (stamp_nonempty _ _ _ _ _ Hwp Hg) as Hst.
  pose proof Hwp as (H1&H2&H3&H4&H5&H6&H7&H8&H9&H10&H11&H12&H13&H14&H15&H16&H17&H18&H19).
  destruct (setup_fields _ _ _ _ Hg) as (F1&F2&F3&F4&F5&F6&F7&F8&F9&F10&F11&F12&F13&F14&F15&F16&F17&F18&F19&F20&F21&F22&F23).
  destruct (setup_calcs c th) as [a0|e] eqn:Es; [|unfold setup_calcs in Es; rewrite Hg in Es; discriminate].
  destruct (setup_calcs_inv _ _ _ Es) as (w'&R&W&I&T).
  unfold setup_calcs in Es. rewrite Hg in Es. cbn [bind] in Es. injection Es as <-. cbn [a_wv] in W. subst w'.
  cbn [a_su a_stamp s_real] in *.
  eexists. destruct (eval_ok c _ w _ _ l I) as [b Hb]; cbn [a_su s_grid s_up s_floor s_real a_theta]; auto.
  - unfold geom_ok. rewrite F3. csplit; auto; nia.
  - unfold wave_ok. rewrite F23. cbn. auto.
  - rewrite F23. cbn. auto.
  - rewrite F23. cbn. now rewrite H5.
  - intros Ha. split; [auto|]. unfold thresholds. rewrite Ha, H11. cbn. split; [discriminate|auto].
  - intros Hf. unfold thresholds. rewrite Hf, H11. destruct (o_adapt (c_opt c)); cbn; discriminate.
  - exists b. split; [reflexivity|exact Hb].
Qed.

(* data arrays that a model image of the given shape can be scaled to *)
Lemma scale_ok d m n p : rows m = n -> cols m = p -> rows (flux d) = n -> rows (ferr d) = n ->
  cols (flux d) = p -> cols (ferr d) = p -> cols_ok p (wh_nosky d) -> exists m', scale_model d m = Ok m'.
Proof.
  intros Rm Cm Rf Re Cf Ce Hc. unfold scale_model. rewrite Rm, Cm, Rf, Re, Cf, Ce.
  assert (E : forallb (fun c => Nat.ltb c p) (wh_nosky d) = true).
  { apply forallb_forall. intros x Hx. apply Nat.ltb_lt. now apply Hc. }
  rewrite E, !Nat.eqb_refl. cbn. eexists; reflexivity.
Qed.

Lemma make_ok c k tf th l : fresh k -> length (k_vary k) = length (k_theta k) -> length tf = nfree (k_vary k) ->
  fst (update_parameters (k_theta k) (k_vary k) tf) = th -> well_posed c th l ->
  (k_noscale k = true \/ (rows (flux (g_data (c_gal c))) = img_rows c /\ rows (ferr (g_data (c_gal c))) = img_rows c /\
     cols (flux (g_data (c_gal c))) = length l /\ cols (ferr (g_data (c_gal c))) = length l /\
     cols_ok (length l) (wh_nosky (g_data (c_gal c))))) ->
  exists k' m, km_make c tf k = (k', Ok tt) /\ k_model k' = Some m /\ rows m = img_rows c /\ cols m = length l.
Proof.
  intros Hf Hv Ht Hth Hwp Hd. unfold km_make. rewrite n_free_param_nfree, Ht, Nat.eqb_refl. cbn [negb].
  destruct (update_parameters_spec (k_theta k) (k_vary k) tf Hv) as (th'&E&_); [lia|].
  rewrite E in Hth |- *. cbn [fst] in Hth. subst th'. cbn [k_aper]. rewrite Hf.
  destruct (well_posed_eval _ _ _ Hwp) as (a0&b&Es&Eb). unfold aper_new. rewrite Es, Eb.
  pose proof Hwp as (H1&H2&H3&H4&H5&H6&H7&_).
  destruct (setup_calcs_inv _ _ _ Es) as (w'&R&W&I&T).
  assert (X : exists g w, setup_model_grid c th = Ok (g, w) /\ s_grid (a_su a0) = g /\ w = w').
  { unfold setup_calcs in Es. destruct (setup_model_grid c th) as [[g w]|]; [|discriminate]. cbn [bind] in Es.
    exists g, w. split; [auto|]. injection Es as <-. cbn in *. auto. }
  destruct X as (g&w&Hg&Hsg&->).
  destruct (eval_shape c th g w' (a_su a0) (a_stamp a0) a0 b Hg Hsg R I W Eb) as (m&Em&Rm&Cm).
  rewrite H5, map_length in Cm.
  unfold store_model. rewrite Em. cbn [k_noscale].
  destruct (k_noscale k) eqn:En.
  - eexists _, _. split; [reflexivity|]. cbn. auto.
  - destruct Hd as [Hd|(D1&D2&D3&D4&D5)]; [congruence|].
    destruct (scale_ok (g_data (c_gal c)) m (img_rows c) (length l)) as [m' Em']; auto.
    rewrite Em'. eexists _, _. split; [reflexivity|]. cbn. split; [reflexivity|].
    unfold scale_model in Em'. destruct (negb _); [discriminate|]. destruct (negb _); [discriminate|].
    destruct (negb _); [discriminate|]. destruct (negb _); [discriminate|]. injection Em' as <-. cbn. auto.
Qed.
