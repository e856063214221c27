(* Proofs: wavelengths in another unit or frame, at every stage and over whole runs. *)
From Coq Require Import Reals Lra Lia List Bool Arith ZArith FunctionalExtensionality.
From Verif Require Import PyFloat PyBase Arr PyNum MParams MKernels MAper2D SMirror SBright SFrame PKernels PAper2D PMirror PMirror2 PBright PBright2 PBright3 PFrame.
Import ListNotations.
Local Open Scope R_scope.

Section Frame.
Variables (u v : R) (c : cfg) (z0 z0' : fl).
Hypothesis Hu : 0 < u.
Hypothesis Hv : 0 < v.
Hypothesis Hw : o_spec (c_opt c) = Wave.
Hypothesis Hz : same_place u v z0 z0'.
Let c' := in_frame u v c.
Notation s := (fmul (Fin u)).
Definition fg (g : grid) : grid :=
  mkgrid (sini g) (n_pix_y_whole g) (n_pix_y g) (n_pix_x g) (n_pix_z g) (delt_x g) (delt_y g) (delt_z g)
    (padX g) (padY g) (nX g) (nY g) (nZ g) (x_arr g) (y_arr g) (z_arr g) z0' (m0_fit g) (s (lam0_primary g)) (r_cube g) (yint g) (zint g) (I_wide g).
Definition fw (w : wv) : wv := mkwv (map s (w_arr w)) (w_n w) (s (w_d w)) (w_I4 w) (map4 s (w_ref w)).
Definition fs (x : setup) : setup := mksetup (fg (s_grid x)) (s_floor x) (s_up x) (option_map fw (s_real x)).
Definition FB (t : list fl) (k1 k2 k3 k4 : R) (x : aper) : aper :=
  mkaper (fs (a_su x)) t (a_vel x) (a_disp x) (fw (a_wv x)) (a_dvel x) (sidw u (a_idw x)) (option_map (map3 (fmul (Fin k1))) (a_cube x))
    (option_map (map3 (fmul (Fin k2))) (a_conv x)) (option_map (map2 (fmul (Fin k3))) (a_out x)) (option_map (map2 (fmul (Fin k4))) (a_model x)) (a_stamp x).
Definition Rel (x x' : aper) : Prop :=
  gz (s_grid (a_su x)) = z0 /\ exists t k1 k2 k3 k4, gn u k1 /\ gn u k2 /\ gn u k3 /\ gn u k4 /\ x' = FB t k1 k2 k3 k4 x.
Definition Relr (p q : aper * res unit) : Prop := Rel (fst p) (fst q) /\ snd p = snd q.
Definition Relm (m m' : ST aper unit) : Prop := forall x x', Rel x x' -> Relr (m x) (m' x').
Lemma Relm_bind m m' f f' : Relm m m' -> Relm (f tt) (f' tt) -> Relm (bindS m f) (bindS m' f').
Proof.
  intros H1 H2 a b Hab. unfold bindS. destruct (H1 a b Hab) as [X Y].
  destruct (m a) as [a1 [[]|e]], (m' b) as [b1 [[]|e']]; cbn [fst snd] in *; try discriminate.
  - now apply H2.
  - injection Y as <-. split; auto.
Qed.
Lemma Relm_ret : Relm (ret tt) (ret tt). Proof. intros a b H. split; auto. Qed.
Lemma fopt_same : c_opt c' = c_opt c. Proof. reflexivity. Qed.
Lemma fins_same : c_ins c' = c_ins c. Proof. reflexivity. Qed.

Ltac fcl := unfold set_theta, set_prof, set_wv, set_dvel, set_cube, set_conv, set_out, set_model; cbn [a_su a_theta a_vel a_disp a_wv a_dvel a_idw a_cube a_conv a_out a_model a_stamp fst snd s_grid s_floor s_up s_real option_map].
Ltac fop :=
  intros [[q1a q1b q1c q1d] q2 q3 q4 q5 q6 q7 q8 q9 q10 q11 q12] ? (GZ & t & k1 & k2 & k3 & k4 & G1 & G2 & G3 & G4 & ->); match goal with H : gz _ = z0 |- _ => cbn [a_su s_grid] in H end; unfold FB, fs;
  cbn [a_su a_theta a_vel a_disp a_wv a_dvel a_idw a_cube a_conv a_out a_model a_stamp s_grid s_floor s_up s_real]; ub; rewrite ?fopt_same, ?fins_same; fcl.
Ltac finish j1 j2 j3 j4 := split; [split; [assumption|eexists _, j1, j2, j3, j4; split; [assumption|split; [assumption|split; [assumption|split; [assumption|unfold FB, fs; fcl; try reflexivity]]]]]|try reflexivity].

Lemma f_check : Relm (check_do_upsample_wave c) (check_do_upsample_wave c').
Proof.
  fop. unfold check_do_upsample_wave. ub. fcl. rewrite ?fopt_same. destruct (abs_lt_truth _ _) as [[]|]; fcl; [|finish k1 k2 k3 k4|finish k1 k2 k3 k4].
  destruct q1d as [re|]; fcl; [|finish k1 k2 k3 k4]. cbn [fw w_d w_arr w_n w_I4 w_ref].
  rewrite (s_npmin u Hu). destruct (np_min _) as [mn|]; cbn [rmap]; fcl.
  2:{ finish k1 k2 k3 k4. unfold fw. cbn [w_d w_arr w_n w_I4 w_ref]. now rewrite (s_div u Hu). }
  rewrite (s_npmax u Hu). destruct (np_max _) as [mx|]; cbn [rmap]; fcl.
  2:{ finish k1 k2 k3 k4. unfold fw. cbn [w_d w_arr w_n w_I4 w_ref]. now rewrite (s_div u Hu). }
  rewrite !(s_div u Hu), !(s_sub u Hu), !(s_mul_r u Hu), !(s_sub u Hu), !(s_add u Hu), !(s_sub u Hu), (s_div_both u Hu).
  destruct (int_round _) as [n|]; fcl.
  2:{ finish k1 k2 k3 k4. }
  destruct (n <? 0)%Z; fcl.
  { finish k1 k2 k3 k4. }
  finish k1 k2 k3 k4. unfold fw. cbn [w_d w_arr w_n w_I4 w_ref]. rewrite (s_linspace u Hu), map_length, frame_repeat. reflexivity.
Qed.
Lemma f_sigma : Relm (sigma_options c) (sigma_options c').
Proof.
  fop. unfold sigma_options. rewrite fopt_same. destruct (o_abs (c_opt c)), (o_floor (c_opt c)); ub; fcl; try finish k1 k2 k3 k4;
    (destruct (abs_lt_truth _ _) as [[]|]; fcl; [destruct q1b|..]; fcl; finish k1 k2 k3 k4).
Qed.
Lemma f_eff g st : eff_inst_res c' (fg g) st = rmap (fun p => (fst p, map s (snd p))) (eff_inst_res c g st).
Proof.
  unfold eff_inst_res. rewrite fins_same. cbn [fg nY nX nZ I_wide padX n_pix_x x_arr lam0_primary].
  destruct (PSF_convolve _ _ _) as [[cv|]|e]; cbn [rmap option_map bind]; try reflexivity.
  change (p_lmfit (c_prof c')) with (p_lmfit (c_prof c)).
  destruct (mapR _ _) as [rows|e]; cbn [bind rmap fst snd]; [|reflexivity]. do 2 f_equal.
  - apply map_ext. intros r. now rewrite !(s_div u Hu), (s_mul_r u Hu), (s_div_both u Hu).
  - rewrite map_map. apply map_ext. intros r. now rewrite !(s_div u Hu).
Qed.
Lemma f_cache : Relm (shift_cache c) (shift_cache c').
Proof.
  fop. unfold shift_cache. rewrite fopt_same. destruct (o_shift (c_opt c) || o_eff (c_opt c)); ub; fcl; [|finish k1 k2 k3 k4].
  rewrite f_eff. destruct q6, q7; cbn [sidw]; fcl; try finish k1 k2 k3 k4; destruct (eff_inst_res _ _ _); cbn [rmap]; fcl; finish k1 k2 k3 k4.
Qed.
Lemma f_tail_b V g d : gz g = z0 -> Relm (tail_b c V g d) (tail_b c' V (fg g) d).
Proof.
  intros GG. fop. unfold tail_b. ub. fcl.
  match goal with |- context [shift_V c' ?y V] => match goal with |- context [shift_V c ?x V] => change (shift_V c' y V) with (shift_V c x V); destruct (shift_V c x V) as [V2|e] end end;
    [|fcl; finish k1 k2 k3 k4].
  change (o_spec (c_opt c')) with (o_spec (c_opt c)). change (g_ratio (c_gal c')) with (g_ratio (c_gal c)). rewrite Hw.
  change (g_rest (c_gal c')) with (map (fmul (Fin v)) (g_rest (c_gal c))). change (p_disp (c_prof c')) with (p_disp (c_prof c)).
  cbn [fg nZ nY nX gz delt_z r_cube zint I_wide fw w_I4 w_ref w_arr w_n]. rewrite GG.
  match goal with |- context [add_sigma_collapse_z ?I ?VV ?sg (map s ?wa) z0' ?re ?ra ?nw ?nz ?ny ?nx ?dz ?I4 (map4 s ?wr) Wave] =>
    destruct (frame_add u v z0 z0' I VV sg wa (g_rest (c_gal c)) ra nw nz ny nx dz I4 wr Hu Hv Hz) as (k & Gk & E) end.
  rewrite E. clear E. match goal with |- context [rmap _ ?A] => destruct A end; cbn [rmap]; fcl; [finish k k2 k3 k4|finish k1 k2 k3 k4].
Qed.
Lemma f_calc : Relm (calculate_spectral_cube c) (calculate_spectral_cube c').
Proof.
  intros x x' H. rewrite !calc_pieces.
  assert (E1 : V_cube c' x' = V_cube c x) by (destruct H as (_ & t & k1 & k2 & k3 & k4 & _ & _ & _ & _ & ->); reflexivity).
  assert (E2 : s_grid (a_su x') = fg (s_grid (a_su x))) by (destruct H as (_ & t & k1 & k2 & k3 & k4 & _ & _ & _ & _ & ->); reflexivity).
  assert (E3 : gz (s_grid (a_su x)) = z0) by exact (proj1 H).
  rewrite E1, E2. revert E3 H. generalize (V_cube c x), (s_grid (a_su x)). clear E1 E2. intros V g E3 H.
  refine (Relm_bind _ _ (fun _ => tail_a c V g) (fun _ => tail_a c' V (fg g)) f_sigma _ x x' H).
  intros b b' Hb. unfold tail_a.
  change (Relr (bindS (shift_cache c) (fun _ => tail_b c V g (a_disp b)) b) (bindS (shift_cache c') (fun _ => tail_b c' V (fg g) (a_disp b')) b')).
  assert (E4 : a_disp b' = a_disp b) by (destruct Hb as (_ & t & k1 & k2 & k3 & k4 & _ & _ & _ & _ & ->); reflexivity).
  rewrite E4. refine (Relm_bind _ _ (fun _ => tail_b c V g (a_disp b)) (fun _ => tail_b c' V (fg g) (a_disp b)) f_cache _ b b' Hb).
  now apply f_tail_b.
Qed.
Lemma f_conv : Relm (convolve_spectral_cube_PSF c) (convolve_spectral_cube_PSF c').
Proof.
  fop. unfold convolve_spectral_cube_PSF. ub. fcl. destruct q8; fcl; [|finish k1 k2 k3 k4]. rewrite fins_same, (s_PSF k1 (gn_pos u k1 Hu G1)).
  destruct (PSF_convolve _ _ _); cbn [rmap]; fcl; [finish k1 k1 k3 k4|finish k1 k2 k3 k4].
Qed.
Lemma f_trim : Relm (trim_downsample_spectral_cube c) (trim_downsample_spectral_cube c').
Proof.
  fop. unfold trim_downsample_spectral_cube. ub. fcl. rewrite ?fins_same, ?fopt_same. destruct (i_slitmask _); fcl; [finish k1 k2 k3 k4|].
  destruct q9 as [cv|]; fcl; [|finish k1 k2 k3 k4].
  cbn [fg padY padX n_pix_y n_pix_x delt_x n_pix_y_whole fw w_n map3 dim0 dim1 dim2].
  destruct (cut (dim1 cv) _ _) as [y0 ny]. destruct (cut (dim2 cv) _ _) as [x0 nx]. fcl.
  pose proof (gn_pos u k2 Hu G2) as P2.
  assert (E : mk2 (dim0 cv) ny (fun w j => fmul (fsumn nx (fun l => at3 (mk3 (dim0 cv) ny nx (fun w j l => at3 (map3 (fmul (Fin k2)) cv) w (y0 + j) (x0 + l))) w j l)) (Fin (delt_x q1a)))
     = map2 (fmul (Fin k2)) (mk2 (dim0 cv) ny (fun w j => fmul (fsumn nx (fun l => at3 (mk3 (dim0 cv) ny nx (fun w j l => at3 cv w (y0 + j) (x0 + l))) w j l)) (Fin (delt_x q1a))))).
  { unfold map2. cbn [rows cols at2 at3 map3]. apply mk2_ext. intros w j. now rewrite (s_sumn k2 P2), (s_mul k2 P2). }
  rewrite E.
  destruct (o_rebin _); fcl; [|finish k1 k2 k2 k4]. rewrite (s_rebin k2 P2). destruct (rebin2 _ _ _); cbn [rmap]; fcl; finish k1 k2 k2 k4.
Qed.
Lemma f_pos x : fgtb (s x) (Fin 0) = fgtb x (Fin 0).
Proof. unfold fgtb. transitivity (fltb (s (Fin 0)) (s x)); [cbn [fmul]; now rewrite Rmult_0_r|apply (s_ltb u Hu)]. Qed.
Lemma f_rest h : (forall w, h (sidw u w) = rmap s (h w)) -> Relm (inst_rest h) (inst_rest h).
Proof.
  intros Hh. fop. unfold inst_rest, bindS, getS, liftR. fcl. rewrite Hh. destruct (h q7) as [mn|e]; cbn [rmap]; [|finish k1 k2 k3 k4].
  unfold irun. rewrite f_pos. destruct (fgtb mn (Fin 0)); [|finish k1 k2 k3 k4]. fcl. destruct q10 as [m|]; cbn [option_map]; [|finish k1 k2 k3 k4]. ub. cbn [fw w_arr].
  rewrite (s_inst k3 (gn_pos u k3 Hu G3)), (frame_inst u Hu). destruct (inst_convol_complete _ _ _); cbn [rmap]; fcl; finish k1 k2 k3 k4.
Qed.
Lemma f_rest2 a : Relm (inst_rest (fun _ => Ok a)) (inst_rest (fun _ => Ok (s a))).
Proof.
  fop. unfold inst_rest, bindS, getS, liftR. fcl.
  unfold irun. rewrite f_pos. destruct (fgtb a (Fin 0)); [|finish k1 k2 k3 k4]. fcl. destruct q10 as [m|]; cbn [option_map]; [|finish k1 k2 k3 k4]. ub. cbn [fw w_arr].
  rewrite (s_inst k3 (gn_pos u k3 Hu G3)), (frame_inst u Hu). destruct (inst_convol_complete _ _ _); cbn [rmap]; fcl; finish k1 k2 k3 k4.
Qed.
Lemma f_inst : Relm (convolve_instrument_resolution c) (convolve_instrument_resolution c').
Proof.
  intros x x' H. rewrite !inst_pieces, fins_same, fopt_same.
  assert (E2 : s_grid (a_su x') = fg (s_grid (a_su x))) by (destruct H as (_ & t & k1 & k2 & k3 & k4 & _ & _ & _ & _ & ->); reflexivity).
  rewrite E2. cbn [fg lam0_primary]. rewrite (s_mul_r u Hu). generalize (fmul (fdiv (i_res (c_ins c)) (Fin c_kms)) (lam0_primary (s_grid (a_su x)))).
  clear E2. intros l. cbv zeta. rewrite Hw. revert x x' H.
  match goal with |- forall x x', _ -> Relr (?f x) (?g x') => change (Relm f g) end.
  destruct (o_shift (c_opt c)).
  - apply Relm_bind.
    + destruct (o_eff (c_opt c)); cbn [negb]; [exact Relm_ret|]. fop. unfold modS. fcl. finish k1 k2 k3 k4.
    + apply f_rest. intros [|y|ys]; try reflexivity. cbn [sidw]. apply (s_npmin u Hu).
  - apply Relm_bind; [|apply f_rest2]. fop. unfold modS. fcl. finish k1 k2 k3 k4.
Qed.
Lemma f_down : Relm (downsample_to_real_wave c) (downsample_to_real_wave c').
Proof.
  fop. unfold downsample_to_real_wave. ub. fcl. destruct q1d as [re|]; fcl; [|destruct q10; fcl; finish k1 k2 k3 k4]. destruct q10; fcl; [|finish k1 k2 k3 k4].
  cbn [fw w_n w_arr w_d w_I4 w_ref fg n_pix_y_whole]. rewrite (s_rebin k3 (gn_pos u k3 Hu G3)). destruct (rebin2 _ _ _); cbn [rmap]; fcl; finish k1 k2 k3 k4.
Qed.
Lemma f_after : Relm (after_theta c) (after_theta c').
Proof.
  unfold after_theta. rewrite fopt_same.
  repeat (apply Relm_bind; [first [exact f_calc | exact f_conv | exact f_trim | exact f_inst
    | destruct (o_adapt (c_opt c)); [first [exact f_check | exact f_down] | exact Relm_ret]]|]).
  fop. destruct q10; fcl; [finish k1 k2 k3 k3|finish k1 k2 k3 k4].
Qed.
(* parameter vectors that differ in the last entry *)
Definition tails (t t' : list fl) : Prop := exists l z z', t = l ++ [z] /\ t' = l ++ [z'] /\ (p_nvel (c_prof c) + p_ndisp (c_prof c) <= length l)%nat.
Lemma f_do x x' : Rel x x' -> tails (a_theta x) (a_theta x') -> Relr (do_model_calcs c x) (do_model_calcs c' x').
Proof.
  intros H (l & z & z' & E & E' & L). change (Relr (after_theta c (fst (update_theta c x))) (after_theta c' (fst (update_theta c' x')))). apply f_after.
  destruct H as (GZ & t & k1 & k2 & k3 & k4 & G1 & G2 & G3 & G4 & ->). cbn [FB a_theta] in E'. subst t.
  split; [exact GZ|]. exists (l ++ [z']), k1, k2, k3, k4. do 4 (split; [assumption|]). unfold update_theta, modS, set_prof. cbn [fst].
  unfold FB. cbn [a_su a_theta a_vel a_disp a_wv a_dvel a_idw a_cube a_conv a_out a_model a_stamp]. change (c_prof c') with (c_prof c). rewrite E.
  rewrite !firstn_app, !skipn_app. replace (p_nvel (c_prof c) - length l)%nat with O by lia.
  rewrite !firstn_app. rewrite skipn_length. replace (p_ndisp (c_prof c) - (length l - p_nvel (c_prof c)))%nat with O by lia. reflexivity.
Qed.
Lemma f_update th th' x x' : Rel x x' -> tails th th' -> Relr (aper_update c th x) (aper_update c' th' x').
Proof.
  intros H T. change (Relr (do_model_calcs c (set_theta th x)) (do_model_calcs c' (set_theta th' x'))). apply f_do; [|exact T].
  destruct H as (GZ & t & k1 & k2 & k3 & k4 & G1 & G2 & G3 & G4 & ->). split; [exact GZ|]. exists th', k1, k2, k3, k4. do 4 (split; [assumption|]). reflexivity.
Qed.
Lemma f_thr d l : thresholds (c_opt c) (s d) (s l) = thresholds (c_opt c) d l.
Proof. unfold thresholds. rewrite Hw. cbv beta zeta. rewrite !(s_div_both u Hu), !(s_div u Hu _ (Fin (o_factor (c_opt c)))), !(s_div_both u Hu). reflexivity. Qed.
Lemma getz_last {A} (l : list A) x : getz (l ++ [x]) (-1) = Ok x.
Proof.
  unfold getz. rewrite app_length. cbn [length]. replace (-1 <? 0)%Z with true by reflexivity.
  replace (-1 + Z.of_nat (length l + 1))%Z with (Z.of_nat (length l)) by lia. destruct (0 <=? _)%Z eqn:E; [|apply Z.leb_gt in E; lia].
  rewrite Nat2Z.id. unfold getn. now rewrite nth_error_app2, Nat.sub_diag by lia.
Qed.
Lemma getz_second {A} (l : list A) x y : getz (l ++ [x]) (-2) = getz (l ++ [y]) (-2).
Proof.
  unfold getz. rewrite !app_length. cbn [length]. replace (-2 <? 0)%Z with true by reflexivity. destruct (0 <=? _)%Z eqn:E; [|reflexivity].
  apply Z.leb_le in E. unfold getn. rewrite !nth_error_app1 by lia. reflexivity.
Qed.
Lemma f_setup l : match setup_calcs c (l ++ [z0]), setup_calcs c' (l ++ [z0']) with Ok x, Ok x' => Rel x x' /\ a_theta x = l ++ [z0] /\ a_theta x' = l ++ [z0'] /\ a_stamp x = a_stamp x' | Err e, Err e' => e = e' | _, _ => False end.
Proof.
  unfold setup_calcs.
  assert (E : setup_model_grid c' (l ++ [z0']) = rmap (fun p => (fg (fst p), fw (snd p))) (setup_model_grid c (l ++ [z0])) /\
              forall g w, setup_model_grid c (l ++ [z0]) = Ok (g, w) -> gz g = z0).
  { unfold setup_model_grid. cbv zeta. rewrite fopt_same, fins_same, Hw. destruct (Nat.eqb _ 0); [split; [reflexivity|discriminate]|]. cbn [c' in_frame c_gal g_rows].
    destruct (Nat.eqb _ 0); [split; [reflexivity|discriminate]|]. rewrite !getz_last, (getz_second l z0' z0). cbn [bind].
    destruct (getz (l ++ [z0]) (-2)); [|split; [reflexivity|discriminate]]. cbn [bind g_rest].
    destruct (g_rest (c_gal c)) as [|r rs]; [split; [reflexivity|discriminate]|]. unfold getn. cbn [map nth_error bind rmap fst snd].
    split; [|intros g w H; injection H as <- _; reflexivity]. f_equal. cbn [g_q g_q0 g_dPA g_wave g_m0]. unfold fg, fw.
    cbn [sini n_pix_y_whole n_pix_y n_pix_x n_pix_z delt_x delt_y delt_z padX padY nX nY nZ x_arr y_arr z_arr m0_fit lam0_primary r_cube yint zint I_wide w_arr w_n w_d w_I4 w_ref].
    rewrite map_length, s_diffs, s_average, frame_repeat by exact Hu. f_equal. f_equal.
    rewrite (s_mul v Hv), <- (s_mul_r v Hv), Hz. apply (s_mul_r u Hu). }
  destruct E as [E GZ]. rewrite E. destruct (setup_model_grid c (l ++ [z0])) as [[g w]|e]; cbn [bind rmap fst snd]; [|reflexivity]. specialize (GZ g w eq_refl).
  rewrite fopt_same, fins_same. cbn [a_theta a_stamp]. split; [|repeat split]. split; [exact GZ|].
  exists (l ++ [z0']), 1, 1, 1, 1. do 4 (split; [now left|]). unfold FB, fs.
  cbn [a_su a_theta a_vel a_disp a_wv a_dvel a_idw a_cube a_conv a_out a_model a_stamp s_grid s_floor s_up s_real option_map fw w_d fg lam0_primary sidw].
  rewrite f_thr. destruct (o_adapt _); reflexivity.
Qed.
Lemma f_new l st : (p_nvel (c_prof c) + p_ndisp (c_prof c) <= length l)%nat ->
  fst (aper_new c (l ++ [z0]) st) = fst (aper_new c' (l ++ [z0']) st) /\
  match snd (aper_new c (l ++ [z0]) st), snd (aper_new c' (l ++ [z0']) st) with Ok x, Ok x' => Rel x x' | Err e, Err e' => e = e' | _, _ => False end.
Proof.
  intros L. unfold aper_new. pose proof (f_setup l) as H. destruct (setup_calcs c (l ++ [z0])) as [x|e], (setup_calcs c' (l ++ [z0'])) as [x'|e']; try contradiction; [|split; [reflexivity|exact H]].
  destruct H as (R & T & T' & S). assert (TT : tails (a_theta x) (a_theta x')) by (rewrite T, T'; exists l, z0, z0'; auto).
  destruct (f_do x x' R TT) as [A B].
  destruct (do_model_calcs c x) as [y r], (do_model_calcs c' x') as [y' r']. cbn [fst snd] in A, B. subst r'.
  assert (ST : a_stamp y' = a_stamp y) by (destruct A as (_ & t & k1 & k2 & k3 & k4 & _ & _ & _ & _ & ->); reflexivity).
  destruct r as [[]|e]; cbn [fst snd]; (split; [now rewrite ST|]); [exact A|reflexivity].
Qed.
End Frame.
