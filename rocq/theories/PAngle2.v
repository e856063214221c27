(* Proofs: angles in another unit, at every stage of the 2-D model. *)
From Coq Require Import Reals Lra Lia List Bool Arith ZArith FunctionalExtensionality.
From Verif Require Import PyFloat PyBase Arr PyNum MParams MKernels MAper2D SMirror SBright SAngle PKernels PAper2D PAper2DVal PMirror PMirror2 PBright PBright2 PBright3 PFrame PUnits PScale PAngle.
Import ListNotations.
Local Open Scope R_scope.

Lemma weigh_len ws th : length (weigh ws th) = length th.
Proof. apply mapi_length. Qed.
Lemma weigh_nth ws th : forall i, nth_error (weigh ws th) i = option_map (fmul (Fin (nth i ws 1))) (nth_error th i).
Proof.
  unfold weigh, mapi. assert (G : forall l n i, nth_error (mapi_from n (fun i x => fmul (Fin (nth i ws 1)) x) l) i = option_map (fmul (Fin (nth (n + i) ws 1))) (nth_error l i)).
  { induction l as [|x l IH]; intros n i; destruct i as [|i]; try reflexivity.
    - cbn. now rewrite Nat.add_0_r.
    - cbn [mapi_from nth_error]. rewrite IH. now rewrite Nat.add_succ_r. }
  intros i. exact (G th 0%nat i).
Qed.
Lemma list_ext {A} (l l' : list A) : (forall i, nth_error l i = nth_error l' i) -> l = l'.
Proof.
  revert l'. induction l as [|a l IH]; intros [|b l'] H; try reflexivity; try (specialize (H 0%nat); discriminate).
  pose proof (H 0%nat) as H0. injection H0 as ->. f_equal. apply IH. intros i. exact (H (S i)).
Qed.
Lemma nth_skip {A} (l : list A) : forall n i, nth_error (skipn n l) i = nth_error l (n + i).
Proof. induction l as [|a l IH]; intros [|n] i; try reflexivity; [destruct i; reflexivity|]. cbn. apply IH. Qed.
Lemma weigh_skip ws n th : (forall i, (n <= i)%nat -> nth i ws 1 = 1) -> skipn n (weigh ws th) = skipn n th.
Proof.
  intros H. apply list_ext. intros i. rewrite !nth_skip, weigh_nth, H by lia. destruct (nth_error th (n + i)); [|reflexivity]. cbn [option_map]. now rewrite one_s.
Qed.
Lemma weigh_getz ws n th j : (forall i, (n <= i)%nat -> nth i ws 1 = 1) -> (n + 2 <= length th)%nat -> (j = -1 \/ j = -2)%Z -> getz (weigh ws th) j = getz th j.
Proof.
  intros H L Hj. unfold getz. rewrite weigh_len. replace (j <? 0)%Z with true by (destruct Hj as [->| ->]; reflexivity).
  destruct (0 <=? j + Z.of_nat (length th))%Z eqn:E; [|reflexivity]. unfold getn. rewrite weigh_nth, H by (destruct Hj; subst; lia).
  destruct (nth_error th _); [|reflexivity]. cbn [option_map]. now rewrite one_s.
Qed.

Section Angle.
Variables (u kp : R) (ws : list R) (psf : fl -> fl -> fl) (P : profs) (c : cfg).
Hypothesis Hu : 0 < u.
Hypothesis Hk : 0 < kp.
Hypothesis Hpsf : same_psf u kp (i_prof (c_ins c)) psf.
Hypothesis Hd : same_disc u ws (c_prof c) P.
Hypothesis Hfit : o_shift (c_opt c) || o_eff (c_opt c) = true -> same_centres u (p_lmfit (c_prof c)) (p_lmfit P).
Let c' := in_angle u psf P c.
Notation s := (fmul (Fin u)).
Notation s2 := (fmul (Fin (u * u))).
Let H2 : 0 < u * u := Huu u Hu.
Definition ag (g : grid) : grid :=
  mkgrid (sini g) (n_pix_y_whole g) (n_pix_y g) (n_pix_x g) (n_pix_z g) (u * delt_x g) (u * delt_y g) (u * delt_z g)
    (padX g) (padY g) (nX g) (nY g) (nZ g) (map s (x_arr g)) (map s (y_arr g)) (map s (z_arr g)) (gz g) (m0_fit g) (lam0_primary g)
    (map3 s (r_cube g)) (map3 s (yint g)) (map3 s (zint g)) (I_wide g).
Definition asu (x : setup) : setup := mksetup (ag (s_grid x)) (s_floor x) (s_up x) (s_real x).
Definition AB (t v : list fl) (x : aper) : aper :=
  mkaper (asu (a_su x)) t v (a_disp x) (a_wv x) (a_dvel x) (a_idw x) (option_map (map3 s) (a_cube x))
    (option_map (map3 s) (a_conv x)) (option_map (map2 s2) (a_out x)) (option_map (map2 s2) (a_model x)) (sst kp (a_stamp x)).
Definition vrel (v v' : list fl) : Prop := forall r z, p_vel P v' (s r) (s z) = p_vel (c_prof c) v r z.
Definition ARel (x x' : aper) : Prop := exists t v, x' = AB t v x.
Definition VRel (x x' : aper) : Prop := exists t v, vrel (a_vel x) v /\ x' = AB t v x.
Definition VRelr (p q : aper * res unit) : Prop := VRel (fst p) (fst q) /\ snd p = snd q.
Definition VRelm (m m' : ST aper unit) : Prop := forall x x', VRel x x' -> VRelr (m x) (m' x').
Lemma VRelm_bind m m' f f' : VRelm m m' -> VRelm (f tt) (f' tt) -> VRelm (bindS m f) (bindS m' f').
Proof.
  intros H1 H3 a b Hab. unfold bindS. destruct (H1 a b Hab) as [X Y].
  destruct (m a) as [a1 [[]|e]], (m' b) as [b1 [[]|e']]; cbn [fst snd] in *; try discriminate.
  - now apply H3.
  - injection Y as <-. split; auto.
Qed.
Lemma VRelm_ret : VRelm (ret tt) (ret tt). Proof. intros a b H. split; auto. Qed.
Lemma ao_shift : o_shift (c_opt c') = o_shift (c_opt c). Proof. reflexivity. Qed.
Lemma ao_eff : o_eff (c_opt c') = o_eff (c_opt c). Proof. reflexivity. Qed.

Ltac fcl := unfold set_theta, set_prof, set_wv, set_dvel, set_cube, set_conv, set_out, set_model; cbn [a_su a_theta a_vel a_disp a_wv a_dvel a_idw a_cube a_conv a_out a_model a_stamp fst snd s_grid s_floor s_up s_real option_map].
Ltac aop :=
  intros [[q1a q1b q1c q1d] q2 q3 q4 q5 q6 q7 q8 q9 q10 q11 q12] ? (t & v & VR & ->); match goal with H : vrel _ _ |- _ => cbn [a_vel] in H end; unfold AB, asu;
  cbn [a_su a_theta a_vel a_disp a_wv a_dvel a_idw a_cube a_conv a_out a_model a_stamp s_grid s_floor s_up s_real]; ub; fcl.
Ltac fin := split; [match goal with H : vrel _ ?v |- _ => eexists _, v; split; [exact H|unfold AB, asu; fcl; try reflexivity] end|try reflexivity].

Lemma a_check : VRelm (check_do_upsample_wave c) (check_do_upsample_wave c').
Proof.
  aop. unfold check_do_upsample_wave. ub. fcl. change (o_factor (c_opt c')) with (o_factor (c_opt c)). destruct (abs_lt_truth _ _) as [[]|]; fcl; [|fin|fin].
  destruct q1d as [re|]; fcl; [|fin]. destruct (np_min _) as [mn|]; fcl; [|fin]. destruct (np_max _) as [mx|]; fcl; [|fin].
  destruct (int_round _) as [n|]; fcl; [|fin]. destruct (n <? 0)%Z; fcl; fin.
Qed.
Lemma a_sigma : VRelm (sigma_options c) (sigma_options c').
Proof.
  aop. unfold sigma_options. change (o_abs (c_opt c')) with (o_abs (c_opt c)). change (o_floor (c_opt c')) with (o_floor (c_opt c)).
  destruct (o_abs (c_opt c)), (o_floor (c_opt c)); ub; fcl; try fin;
    (destruct (abs_lt_truth _ _) as [[]|]; fcl; [destruct q1b|..]; fcl; fin).
Qed.
Lemma a_eff g st : o_shift (c_opt c) || o_eff (c_opt c) = true -> eff_inst_res c' (ag g) (sst kp st) = eff_inst_res c g st.
Proof.
  intros O. specialize (Hfit O). unfold eff_inst_res. cbn [ag nY nX nZ I_wide padX n_pix_x x_arr lam0_primary c' in_angle c_ins i_res i_slit i_fwhm c_prof].
  change (Fin (u * i_fwhm (c_ins c))) with (s (Fin (i_fwhm (c_ins c)))). change (Fin (u * i_slit (c_ins c))) with (s (Fin (i_slit (c_ins c)))).
  rewrite (ker_PSF u kp _ _ _ Hu Hk). destruct (PSF_convolve _ _ _) as [[cv|]|e]; cbn [bind]; try reflexivity.
  set (slit := Fin (i_slit (c_ins c))). set (wh := seq _ _).
  assert (E : forall l, mapR (fun k => do xs <- take (map s (x_arr g)) wh; let '(A, mu, fw) := p_lmfit P xs (map (fun i => at3 cv 0 k i) wh) in check_slit_illum (map s (x_arr g)) wh A mu fw (s slit)) l =
     rmap (map (fun p => (s (fst p), s (snd p)))) (mapR (fun k => do xs <- take (x_arr g) wh; let '(A, mu, fw) := p_lmfit (c_prof c) xs (map (fun i => at3 cv 0 k i) wh) in check_slit_illum (x_arr g) wh A mu fw slit) l)).
  { induction l as [|k l IH]; [reflexivity|]. cbn [mapR]. rewrite IH, (g_take u). destruct (take (x_arr g) wh) as [xs|]; [|reflexivity]. cbn [rmap bind].
    destruct (p_lmfit (c_prof c) xs (map (fun i => at3 cv 0 k i) wh)) as [[A mu] fw] eqn:F. rewrite (Hfit _ _ _ _ _ F). cbv beta iota zeta. rewrite (g_slit u Hu).
    destruct (check_slit_illum _ _ _ _ _ _) as [r|]; [|reflexivity]. cbn [rmap bind]. match goal with |- context [mapR ?f l] => destruct (mapR f l) end; reflexivity. }
  rewrite E. clear E. destruct (mapR _ _) as [rows|e]; [|reflexivity]. cbn [rmap bind]. cbv zeta. rewrite (s_mul_r u Hu _ slit), (s_div_both u Hu).
  rewrite !map_map. do 2 f_equal; apply map_ext; intros r; cbn [fst snd].
  - rewrite (s_div_r u) by exact Hu. rewrite (s_mul u Hu), (s_mul_r (/ u) (Rinv_0_lt_compat u Hu)), s_undo by exact Hu. reflexivity.
  - now rewrite (s_div_both u Hu).
Qed.
Lemma a_cache : VRelm (shift_cache c) (shift_cache c').
Proof.
  aop. unfold shift_cache. rewrite ao_shift, ao_eff. case_eq (o_shift (c_opt c) || o_eff (c_opt c)); intros O; ub; fcl; [|fin].
  rewrite (a_eff _ _ O). destruct q6, q7; fcl; try fin; destruct (eff_inst_res _ _ _); fcl; fin.
Qed.
Lemma a_tail_b V g d : VRelm (tail_b c V g d) (tail_b c' V (ag g) d).
Proof.
  aop. unfold tail_b. ub. fcl.
  match goal with |- context [shift_V c' ?y V] => match goal with |- context [shift_V c ?x V] => change (shift_V c' y V) with (shift_V c x V); destruct (shift_V c x V) as [V2|e] end end;
    [|fcl; fin].
  change (o_spec (c_opt c')) with (o_spec (c_opt c)). change (g_ratio (c_gal c')) with (g_ratio (c_gal c)). change (g_rest (c_gal c')) with (g_rest (c_gal c)). change (p_disp (c_prof c')) with (p_disp P).
  cbn [ag nZ nY nX gz delt_z r_cube zint I_wide].
  assert (E : mk3 (nZ g) (nY g) (nX g) (fun m j k => p_disp P d (at3 (map3 s (r_cube g)) m j k) (at3 (map3 s (zint g)) m j k)) =
              mk3 (nZ g) (nY g) (nX g) (fun m j k => p_disp (c_prof c) d (at3 (r_cube g) m j k) (at3 (zint g) m j k))).
  { apply mk3_ext. intros m j k. cbn [map3 at3]. apply Hd. }
  rewrite E. change (Fin (u * delt_z g)) with (s (Fin (delt_z g))). rewrite (g_add u Hu).
  match goal with |- context [rmap _ ?A] => destruct A end; cbn [rmap]; fcl; fin.
Qed.
Lemma a_V x x' : VRel x x' -> V_cube c' x' = V_cube c x.
Proof.
  intros (t & v & VR & ->). unfold V_cube. change (c_prof c') with P. cbn [AB asu a_su s_grid a_vel ag nZ nY nX r_cube yint zint sini map3 at3].
  apply mk3_ext. intros m j k. cbv zeta. rewrite (VR _ _), (s_eqb0 u Hu), (s_div_both u Hu). reflexivity.
Qed.
Lemma a_calc : VRelm (calculate_spectral_cube c) (calculate_spectral_cube c').
Proof.
  intros x x' H. rewrite !calc_pieces. rewrite (a_V x x' H).
  assert (E2 : s_grid (a_su x') = ag (s_grid (a_su x))) by (destruct H as (t & v & _ & ->); reflexivity).
  rewrite E2. revert H. generalize (V_cube c x), (s_grid (a_su x)). clear E2. intros V g H.
  refine (VRelm_bind _ _ (fun _ => tail_a c V g) (fun _ => tail_a c' V (ag g)) a_sigma _ x x' H).
  intros b b' Hb. unfold tail_a.
  change (VRelr (bindS (shift_cache c) (fun _ => tail_b c V g (a_disp b)) b) (bindS (shift_cache c') (fun _ => tail_b c' V (ag g) (a_disp b')) b')).
  assert (E4 : a_disp b' = a_disp b) by (destruct Hb as (t & v & _ & ->); reflexivity).
  rewrite E4. refine (VRelm_bind _ _ (fun _ => tail_b c V g (a_disp b)) (fun _ => tail_b c' V (ag g) (a_disp b)) a_cache _ b b' Hb).
  now apply a_tail_b.
Qed.
Lemma a_conv_ : VRelm (convolve_spectral_cube_PSF c) (convolve_spectral_cube_PSF c').
Proof.
  aop. unfold convolve_spectral_cube_PSF. ub. fcl. destruct q8; fcl; [|fin]. change (Fin (i_fwhm (c_ins c'))) with (s (Fin (i_fwhm (c_ins c)))).
  rewrite (s_PSF u Hu), (ker_PSF u kp _ _ _ Hu Hk). destruct (PSF_convolve _ _ _); cbn [rmap]; fcl; fin.
Qed.
Lemma a_trim : VRelm (trim_downsample_spectral_cube c) (trim_downsample_spectral_cube c').
Proof.
  aop. unfold trim_downsample_spectral_cube. ub. fcl. change (i_slitmask (c_ins c')) with (i_slitmask (c_ins c)). change (o_rebin (c_opt c')) with (o_rebin (c_opt c)).
  destruct (i_slitmask _); fcl; [fin|]. destruct q9 as [cv|]; fcl; [|fin].
  cbn [ag padY padX n_pix_y n_pix_x delt_x n_pix_y_whole map3 dim0 dim1 dim2].
  destruct (cut (dim1 cv) _ _) as [y0 ny]. destruct (cut (dim2 cv) _ _) as [x0 nx]. fcl.
  assert (E : mk2 (dim0 cv) ny (fun w j => fmul (fsumn nx (fun l => at3 (mk3 (dim0 cv) ny nx (fun w j l => at3 (map3 s cv) w (y0 + j) (x0 + l))) w j l)) (Fin (u * delt_x q1a)))
     = map2 s2 (mk2 (dim0 cv) ny (fun w j => fmul (fsumn nx (fun l => at3 (mk3 (dim0 cv) ny nx (fun w j l => at3 cv w (y0 + j) (x0 + l))) w j l)) (Fin (delt_x q1a))))).
  { unfold map2. cbn [rows cols at2 at3 map3]. apply mk2_ext. intros w j. change (Fin (u * delt_x q1a)) with (s (Fin (delt_x q1a))).
    rewrite (s_sumn u Hu), (s_mul u Hu), (s_mul_r u Hu). now apply fmul_Fin2. }
  rewrite E.
  destruct (o_rebin _); fcl; [|fin]. rewrite (s_rebin (u * u) H2). destruct (rebin2 _ _ _); cbn [rmap]; fcl; fin.
Qed.
Lemma a_rest h : VRelm (inst_rest h) (inst_rest h).
Proof.
  aop. unfold inst_rest, bindS, getS, liftR. fcl. destruct (h q7) as [mn|e]; [|fin].
  unfold irun. destruct (fgtb mn (Fin 0)); [|fin]. fcl. destruct q10 as [m|]; cbn [option_map]; [|fin]. ub.
  rewrite (s_inst (u * u) H2). destruct (inst_convol_complete _ _ _); cbn [rmap]; fcl; fin.
Qed.
Lemma a_inst : VRelm (convolve_instrument_resolution c) (convolve_instrument_resolution c').
Proof.
  intros x x' H. rewrite !inst_pieces.
  assert (E2 : lam0_primary (s_grid (a_su x')) = lam0_primary (s_grid (a_su x))) by (destruct H as (t & v & _ & ->); reflexivity).
  rewrite E2. generalize (lam0_primary (s_grid (a_su x))). clear E2. intros l. cbv zeta. rewrite ao_shift, ao_eff.
  change (i_res (c_ins c')) with (i_res (c_ins c)). change (o_spec (c_opt c')) with (o_spec (c_opt c)). revert x x' H.
  match goal with |- forall x x', _ -> VRelr (?f x) (?g x') => change (VRelm f g) end. clear Hfit.
  destruct (o_shift (c_opt c)).
  - destruct (o_spec (c_opt c)); [|aop; fin|]; (apply VRelm_bind; [destruct (o_eff (c_opt c)); cbn [negb]; [exact VRelm_ret|aop; fin]|apply a_rest]).
  - apply VRelm_bind; [aop; fin|apply a_rest].
Qed.
Lemma a_down : VRelm (downsample_to_real_wave c) (downsample_to_real_wave c').
Proof.
  aop. unfold downsample_to_real_wave. ub. fcl. destruct q1d as [re|]; fcl; [|destruct q10; fcl; fin]. destruct q10; fcl; [|fin].
  cbn [ag n_pix_y_whole]. rewrite (s_rebin (u * u) H2). destruct (rebin2 _ _ _); cbn [rmap]; fcl; fin.
Qed.
Lemma a_after : VRelm (after_theta c) (after_theta c').
Proof.
  unfold after_theta. change (o_adapt (c_opt c')) with (o_adapt (c_opt c)).
  repeat (apply VRelm_bind; [first [exact a_calc | exact a_conv_ | exact a_trim | exact a_inst
    | destruct (o_adapt (c_opt c)); [first [exact a_check | exact a_down] | exact VRelm_ret]]|]).
  aop. destruct q10; fcl; fin.
Qed.
Lemma a_do x x' : ARel x x' -> a_theta x' = weigh ws (a_theta x) -> VRelr (do_model_calcs c x) (do_model_calcs c' x').
Proof.
  intros (t & v & ->) T. change (VRelr (after_theta c (fst (update_theta c x))) (after_theta c' (fst (update_theta c' (AB t v x))))). apply a_after.
  cbn [AB a_theta] in T. subst t. pose proof Hd as (N1 & N2 & W & V & _). exists (weigh ws (a_theta x)), (firstn (p_nvel P) (weigh ws (a_theta x))).
  unfold update_theta, modS, set_prof. cbn [fst a_vel]. split; [intros r z; rewrite N1; apply V|].
  unfold AB. cbn [a_su a_theta a_vel a_disp a_wv a_dvel a_idw a_cube a_conv a_out a_model a_stamp]. change (c_prof c') with P.
  now rewrite N1, N2, (weigh_skip ws _ _ W).
Qed.
Lemma a_update th x x' : ARel x x' -> VRelr (aper_update c th x) (aper_update c' (weigh ws th) x').
Proof.
  intros (t & v & ->). change (VRelr (do_model_calcs c (set_theta th x)) (do_model_calcs c' (set_theta (weigh ws th) (AB t v x)))). apply a_do; [|reflexivity].
  exists (weigh ws th), v. reflexivity.
Qed.
Lemma V_A x x' : VRel x x' -> ARel x x'. Proof. intros (t & v & _ & E). exists t, v. exact E. Qed.
Lemma Fmul_map a n : map (fun x => fsub x (Fin (u * a))) (map s n) = map s (map (fun x => fsub x (Fin a)) n).
Proof. rewrite !map_map. apply map_ext. intros x. change (Fin (u * a)) with (s (Fin a)). apply (s_sub u Hu). Qed.
Lemma lin_u a b n : linspace (Fin (u * a)) (Fin (u * b)) n = map s (linspace (Fin a) (Fin b) n).
Proof. exact (s_linspace u Hu (Fin a) (Fin b) n). Qed.
Lemma a_grid th : (p_nvel (c_prof c) + 2 <= length th)%nat ->
  setup_model_grid c' (weigh ws th) = rmap (fun p => (ag (fst p), snd p)) (setup_model_grid c th).
Proof.
  intros L. pose proof Hd as (N1 & N2 & W & _ & _ & HI). unfold setup_model_grid. cbv zeta.
  cbn [c' in_angle c_gal c_ins c_opt c_prof i_slit i_pix i_fwhm o_nsub o_pad o_xc o_spec].
  destruct (Nat.eqb _ 0) eqn:Ens; [reflexivity|]. set (ns := o_nsub (c_opt c)). set (pix := i_pix (c_ins c)). set (slit := i_slit (c_ins c)).
  assert (Edy : u * pix / INR ns = u * (pix / INR ns)) by (unfold Rdiv; ring).
  assert (En : slit_npix (mkinstr (u * slit) (u * pix) (u * i_fwhm (c_ins c)) (i_res (c_ins c)) (i_slitmask (c_ins c)) psf)
      (mkopts ns (o_pad (c_opt c)) (o_rebin (c_opt c)) (o_shift (c_opt c)) (o_eff (c_opt c)) (u * o_xc (c_opt c)) (o_spec (c_opt c)) (o_abs (c_opt c)) (o_adapt (c_opt c)) (o_factor (c_opt c)) (o_floor (c_opt c))) (g_rows (c_gal c))
      = slit_npix (c_ins c) (c_opt c) (g_rows (c_gal c))).
  { unfold slit_npix. cbv zeta. cbn [i_pix i_slit o_nsub]. fold ns pix slit. rewrite Edy, (Rratio u _ _ Hu).
    replace (INR (g_rows (c_gal c) * ns) * (u * (pix / INR ns))) with (u * (INR (g_rows (c_gal c) * ns) * (pix / INR ns))) by ring. now rewrite (Reqb_u u _ _ Hu). }
  rewrite En. clear En. set (n_x := slit_npix _ _ _). destruct (Nat.eqb n_x 0); [reflexivity|].
  rewrite Edy. assert (Edx : u * slit / INR n_x = u * (slit / INR n_x)) by (unfold Rdiv; ring). rewrite Edx. clear Edy Edx.
  set (dy := pix / INR ns). set (dx := slit / INR n_x).
  replace (u * i_fwhm (c_ins c) * o_pad (c_opt c)) with (u * (i_fwhm (c_ins c) * o_pad (c_opt c))) by ring. rewrite !(Rratio u _ _ Hu).
  set (pY := nat_of_round (_ / dy)). set (pX := nat_of_round (_ / dx)).
  rewrite (weigh_getz ws (p_nvel (c_prof c)) th (-1) W L), (weigh_getz ws (p_nvel (c_prof c)) th (-2) W L) by auto.
  destruct (getz th (-1)) as [z|]; [|reflexivity]. cbn [bind]. destruct (getz th (-2)) as [sh|]; [|reflexivity]. cbn [bind].
  destruct (match o_spec (c_opt c) with Wave => _ | _ => _ end) as [lam0|]; [|reflexivity]. cbn [bind rmap fst snd].
  set (nw := g_rows (c_gal c)).
  assert (Eh : forall a d, a * (u * d) = u * (a * d)) by (intros; ring). rewrite !Eh.
  assert (En : forall a, - (u * a) = u * (- a)) by (intros; ring). rewrite !En.
  rewrite !lin_u, Fmul_map.
  set (xs := map (fun x => fsub x (Fin (o_xc (c_opt c)))) _). set (zs := linspace (Fin (- ((INR (nw * ns) / 2 - 1 / 2) * dy))) _ _).
  set (m0f := fadd (g_m0 (c_gal c)) sh).
  assert (Ey : forall l, map (fun y => fsub y (fmul (fmul m0f (Fin (INR ns))) (Fin (u * dy)))) (map s l) = map s (map (fun y => fsub y (fmul (fmul m0f (Fin (INR ns))) (Fin dy))) l)).
  { intros l. rewrite !map_map. apply map_ext. intros y. change (Fin (u * dy)) with (s (Fin dy)). now rewrite (s_mul_r u Hu), (s_sub u Hu). }
  rewrite Ey. set (ys := map (fun y => fsub y (fmul (fmul m0f (Fin (INR ns))) (Fin dy))) _).
  set (ir := fasin _).
  set (NX := (n_x + 2 * pX)%nat). set (NY := (nw * ns + 2 * pY)%nat). set (NZ := (nw * ns)%nat).
  assert (Ex : forall m j k, transform_int_3d (lnth (map s xs) k) (lnth (map s ys) j) (lnth (map s zs) m) (g_dPA (c_gal c)) ir =
     (s (fst (fst (transform_int_3d (lnth xs k) (lnth ys j) (lnth zs m) (g_dPA (c_gal c)) ir))), s (snd (fst (transform_int_3d (lnth xs k) (lnth ys j) (lnth zs m) (g_dPA (c_gal c)) ir))), s (snd (transform_int_3d (lnth xs k) (lnth ys j) (lnth zs m) (g_dPA (c_gal c)) ir)))).
  { intros m j k. rewrite !lnth_map_s. apply (z_transform u Hu). }
  assert (EI : mk3 NZ NY NX (fun m j k => p_int P (at3 (mk3 NZ NY NX (fun m j k => fsqrt (fadd (fsq (at3 (mk3 NZ NY NX (fun m j k => fst (fst (transform_int_3d (lnth (map s xs) k) (lnth (map s ys) j) (lnth (map s zs) m) (g_dPA (c_gal c)) ir)))) m j k)) (fsq (at3 (mk3 NZ NY NX (fun m j k => snd (fst (transform_int_3d (lnth (map s xs) k) (lnth (map s ys) j) (lnth (map s zs) m) (g_dPA (c_gal c)) ir)))) m j k))))) m j k) (at3 (mk3 NZ NY NX (fun m j k => snd (transform_int_3d (lnth (map s xs) k) (lnth (map s ys) j) (lnth (map s zs) m) (g_dPA (c_gal c)) ir))) m j k))
   = mk3 NZ NY NX (fun m j k => p_int (c_prof c) (at3 (mk3 NZ NY NX (fun m j k => fsqrt (fadd (fsq (at3 (mk3 NZ NY NX (fun m j k => fst (fst (transform_int_3d (lnth xs k) (lnth ys j) (lnth zs m) (g_dPA (c_gal c)) ir)))) m j k)) (fsq (at3 (mk3 NZ NY NX (fun m j k => snd (fst (transform_int_3d (lnth xs k) (lnth ys j) (lnth zs m) (g_dPA (c_gal c)) ir)))) m j k))))) m j k) (at3 (mk3 NZ NY NX (fun m j k => snd (transform_int_3d (lnth xs k) (lnth ys j) (lnth zs m) (g_dPA (c_gal c)) ir))) m j k))).
  { apply mk3_ext. intros m j k. cbn [at3]. rewrite Ex. cbn [fst snd]. rewrite (z_r u Hu). apply HI. }
  rewrite EI. clear EI. f_equal. f_equal. unfold ag.
  cbn [sini n_pix_y_whole n_pix_y n_pix_x n_pix_z delt_x delt_y delt_z padX padY nX nY nZ x_arr y_arr z_arr gz m0_fit lam0_primary r_cube yint zint I_wide].
  unfold map3. cbn [dim0 dim1 dim2 at3]. f_equal; apply mk3_ext; intros m j k; rewrite Ex; cbn [fst snd]; rewrite ?(z_r u Hu); reflexivity.
Qed.
Lemma a_stamp_ g : make_stamp (c_ins c') (ag g) = sst kp (make_stamp (c_ins c) g).
Proof.
  unfold make_stamp, near. cbn [c' in_angle c_ins i_fwhm i_prof ag x_arr y_arr]. change (Fin (u * i_fwhm (c_ins c))) with (s (Fin (i_fwhm (c_ins c)))).
  rewrite !(z_trim u Hu), !map_length. cbv zeta. cbn [sst]. f_equal. unfold map3. cbn [dim0 dim1 dim2 at3]. apply mk3_ext. intros _ j i. rewrite !lnth_map_s. apply Hpsf.
Qed.
Lemma a_setup th : (p_nvel (c_prof c) + 2 <= length th)%nat ->
  setup_calcs c' (weigh ws th) = rmap (AB (weigh ws th) []) (setup_calcs c th) /\ (forall x, setup_calcs c th = Ok x -> a_theta x = th).
Proof.
  intros L. unfold setup_calcs. rewrite (a_grid th L). destruct (setup_model_grid c th) as [[g w]|e]; cbn [bind rmap fst snd]; [|split; [reflexivity|discriminate]].
  split; [|intros x H; injection H as <-; reflexivity]. f_equal. rewrite a_stamp_. unfold AB, asu.
  cbn [a_su a_theta a_vel a_disp a_wv a_dvel a_idw a_cube a_conv a_out a_model a_stamp s_grid s_floor s_up s_real option_map].
  change (lam0_primary (ag g)) with (lam0_primary g). change (thresholds (c_opt c')) with (thresholds (c_opt c)). change (o_adapt (c_opt c')) with (o_adapt (c_opt c)). reflexivity.
Qed.
Lemma a_new th st st' : (p_nvel (c_prof c) + 2 <= length th)%nat ->
  match snd (aper_new c th st), snd (aper_new c' (weigh ws th) st') with Ok x, Ok x' => VRel x x' | Err e, Err e' => e = e' | _, _ => False end.
Proof.
  intros L. unfold aper_new. destruct (a_setup th L) as [E T]. rewrite E. destruct (setup_calcs c th) as [x|e]; cbn [rmap]; [|reflexivity].
  specialize (T x eq_refl). destruct (a_do x (AB (weigh ws th) [] x)) as [A B]; [exists (weigh ws th), []; reflexivity|cbn [AB a_theta]; now rewrite T|].
  destruct (do_model_calcs c x) as [y [[]|e]], (do_model_calcs c' (AB (weigh ws th) [] x)) as [y' [[]|e']]; cbn [fst snd] in *; try discriminate; [exact A|]. now injection B.
Qed.
End Angle.
