(* Proofs: a brighter disc gives a brighter image, at every stage and over whole runs. *)
From Coq Require Import Reals Lra Lia List Bool Arith ZArith FunctionalExtensionality.
From Verif Require Import PyFloat PyBase Arr PyNum MParams MKernels MAper2D SMirror SBright PKernels PAper2D PMirror PMirror2 PBright.
Import ListNotations.
Local Open Scope R_scope.

Lemma fmul_Fin2 a b x : 0 < a -> 0 < b -> fmul (Fin a) (fmul (Fin b) x) = fmul (Fin (a * b)) x.
Proof.
  intros Ha Hb. destruct x as [r| | |].
  - cbn. now rewrite Rmult_assoc.
  - rewrite !s_PInf; auto. now apply Rmult_lt_0_compat.
  - rewrite !s_NInf; auto. now apply Rmult_lt_0_compat.
  - reflexivity.
Qed.
Lemma lnth_map_s k l i : lnth (map (fmul (Fin k)) l) i = fmul (Fin k) (lnth l i).
Proof. unfold lnth. change NaN with (fmul (Fin k) NaN) at 1. apply map_nth. Qed.

Section Bright.
Variables (a b : R) (c : cfg).
Hypothesis Ha : 0 < a.
Hypothesis Hb : 0 < b.
Hypothesis Hfit : o_shift (c_opt c) || o_eff (c_opt c) = true -> scales_with a (p_lmfit (c_prof c)).
Let c' := brighter a b c.
Let K := gain a b c.
Lemma HK : 0 < K.
Proof. unfold K, gain. destruct (o_spec _); auto. now apply Rmult_lt_0_compat. Qed.
Notation sa := (fmul (Fin a)).
Notation sK := (fmul (Fin K)).
Definition scg (g : grid) : grid := regrid g (r_cube g) (yint g) (zint g) (map3 sa (I_wide g)).
Definition scw (w : wv) : wv := mkwv (w_arr w) (w_n w) (w_d w) (map4 sa (w_I4 w)) (w_ref w).
Definition scs (s : setup) : setup := mksetup (scg (s_grid s)) (s_floor s) (s_up s) (option_map scw (s_real s)).
Definition B (x : aper) : aper :=
  mkaper (scs (a_su x)) (a_theta x) (a_vel x) (a_disp x) (scw (a_wv x)) (a_dvel x) (a_idw x) (option_map (map3 sK) (a_cube x))
    (option_map (map3 sK) (a_conv x)) (option_map (map2 sK) (a_out x)) (option_map (map2 sK) (a_model x)) (a_stamp x).
Definition Com {A} (m m' : ST aper A) : Prop := forall x, m' (B x) = (B (fst (m x)), snd (m x)).
Lemma Com_bind {A D} (m m' : ST aper A) (f f' : A -> ST aper D) : Com m m' -> (forall r, Com (f r) (f' r)) -> Com (bindS m f) (bindS m' f').
Proof. intros H1 H2 x. unfold bindS. rewrite H1. destruct (m x) as [y [r|e]]; cbn [fst snd]; [apply H2|reflexivity]. Qed.
Lemma Com_ret : Com (ret tt) (ret tt). Proof. intros x. reflexivity. Qed.

Lemma opt_same : c_opt c' = c_opt c. Proof. reflexivity. Qed.
Lemma ins_same : c_ins c' = c_ins c. Proof. reflexivity. Qed.
Ltac op :=
  intros [[q1a q1b q1c q1d] q2 q3 q4 q5 q6 q7 q8 q9 q10 q11 q12]; unfold B, scs; cbn [a_su a_theta a_vel a_disp a_wv a_dvel a_idw a_cube a_conv a_out a_model a_stamp s_grid s_floor s_up s_real];
  ub; rewrite ?opt_same, ?ins_same; cl0
with cl0 := unfold set_theta, set_prof, set_wv, set_dvel, set_cube, set_conv, set_out, set_model; cbn [a_su a_theta a_vel a_disp a_wv a_dvel a_idw a_cube a_conv a_out a_model a_stamp fst snd s_grid s_floor s_up s_real option_map].

Lemma com_check : Com (check_do_upsample_wave c) (check_do_upsample_wave c').
Proof.
  op. unfold check_do_upsample_wave. ub. cl0. rewrite ?opt_same. destruct (abs_lt_truth _ _) as [[]|]; cl0; [|reflexivity|reflexivity].
  destruct q1d as [re|]; cl0; [|reflexivity]. cbn [scw w_d w_arr w_n w_I4 w_ref].
  destruct (np_min _); cl0; [|reflexivity]. destruct (np_max _); cl0; [|reflexivity]. destruct (int_round _); cl0; [|reflexivity].
  destruct (_ <? 0)%Z; cl0; reflexivity.
Qed.
Lemma com_sigma : Com (sigma_options c) (sigma_options c').
Proof.
  op. unfold sigma_options. rewrite opt_same. destruct (o_abs (c_opt c)), (o_floor (c_opt c)); ub; cl0; try reflexivity;
    (destruct (abs_lt_truth _ _) as [[]|]; cl0; [destruct q1b|..]; reflexivity).
Qed.
Lemma mapR_ext {A D} (f g : A -> res D) l : (forall x, f x = g x) -> mapR f l = mapR g l.
Proof. intros H. induction l as [|y l IH]; [reflexivity|]. cbn. now rewrite H, IH. Qed.
Lemma eff_bright g st : o_shift (c_opt c) || o_eff (c_opt c) = true -> eff_inst_res c' (scg g) st = eff_inst_res c g st.
Proof.
  intros O. specialize (Hfit O). unfold eff_inst_res. rewrite ins_same. cbn [scg regrid nY nX nZ I_wide padX n_pix_x x_arr lam0_primary].
  match goal with |- bind (PSF_convolve ?x _ _) _ = bind (PSF_convolve ?y _ _) _ => assert (E : x = map3 sa y) end.
  { unfold map3. cbn [dim0 dim1 dim2 at3]. apply mk3_ext. intros u j l. apply s_sumn; exact Ha. }
  rewrite E, s_PSF by exact Ha. destruct (PSF_convolve _ _ _) as [[cv|]|e]; cbn [rmap option_map bind]; try reflexivity.
  f_equal. apply mapR_ext. intros kk. destruct (take _ _) as [xs|e]; [|reflexivity]. cbn [bind].
  change (p_lmfit (c_prof c')) with (p_lmfit (c_prof c)).
  replace (map (fun i => at3 (map3 sa cv) 0 kk i) (seq (padX g) (n_pix_x g))) with (map sa (map (fun i => at3 cv 0 kk i) (seq (padX g) (n_pix_x g)))) by (rewrite map_map; reflexivity).
  destruct (p_lmfit (c_prof c) xs (map (fun i => at3 cv 0 kk i) (seq (padX g) (n_pix_x g)))) as [[A mu] fw] eqn:F. rewrite (Hfit _ _ _ _ _ F). now apply s_slit.
Qed.
Lemma com_cache : Com (shift_cache c) (shift_cache c').
Proof.
  op. unfold shift_cache. rewrite opt_same. case_eq (o_shift (c_opt c) || o_eff (c_opt c)); intros O; [|reflexivity]. ub. cl0. rewrite (eff_bright _ _ O).
  destruct q6, q7; cl0; try reflexivity; destruct (eff_inst_res _ _ _); cl0; reflexivity.
Qed.
Lemma add_sigma_bright I V sg wave z rest ratio nW nz ny nx dz I4 wref :
  add_sigma_collapse_z (map3 sa I) V sg wave z rest (map (fmul (Fin b)) ratio) nW nz ny nx dz (map4 sa I4) wref (o_spec (c_opt c)) =
  rmap (map3 sK) (add_sigma_collapse_z I V sg wave z rest ratio nW nz ny nx dz I4 wref (o_spec (c_opt c))).
Proof.
  assert (Z3 : forall x y w, mk3 x y w (fun _ _ _ => Fin 0) = map3 sK (mk3 x y w (fun _ _ _ => Fin 0))).
  { intros. unfold map3. cbn [dim0 dim1 dim2 at3]. apply mk3_ext. intros. cbn. now rewrite Rmult_0_r. }
  unfold add_sigma_collapse_z. cbv zeta. change (shape4_eqb (map4 sa I4) nW nz ny nx) with (shape4_eqb I4 nW nz ny nx).
  destruct (o_spec (c_opt c)) eqn:E.
  - destruct (Nat.eqb _ 0); [cbn [rmap]; now rewrite <- Z3|]. destruct (np_max _) as [mx|]; [|reflexivity]. cbn [bind].
    destruct (_ && _); [reflexivity|]. rewrite map_length. destruct (Nat.ltb _ _); [reflexivity|]. cbn [rmap]. f_equal.
    unfold map3 at 2. cbn [dim0 dim1 dim2 at3]. apply mk3_ext. intros w j l. rewrite <- (s_sumn K HK). apply fsumn_ext. intros i _. rewrite lnth_map_s.
    assert (X : forall x y, fmul (sa x) (fmul (Fin b) y) = sK (fmul x y)).
    { intros x y. rewrite (s_mul a Ha), (s_mul_r b Hb), fmul_Fin2 by assumption. unfold K, gain. now rewrite E. }
    destruct (fgtb mx (Fin 0)).
    + rewrite (s_gauss a Ha). apply X.
    + rewrite (s_collapse a Ha). apply X.
  - destruct (np_max _) as [mx|]; [|reflexivity]. cbn [bind]. destruct (fgtb mx (Fin 0)); [|reflexivity]. destruct (_ && _); [|reflexivity].
    cbn [rmap]. rewrite (s_gauss a Ha). unfold K, gain. now rewrite E.
  - cbn [rmap]. now rewrite <- Z3.
Qed.
Lemma com_calc : Com (calculate_spectral_cube c) (calculate_spectral_cube c').
Proof.
  intros x. rewrite !calc_pieces.
  change (V_cube c' (B x)) with (V_cube c x). change (s_grid (a_su (B x))) with (scg (s_grid (a_su x))).
  generalize (V_cube c x), (s_grid (a_su x)). intros V g. revert x. change (Com (bindS (sigma_options c) (fun _ => tail_a c V g)) (bindS (sigma_options c') (fun _ => tail_a c' V (scg g)))).
  apply Com_bind; [exact com_sigma|]. intros []. unfold tail_a.
  intros x. change (bindS (shift_cache c') (fun _ => tail_b c' V (scg g) (a_disp (B x))) (B x) =
    (B (fst (bindS (shift_cache c) (fun _ => tail_b c V g (a_disp x)) x)), snd (bindS (shift_cache c) (fun _ => tail_b c V g (a_disp x)) x))).
  change (a_disp (B x)) with (a_disp x). generalize (a_disp x). intros d. revert x.
  change (Com (bindS (shift_cache c) (fun _ => tail_b c V g d)) (bindS (shift_cache c') (fun _ => tail_b c' V (scg g) d))).
  apply Com_bind; [exact com_cache|]. intros [] x. unfold tail_b. ub. cl0.
  change (shift_V c' (B x) V) with (shift_V c x V). destruct (shift_V c x V) as [V2|e]; [|reflexivity].
  change (o_spec (c_opt c')) with (o_spec (c_opt c)). change (g_ratio (c_gal c')) with (map (fmul (Fin b)) (g_ratio (c_gal c))).
  change (g_rest (c_gal c')) with (g_rest (c_gal c)). change (I_wide (scg g)) with (map3 sa (I_wide g)).
  change (w_I4 (a_wv (B x))) with (map4 sa (w_I4 (a_wv x))). change (w_ref (a_wv (B x))) with (w_ref (a_wv x)). change (w_arr (a_wv (B x))) with (w_arr (a_wv x)).
  change (w_n (a_wv (B x))) with (w_n (a_wv x)). cbn [scg regrid nZ nY nX gz delt_z r_cube zint]. change (p_disp (c_prof c')) with (p_disp (c_prof c)).
  rewrite add_sigma_bright. destruct (add_sigma_collapse_z _ _ _ _ _ _ _ _ _ _ _ _ _ _ _); reflexivity.
Qed.
Lemma com_conv : Com (convolve_spectral_cube_PSF c) (convolve_spectral_cube_PSF c').
Proof.
  op. unfold convolve_spectral_cube_PSF. ub. cl0. destruct q8; cl0; [|reflexivity]. rewrite ins_same, (s_PSF K HK). destruct (PSF_convolve _ _ _); reflexivity.
Qed.
Lemma com_trim : Com (trim_downsample_spectral_cube c) (trim_downsample_spectral_cube c').
Proof.
  op. unfold trim_downsample_spectral_cube. ub. cl0. rewrite ?ins_same, ?opt_same. destruct (i_slitmask _); cl0; [reflexivity|]. destruct q9 as [cv|]; cl0; [|reflexivity].
  cbn [scg regrid padY padX n_pix_y n_pix_x delt_x n_pix_y_whole scw w_n map3 dim0 dim1 dim2].
  destruct (cut (dim1 cv) _ _) as [y0 ny]. destruct (cut (dim2 cv) _ _) as [x0 nx]. cl0.
  assert (E : mk2 (dim0 cv) ny (fun w j => fmul (fsumn nx (fun l => at3 (mk3 (dim0 cv) ny nx (fun w j l => at3 (map3 sK cv) w (y0 + j) (x0 + l))) w j l)) (Fin (delt_x q1a)))
     = map2 sK (mk2 (dim0 cv) ny (fun w j => fmul (fsumn nx (fun l => at3 (mk3 (dim0 cv) ny nx (fun w j l => at3 cv w (y0 + j) (x0 + l))) w j l)) (Fin (delt_x q1a))))).
  { unfold map2. cbn [rows cols at2 at3 map3]. apply mk2_ext. intros w j. now rewrite (s_sumn K HK), (s_mul K HK). }
  rewrite E.
  destruct (o_rebin _); cl0; [|reflexivity]. rewrite (s_rebin K HK). destruct (rebin2 _ _ _); reflexivity.
Qed.
Definition irun (lim : bool) (y : aper) : ST aper unit :=
  if lim then
    match a_out y with
    | None => raise AttributeError
    | Some m => sdo r <- liftR (inst_convol_complete m (w_arr (a_wv y)) (a_idw y)); modS (set_out (Some r))
    end
  else ret tt.
Definition inst_rest (f : idw -> res fl) : ST aper unit :=
  sdo a1 <- getS; sdo mn <- liftR (f (a_idw a1)); irun (fgtb mn (Fin 0)) a1.
Lemma com_rest f : Com (inst_rest f) (inst_rest f).
Proof.
  intros x. unfold inst_rest, bindS, getS, liftR. change (a_idw (B x)) with (a_idw x). destruct (f (a_idw x)) as [mn|e]; [|reflexivity].
  unfold irun. destruct (fgtb mn (Fin 0)); [|reflexivity]. cbn [B a_out a_wv scw w_arr a_idw]. destruct (a_out x) as [m|]; [|reflexivity]. cbn [option_map]. ub.
  rewrite (s_inst K HK). destruct (inst_convol_complete _ _ _); reflexivity.
Qed.
Lemma inst_pieces cc x :
  convolve_instrument_resolution cc x =
  let lamw := fmul (fdiv (i_res (c_ins cc)) (Fin c_kms)) (lam0_primary (s_grid (a_su x))) in
  (if o_shift (c_opt cc) then
     match o_spec (c_opt cc) with
     | Velocity => raise ValueError
     | _ => sdo u <- (if negb (o_eff (c_opt cc)) then modS (fun a => set_dvel (a_dvel a) (IdwFloat lamw) a) else ret tt);
            inst_rest (fun w => match w with IdwNone => Err AttributeError | IdwFloat x => Ok x | IdwArr l => np_min l end)
     end
   else
     let w := match o_spec (c_opt cc) with Wave => lamw | _ => i_res (c_ins cc) end in
     sdo u <- modS (fun a => set_dvel (a_dvel a) (IdwFloat w) a); inst_rest (fun _ => Ok w)) x.
Proof. reflexivity. Qed.
Lemma com_inst : Com (convolve_instrument_resolution c) (convolve_instrument_resolution c').
Proof.
  intros x. rewrite !inst_pieces, ins_same, opt_same. change (lam0_primary (s_grid (a_su (B x)))) with (lam0_primary (s_grid (a_su x))).
  generalize (lam0_primary (s_grid (a_su x))). intros l. cbv zeta. revert x.
  match goal with |- forall x, ?f (B x) = _ => change (Com f f) end. clear Hfit.
  destruct (o_shift (c_opt c)).
  - destruct (o_spec (c_opt c)); [|intros x; reflexivity|]; (apply Com_bind; [destruct (o_eff (c_opt c)); intros x; reflexivity|intros []; apply com_rest]).
  - apply Com_bind; [intros x; reflexivity|intros []; apply com_rest].
Qed.
Lemma com_down : Com (downsample_to_real_wave c) (downsample_to_real_wave c').
Proof.
  op. unfold downsample_to_real_wave. ub. cl0. destruct q1d as [re|]; cl0; [|destruct q10; reflexivity]. destruct q10; cl0; [|reflexivity].
  cbn [scw w_n scg regrid n_pix_y_whole]. rewrite (s_rebin K HK). destruct (rebin2 _ _ _); reflexivity.
Qed.
Lemma com_after : Com (after_theta c) (after_theta c').
Proof.
  unfold after_theta. rewrite opt_same.
  repeat (apply Com_bind; [first [exact com_calc | exact com_conv | exact com_trim | exact com_inst
    | destruct (o_adapt (c_opt c)); [first [exact com_check | exact com_down] | exact Com_ret]]|intros []]).
  op. destruct q10; reflexivity.
Qed.
Lemma com_do : Com (do_model_calcs c) (do_model_calcs c').
Proof. intros x. exact (com_after (fst (update_theta c x))). Qed.
Lemma com_update th : Com (aper_update c th) (aper_update c' th).
Proof. intros x. exact (com_do (set_theta th x)). Qed.
Lemma setup_bright th : setup_calcs c' th = rmap B (setup_calcs c th).
Proof.
  unfold setup_calcs.
  assert (E : setup_model_grid c' th = rmap (fun p => (scg (fst p), scw (snd p))) (setup_model_grid c th)).
  { unfold setup_model_grid. cbv zeta. rewrite opt_same, ins_same. destruct (Nat.eqb _ 0); [reflexivity|]. cbn [c' brighter c_gal g_rows].
    destruct (Nat.eqb _ 0); [reflexivity|]. destruct (getz th (-1)); [|reflexivity]. destruct (getz th (-2)); [|reflexivity]. cbn [bind g_rest].
    destruct (match o_spec (c_opt c) with Wave => _ | _ => _ end); reflexivity. }
  rewrite E. destruct (setup_model_grid c th) as [[g w]|e]; [|reflexivity]. cbn [bind rmap fst snd]. rewrite opt_same, ins_same.
  unfold B, scs. cbn [a_su a_theta a_vel a_disp a_wv a_dvel a_idw a_cube a_conv a_out a_model a_stamp s_grid s_floor s_up s_real option_map].
  destruct (o_adapt _); reflexivity.
Qed.
Lemma new_bright th st : aper_new c' th st = (fst (aper_new c th st), rmap B (snd (aper_new c th st))).
Proof.
  unfold aper_new. rewrite setup_bright. destruct (setup_calcs c th) as [x|e]; [|reflexivity]. cbn [rmap]. rewrite com_do.
  destruct (do_model_calcs c x) as [y [[]|e]]; reflexivity.
Qed.
End Bright.
