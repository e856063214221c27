From Coq Require Import Reals Lra List Bool Arith ZArith Lia.
From Verif Require Import PyFloat PyBase Arr PyNum MParams MKernels MAper2D SParams SKernels SAper2D PParams PAper2D PAper2DHist PAper2DGrid PAper2DShape PAper2DOk PKernels PKernels2.
Import ListNotations.
Local Open Scope R_scope.

Lemma PParams_nth_firstn {A} (l : list A) n i : (i < n)%nat -> nth_error (firstn n l) i = nth_error l i.
Proof.
  revert n i. induction l as [|x l IH]; intros [|n] [|i] H; cbn; auto; try lia. apply IH. lia.
Qed.

(* the pipeline reads the parameter vector only through the two profile slices *)
Definition comm (m : ST aper unit) : Prop :=
  forall t a, m (set_theta t a) = (set_theta t (fst (m a)), snd (m a)).

Lemma comm_bind m (f : unit -> ST aper unit) : comm m -> (forall u, comm (f u)) -> comm (bindS m f).
Proof.
  intros H1 H2 t a. unfold bindS. rewrite H1. destruct (m a) as [b [u|e]]; cbn [fst snd]; [apply H2|reflexivity].
Qed.
Lemma comm_ret : comm (ret tt). Proof. intros t a. reflexivity. Qed.

Ltac dm := match goal with |- context [match ?x with _ => _ end] =>
  lazymatch x with context [match _ with _ => _ end] => fail | _ => destruct x end end.
Ltac cm := repeat (reflexivity || dm).

Lemma comm_upsample c : comm (check_do_upsample_wave c).
Proof.
  intros t a. unfold check_do_upsample_wave. ub.
  change (a_disp (set_theta t a)) with (a_disp a). change (a_su (set_theta t a)) with (a_su a).
  destruct (abs_lt_truth _ _) as [[|]|]; try reflexivity.
  destruct (s_real _); try reflexivity.
  change (w_arr (a_wv (set_theta t a))) with (w_arr (a_wv a)).
  destruct (np_min _); try reflexivity. destruct (np_max _); try reflexivity.
  destruct (int_round _); try reflexivity. destruct (_ <? _)%Z; reflexivity.
Qed.
Lemma comm_sigma c : comm (sigma_options c).
Proof.
  intros t a. unfold sigma_options. ub.
  destruct (o_abs _); destruct (o_floor _); try reflexivity; cbn [set_prof set_theta a_su a_disp a_vel];
  destruct (abs_lt_truth _ _) as [[|]|]; try reflexivity; destruct (s_floor _); reflexivity.
Qed.
Lemma comm_shift c : comm (shift_cache c).
Proof.
  intros t a. unfold shift_cache. ub. destruct (_ || _); try reflexivity.
  cbn [set_theta a_dvel a_idw a_su a_stamp].
  destruct (a_dvel a), (a_idw a); try reflexivity; destruct (eff_inst_res _ _ _); reflexivity.
Qed.
Lemma comm_tail3 c V g d : comm (calc_tail3 c V g d).
Proof.
  intros t a. unfold calc_tail3. ub. unfold shift_V. cbn [set_theta a_dvel a_su a_wv].
  destruct (o_shift _); [destruct (a_dvel a); try reflexivity; destruct (Nat.ltb _ _); try reflexivity|];
  destruct (add_sigma_collapse_z _ _ _ _ _ _ _ _ _ _ _ _ _ _ _); reflexivity.
Qed.
Lemma comm_calc c : comm (calculate_spectral_cube c).
Proof.
  intros t a. rewrite !calc_unfold. change (V_cube c (set_theta t a)) with (V_cube c a).
  change (a_su (set_theta t a)) with (a_su a). unfold calc_tail.
  apply comm_bind; [apply comm_sigma|]. intros _ t' a'. unfold calc_tail2.
  change (a_disp (set_theta t' a')) with (a_disp a').
  apply (comm_bind (shift_cache c) (fun _ => calc_tail3 c _ _ (a_disp a'))); [apply comm_shift|]. intros _. apply comm_tail3.
Qed.
Lemma comm_conv c : comm (convolve_spectral_cube_PSF c).
Proof.
  intros t a. unfold convolve_spectral_cube_PSF. ub. cbn [set_theta a_cube a_stamp].
  destruct (a_cube a); try reflexivity. destruct (PSF_convolve _ _ _); reflexivity.
Qed.
Lemma comm_trim c : comm (trim_downsample_spectral_cube c).
Proof.
  intros t a. unfold trim_downsample_spectral_cube. ub. destruct (i_slitmask _); try reflexivity.
  cbn [set_theta a_conv a_su a_wv]. destruct (a_conv a); try reflexivity. unfold cut.
  destruct (o_rebin _); try reflexivity. destruct (rebin2 _ _ _); reflexivity.
Qed.
Lemma comm_inst c : comm (convolve_instrument_resolution c).
Proof.
  intros t [q1 q2 q3 q4 q5 q6 q7 q8 q9 q10 q11 q12]. unfold convolve_instrument_resolution. ub. unfold set_theta, set_dvel, set_out.
  repeat (cbn [a_su a_theta a_vel a_disp a_wv a_dvel a_idw a_cube a_conv a_out a_model a_stamp fst snd negb]; (reflexivity || dm)).
Qed.
Lemma comm_down c : comm (downsample_to_real_wave c).
Proof.
  intros t a. unfold downsample_to_real_wave. ub. cbn [set_theta a_out a_su a_wv].
  destruct (s_real _), (a_out a); try reflexivity. destruct (rebin2 _ _ _); reflexivity.
Qed.

Definition after_theta (c : cfg) : ST aper unit :=
  sdo u1 <- (if o_adapt (c_opt c) then check_do_upsample_wave c else ret tt);
  sdo u2 <- calculate_spectral_cube c;
  sdo u3 <- convolve_spectral_cube_PSF c;
  sdo u4 <- trim_downsample_spectral_cube c;
  sdo u5 <- convolve_instrument_resolution c;
  sdo u6 <- (if o_adapt (c_opt c) then downsample_to_real_wave c else ret tt);
  sdo a <- getS;
  match a_out a with
  | None => raise AttributeError
  | Some m => putS (set_model (Some (transpose m)) a)
  end.

Lemma comm_after c : comm (after_theta c).
Proof.
  unfold after_theta.
  apply comm_bind; [destruct (o_adapt _); [apply comm_upsample|apply comm_ret]|intros _].
  apply comm_bind; [apply comm_calc|intros _].
  apply comm_bind; [apply comm_conv|intros _].
  apply comm_bind; [apply comm_trim|intros _].
  apply comm_bind; [apply comm_inst|intros _].
  apply comm_bind; [destruct (o_adapt _); [apply comm_down|apply comm_ret]|intros _].
  intros t a. ub. cbn [set_theta a_out]. destruct (a_out a); reflexivity.
Qed.

Lemma eval_slices c a th th' :
  firstn (p_nvel (c_prof c) + p_ndisp (c_prof c)) th = firstn (p_nvel (c_prof c) + p_ndisp (c_prof c)) th' ->
  snd (do_model_calcs c (set_theta th a)) = snd (do_model_calcs c (set_theta th' a)) /\
  fst (do_model_calcs c (set_theta th' a)) = set_theta th' (fst (do_model_calcs c (set_theta th a))).
Proof.
  intros H. set (nv := p_nvel (c_prof c)) in *. set (nd := p_ndisp (c_prof c)) in *.
  assert (E1 : firstn nv th = firstn nv th').
  { apply (f_equal (firstn nv)) in H. rewrite !firstn_firstn in H. rewrite Nat.min_l in H by lia. exact H. }
  assert (E2 : firstn nd (skipn nv th) = firstn nd (skipn nv th')).
  { rewrite !firstn_skipn_comm. now rewrite H. }
  assert (X : forall t, do_model_calcs c (set_theta t a) =
     after_theta c (set_theta t (set_prof (firstn nv t) (firstn nd (skipn nv t)) a))) by reflexivity.
  rewrite !X, !(comm_after c). rewrite E1, E2. split; reflexivity.
Qed.

(* an update reads only the profile parameters *)
Lemma update_reads_profiles c k a tf tf' : k_aper k = Some a -> length (k_vary k) = length (k_theta k) ->
  length tf = nfree (k_vary k) -> length tf' = nfree (k_vary k) ->
  (forall i, (i < p_nvel (c_prof c) + p_ndisp (c_prof c))%nat -> free (k_vary k) i ->
     nth_error tf (rank (k_vary k) i) = nth_error tf' (rank (k_vary k) i)) ->
  snd (km_update c tf k) = snd (km_update c tf' k) /\
  k_model (fst (km_update c tf k)) = k_model (fst (km_update c tf' k)).
Proof.
  intros Ha Hv Ht Ht' Hsame. unfold km_update. rewrite n_free_param_nfree, Ht, Ht', Nat.eqb_refl. cbn [negb].
  destruct (update_parameters_spec (k_theta k) (k_vary k) tf Hv) as (th&E&L&F&N); [lia|].
  destruct (update_parameters_spec (k_theta k) (k_vary k) tf' Hv) as (th'&E'&L'&F'&N'); [lia|].
  rewrite E, E'. unfold km_update_aper. cbn [k_aper k_theta k_vary k_noscale k_model k_stamp]. rewrite Ha.
  assert (S : firstn (p_nvel (c_prof c) + p_ndisp (c_prof c)) th = firstn (p_nvel (c_prof c) + p_ndisp (c_prof c)) th').
  { set (n := (p_nvel (c_prof c) + p_ndisp (c_prof c))%nat) in *.
    apply nth_error_ext. intros i. destruct (lt_dec i n) as [Hi|Hi].
    - rewrite !PParams_nth_firstn by auto.
      destruct (nth_error (k_vary k) i) as [[|]|] eqn:Ev.
      + rewrite F, F' by exact Ev. now apply Hsame.
      + rewrite N, N' by (unfold free; congruence). auto.
      + rewrite N, N' by (unfold free; congruence). auto.
    - assert (A1 : nth_error (firstn n th) i = None) by (apply nth_error_None; rewrite firstn_length; lia).
      assert (A2 : nth_error (firstn n th') i = None) by (apply nth_error_None; rewrite firstn_length; lia).
      congruence. }
  unfold aper_update. unfold bindS at 1 2 3 4, modS at 1 2 3 4.
  destruct (eval_slices c a th th' S) as [X1 X2].
  destruct (do_model_calcs c (set_theta th a)) as [b r]. destruct (do_model_calcs c (set_theta th' a)) as [b' r'].
  cbn [fst snd] in X1, X2. subst r' b'.
  destruct r; [|cbn; auto]. unfold store_model. cbn [set_theta a_model k_noscale].
  destruct (a_model b); [|cbn; auto]. destruct (k_noscale k); [cbn; auto|].
  destruct (scale_model _ _); cbn; auto.
Qed.

(* the image when nothing is blurred *)

Lemma zero_width lam : fgtb (fmul (fdiv (Fin 0) (Fin c_kms)) lam) (Fin 0) = false.
Proof.
  pose proof c_kms_pos. unfold fdiv. destruct (Reqb c_kms 0) eqn:E; [apply Reqb_true in E; lra|].
  replace (0 / c_kms) with 0 by (unfold Rdiv; ring).
  destruct lam; cbn [fmul]; unfold inf_scale; rewrite ?Reqb_refl; cbn; auto.
  apply Rltb_false. lra.
Qed.

Lemma pad0 x : nat_of_round (0 * x) = 0%nat.
Proof. unfold nat_of_round. rewrite Rmult_0_l. change 0 with (IZR 0). rewrite Rround_IZR. reflexivity. Qed.

Lemma plain_image c th l : well_posed c th l -> unblurred c ->
  exists a0 b g w cube m, setup_model_grid c th = Ok (g, w) /\ setup_calcs c th = Ok a0 /\
    do_model_calcs c a0 = (b, Ok tt) /\ a_model b = Some m /\
    rows m = g_rows (c_gal c) /\ cols m = length l /\
    padX g = 0%nat /\ padY g = 0%nat /\
    (let vel := firstn (p_nvel (c_prof c)) th in
     let dsp := firstn (p_ndisp (c_prof c)) (skipn (p_nvel (c_prof c)) th) in
     add_sigma_collapse_z (I_wide g)
       (mk3 (nZ g) (nY g) (nX g) (fun m j k =>
          let r := at3 (r_cube g) m j k in
          let cosphi := if feqb r (Fin 0) then Fin 0 else fdiv (at3 (yint g) m j k) r in
          fmul (fmul (p_vel (c_prof c) vel r (at3 (zint g) m j k)) cosphi) (sini g)))
       (mk3 (nZ g) (nY g) (nX g) (fun m j k =>
          p_disp (c_prof c) dsp (at3 (r_cube g) m j k) (at3 (zint g) m j k)))
       (g_wave (c_gal c)) (gz g) (g_rest (c_gal c)) (g_ratio (c_gal c)) (length l) (nZ g) (nY g) (nX g)
       (Fin (delt_z g)) (w_I4 w) (w_ref w) Wave = Ok cube) /\
    (forall i q, (i < g_rows (c_gal c))%nat -> (q < length l)%nat ->
      at2 m i q = fsumn (o_nsub (c_opt c)) (fun s =>
        fmul (fsumn (n_pix_x g) (fun k => at3 cube q (i * o_nsub (c_opt c) + s) k)) (Fin (delt_x g)))).
Proof.
  intros Hwp (U1&U2&U3&U4&U5&U6). destruct (setup_ok _ _ _ Hwp) as (g&w&Hg).
  destruct (well_posed_eval _ _ _ Hwp) as (a0&b&Es&Eb).
  pose proof Hwp as (H1&H2&H3&H4&H5&H6&H7&H8&H9&H10&H11&H12&H13&H14&H15&H16&H17&H18&H19).
  destruct (setup_fields _ _ _ _ Hg) as (F1&F2&F3&F4&F5&F6&F7&F8&F9&F10&F11&F12&F13&F14&F15&F16&F17&F18&F19&F20&F21&F22&F23).
  unfold Rdiv in F10, F11. rewrite U1, Rmult_0_l, pad0 in F10. rewrite U1, Rmult_0_l, pad0 in F11.
  pose proof Es as Es'. unfold setup_calcs in Es'. rewrite Hg in Es'. cbn [bind] in Es'. injection Es' as Es'.
  assert (W : a_wv a0 = w) by (rewrite <- Es'; reflexivity).
  assert (SG : s_grid (a_su a0) = g) by (rewrite <- Es'; reflexivity).
  assert (TH : a_theta a0 = th) by (rewrite <- Es'; reflexivity). clear Es'.
  rewrite F11 in F12. rewrite F10 in F13. rewrite Nat.add_0_r in F12, F13.
  unfold do_model_calcs in Eb. rewrite U3 in Eb.
  unfold update_theta, modS in Eb. unfold bindS at 1 2, ret at 1 in Eb. rewrite TH in Eb.
  set (vel := firstn (p_nvel (c_prof c)) th) in *.
  set (dsp := firstn (p_ndisp (c_prof c)) (skipn (p_nvel (c_prof c)) th)) in *.
  set (a1 := set_prof vel dsp a0) in *.
  destruct (calculate_spectral_cube c a1) as [a2 [[]|e]] eqn:E2;
    [rewrite (bindS_Ok _ _ _ _ _ E2) in Eb|rewrite (bindS_Err _ _ _ _ _ E2) in Eb; discriminate].
  assert (X : exists cube, a2 = set_cube (Some cube) a1 /\
     add_sigma_collapse_z (I_wide g) (V_cube c a1) (mk3 (nZ g) (nY g) (nX g) (fun m j k =>
          p_disp (c_prof c) dsp (at3 (r_cube g) m j k) (at3 (zint g) m j k)))
       (g_wave (c_gal c)) (gz g) (g_rest (c_gal c)) (g_ratio (c_gal c)) (length l) (nZ g) (nY g) (nX g)
       (Fin (delt_z g)) (w_I4 w) (w_ref w) Wave = Ok cube).
  { revert E2. rewrite calc_unfold. unfold calc_tail, calc_tail2, calc_tail3, sigma_options, shift_cache, shift_V.
    rewrite U4, U5, H14, H15, H11. cbn [orb]. ub.
    change (a_su a1) with (a_su a0). change (a_wv a1) with (a_wv a0). rewrite SG, W.
    change (a_disp a1) with dsp. rewrite F23. cbn [w_arr w_n w_I4 w_ref].
    rewrite H5, map_length.
    destruct (add_sigma_collapse_z _ _ _ _ _ _ _ _ _ _ _ _ _ _ _) as [cube|]; [|discriminate].
    intros E. injection E as <-. exists cube. split; reflexivity. }
  destruct X as (cube&->&Ec).
  destruct (collapse_dims _ _ _ _ _ _ _ _ _ _ _ _ _ _ _ _ Ec) as (D0&D1&D2).
  assert (E3 : convolve_spectral_cube_PSF c (set_cube (Some cube) a1) = (set_conv (Some cube) (set_cube (Some cube) a1), Ok tt)).
  { unfold convolve_spectral_cube_PSF. ub. cbn [set_cube a_cube]. unfold PSF_convolve. rewrite U1.
    unfold fgtb, fltb. destruct (Rltb 0 0) eqn:E; [apply Rltb_true in E; lra|]. reflexivity. }
  rewrite (bindS_Ok _ _ _ _ _ E3) in Eb. clear E3.
  set (a3 := set_conv (Some cube) (set_cube (Some cube) a1)) in *.
  set (out := mk2 (length l) (nY g) (fun w0 j => fmul (fsumn (nX g) (fun k => at3 cube w0 j k)) (Fin (delt_x g)))).
  assert (E4 : exists a4 o m, trim_downsample_spectral_cube c a3 = (a4, Ok tt) /\ a_out a4 = Some m /\ eq2 o out /\
     rebin2 o (length l) (g_rows (c_gal c)) = Ok m).
  { destruct (trim_downsample_spectral_cube c a3) as [a4 [[]|e]] eqn:E4;
      [|rewrite (bindS_Err _ _ _ _ _ E4) in Eb; discriminate].
    revert E4. unfold trim_downsample_spectral_cube. ub. rewrite H16. cbn [a3 set_conv a_conv set_cube a_su a1 set_prof a_wv].
    rewrite SG, W, U6. unfold cut. rewrite D1, D2, F10, F11, F3, F23, !Nat.add_0_r, Nat.min_0_l. cbn [w_n].
    rewrite H5, map_length.
    match goal with |- context [rebin2 ?x ?p ?q] => set (o := x); destruct (rebin2 o p q) as [m|] eqn:Er end; [|discriminate].
    intros E. injection E as <-. eexists _, o, m. split; [reflexivity|]. split; [reflexivity|]. split; [|exact Er].
    unfold o, out. rewrite F13, F12, !Nat.min_id, !Nat.sub_0_r. split; [exact D0|]. split; [reflexivity|]. reflexivity. }
  destruct E4 as (a4&o&m&E4&O4&(R4&C4&V4)&B4). rewrite (bindS_Ok _ _ _ _ _ E4) in Eb.
  destruct (rebin2_blocks o (length l) (g_rows (c_gal c)) 1 (o_nsub (c_opt c))) as (m'&Bm&Rm&Cm&Vm); try lia.
  { rewrite R4. cbn. lia. } { rewrite C4. cbn. lia. }
  rewrite B4 in Bm. injection Bm as <-.
  assert (E5 : exists x, convolve_instrument_resolution c a4 = (set_dvel (a_dvel a4) (IdwFloat x) a4, Ok tt)).
  { unfold convolve_instrument_resolution. ub. rewrite H14, H11, U2, zero_width. eexists. reflexivity. }
  destruct E5 as (x&E5). rewrite (bindS_Ok _ _ _ _ _ E5) in Eb. revert Eb. ub.
  cbn [set_dvel a_out]. rewrite O4. intros Eb. injection Eb as <-.
  exists a0, (set_model (Some (transpose m)) (set_dvel (a_dvel a4) (IdwFloat x) a4)), g, w, cube, (transpose m).
  split; [auto|]. split; [auto|].
  split. { destruct (well_posed_eval _ _ _ Hwp) as (a0'&b'&Es'&Eb'). rewrite Es in Es'. injection Es' as <-.
    unfold do_model_calcs. rewrite U3. unfold update_theta, modS. unfold bindS at 1 2, ret at 1. rewrite TH.
    fold vel dsp. fold a1. rewrite (bindS_Ok _ _ _ _ _ E2).
    assert (E3 : convolve_spectral_cube_PSF c (set_cube (Some cube) a1) = (a3, Ok tt)).
    { unfold convolve_spectral_cube_PSF. ub. cbn [set_cube a_cube]. unfold PSF_convolve. rewrite U1.
      unfold fgtb, fltb. destruct (Rltb 0 0) eqn:E; [apply Rltb_true in E; lra|]. reflexivity. }
    rewrite (bindS_Ok _ _ _ _ _ E3), (bindS_Ok _ _ _ _ _ E4), (bindS_Ok _ _ _ _ _ E5). ub. cbn [set_dvel a_out].
    now rewrite O4. }
  split; [reflexivity|]. cbn [transpose rows cols]. split; [auto|]. split; [auto|]. split; [auto|]. split; [auto|].
  split. { cbv zeta. rewrite <- Ec. unfold V_cube. cbn [a1 set_prof a_su a_vel]. rewrite SG. reflexivity. }
  intros i q Hi Hq. cbn [transpose at2]. rewrite Vm by auto. unfold block_sum.
  unfold fsumn at 1. cbn [seq map]. unfold fsum; cbn [fold_right].
  assert (Z : forall y, fadd y (Fin 0) = y) by (intros []; cbn; auto; f_equal; ring). rewrite Z.
  apply fsumn_ext. intros s Hs.
  assert (Hc : (i * o_nsub (c_opt c) + s < nY g)%nat) by (rewrite F13, F4; nia).
  rewrite V4 by (rewrite ?R4, ?C4; cbn; lia). unfold out. cbn [at2].
  rewrite <- F12. replace (q * 1 + 0)%nat with q by lia. reflexivity.
Qed.
