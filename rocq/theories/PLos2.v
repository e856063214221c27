From Coq Require Import Reals Lra List Bool Arith ZArith Lia.
From Verif Require MProf.
From Verif Require Import PyFloat PyBase Arr PyNum MParams MKernels MAper2D SParams SKernels SAper2D SAper1D SLine SLos SLos2 PParams PMask PAper2D PAper2DHist PAper2DGrid PAper2DShape PAper2DOk PAper2DVal PAper2DGeo PKernels PKernels2 PProf PAper1D5 PLine PLos.
Import ListNotations.
Local Open Scope R_scope.

Lemma mapR_inv {A B} (f : A -> res B) : forall l r, mapR f l = Ok r ->
  length r = length l /\ forall i a, nth_error l i = Some a -> exists y, f a = Ok y /\ nth_error r i = Some y.
Proof.
  induction l as [|a l IH]; intros r E; cbn in E.
  - apply Ok_inj in E. subst r. split; [reflexivity|]. intros [|i] ? ?; discriminate.
  - destruct (f a) as [y|] eqn:Ea; [|discriminate]. cbn [bind] in E.
    destruct (mapR f l) as [r'|] eqn:El; [|discriminate]. cbn [bind] in E. apply Ok_inj in E. subst r.
    destruct (IH r' eq_refl) as [L H]. split; [cbn; now rewrite L|].
    intros [|i] x Hx; cbn in Hx |- *; [injection Hx as <-; eauto|eauto].
Qed.

(* the light position is the fitted centre, moved to the nearest edge if it is outside the slit *)
Lemma slit_clamp xarr wh A mu f s d w : 0 <= f -> 0 <= s ->
  check_slit_illum xarr wh A (Fin mu) (Fin f) (Fin s) = Ok (d, w) -> d = Fin (Rmax (- (s / 2)) (Rmin mu (s / 2))).
Proof.
  intros Hf Hs E. unfold check_slit_illum in E. unfold fsub, fgtb in E. cbn [fmul fadd fneg fltb] in E.
  replace (1 / 2 * s) with (s / 2) in E by field. replace (-1 / 2 * s) with (- (s / 2)) in E by field.
  assert (Clamp : (if fltb (if fltb (Fin (s / 2)) (Fin mu) then Fin (s / 2) else Fin mu) (Fin (- (s / 2))) then Fin (- (s / 2)) else (if fltb (Fin (s / 2)) (Fin mu) then Fin (s / 2) else Fin mu)) = Fin (Rmax (- (s / 2)) (Rmin mu (s / 2)))).
  { cbn [fltb]. unfold Rmin, Rmax. destruct (Rltb (s / 2) mu) eqn:E1; [apply Rltb_true in E1|apply Rltb_false in E1]; cbn [fltb].
    - destruct (Rle_dec mu (s / 2)); [lra|]. destruct (Rle_dec (- (s / 2)) (s / 2)); [|lra].
      rewrite (proj2 (Rltb_false _ _)) by lra. reflexivity.
    - destruct (Rle_dec mu (s / 2)); [|lra]. destruct (Rltb mu (- (s / 2))) eqn:E2; [apply Rltb_true in E2|apply Rltb_false in E2];
      destruct (Rle_dec (- (s / 2)) mu); auto; try lra. }
  match type of E with (if ?b then _ else _) = _ => destruct b eqn:Eb end.
  - unfold bind in E. match type of E with (match ?x with _ => _ end) = _ => destruct x as [wd|]; [|discriminate] end.
    apply Ok_inj in E. inversion E. subst. exact Clamp.
  - apply orb_false_elim in Eb. destruct Eb as [Eb _]. apply orb_false_elim in Eb. destruct Eb as [Eb _]. apply orb_false_elim in Eb. destruct Eb as [E1 E2].
    apply Rltb_false in E1. apply Rltb_false in E2. apply Ok_inj in E. inversion E. subst. f_equal.
    unfold Rmin, Rmax. destruct (Rle_dec mu (s / 2)); [|lra]. destruct (Rle_dec (- (s / 2)) mu); lra.
Qed.

Lemma ff_pos : 0 < fwhm_factor.
Proof.
  unfold fwhm_factor. apply Rmult_lt_0_compat; [lra|]. apply sqrt_lt_R0.
  assert (0 < ln 2) by (rewrite <- ln_1; apply ln_increasing; lra). lra.
Qed.

(* offsets and widths of the rows, in km/s and wavelength *)
Lemma eff_rows c g st v d rs lam : eff_inst_res c g st = Ok (v, d) ->
  i_res (c_ins c) = Fin rs -> 0 < rs -> lam0_primary g = Fin lam -> lam <> 0 -> 0 < i_slit (c_ins c) ->
  (forall xs ys, exists A mu fw, p_lmfit (c_prof c) xs ys = (A, Fin mu, Fin fw) /\ 0 <= fw) ->
  let s := i_slit (c_ins c) in
  length v = nY g /\ length d = nY g /\
  exists conv, PSF_convolve (mk3 1 (nY g) (nX g) (fun _ j k => fsumn (nZ g) (fun m => at3 (I_wide g) m j k))) (Fin (i_fwhm (c_ins c))) st = Ok (Some conv) /\
  forall j, (j < nY g)%nat -> exists xs A mu fw off wd,
    take (x_arr g) (seq (padX g) (n_pix_x g)) = Ok xs /\
    p_lmfit (c_prof c) xs (map (fun i => at3 conv 0 j i) (seq (padX g) (n_pix_x g))) = (A, Fin mu, Fin fw) /\
    check_slit_illum (x_arr g) (seq (padX g) (n_pix_x g)) A (Fin mu) (Fin fw) (Fin s) = Ok (off, wd) /\
    lnth v j = Fin (Rmax (- (s / 2)) (Rmin mu (s / 2)) / s * (rs * fwhm_factor)) /\
    (forall y, wd = Fin y -> lnth d j = Fin (y / s * (rs / c_kms * lam))).
Proof.
  intros E Hr Pr Hl Nl Ps Hfit s. fold s in Ps. pose proof c_kms_pos as Hc. pose proof ff_pos as Hf.
  unfold eff_inst_res in E. fold s in E. destruct (PSF_convolve _ _ _) as [[conv|]|] eqn:Ec; [|discriminate|discriminate]. unfold bind at 1 in E.
  destruct (mapR _ _) as [rows|] eqn:Em in E; [|discriminate]. unfold bind at 1 in E.
  destruct (mapR_inv _ _ _ Em) as [L H]. rewrite seq_length in L. rewrite Hr, Hl in E. cbn [fmul] in E. rewrite (fdiv_Fin c_kms (rs * fwhm_factor)) in E by nra. cbn [fmul] in E.
  apply Ok_inj in E. apply pair_equal_spec in E. destruct E as [<- <-].
  split; [now rewrite map_length|]. split; [now rewrite map_length|]. exists conv. split; [reflexivity|].
  intros j Hj. destruct (H j j) as (y&Ey&Ny).
  { rewrite nth_error_nth' with (d := 0%nat) by (rewrite seq_length; lia). now rewrite seq_nth by lia. }
  unfold bind in Ey at 1. destruct (take (x_arr g) (seq (padX g) (n_pix_x g))) as [xs|]; [|discriminate].
  destruct (Hfit xs (map (fun i => at3 conv 0 j i) (seq (padX g) (n_pix_x g)))) as (A&mu&fw&Ef&Pf). rewrite Ef in Ey.
  destruct y as [off wd]. exists xs, A, mu, fw, off, wd. split; [reflexivity|]. split; [exact Ef|]. split; [exact Ey|].
  apply slit_clamp in Ey; [|exact Pf|lra]. fold s in Ey. subst off.
  assert (Nth : forall (F : fl * fl -> fl), lnth (map F rows) j = F (Fin (Rmax (- (s / 2)) (Rmin mu (s / 2))), wd)).
  { intros F. unfold lnth. apply nth_error_nth. now apply map_nth_error. }
  split.
  - rewrite Nth. cbn [fst fmul]. rewrite (fdiv_Fin _ s) by lra.
    assert (N1 : c_kms / (rs * fwhm_factor) * s / s <> 0).
    { fold s. replace (c_kms / (rs * fwhm_factor) * s / s) with (c_kms / (rs * fwhm_factor)) by (field; fold s in Ps; split; nra).
      apply Rgt_not_eq. apply Rdiv_lt_0_compat; nra. }
    rewrite (fdiv_Fin lam) by exact N1. rewrite fdiv_Fin by (fold s; fold s in Ps; lra). cbn [fmul]. rewrite fdiv_Fin by exact Nl. cbn [fmul]. f_equal.
    fold s. fold s in Ps. field. repeat split; lra.
  - intros y ->. rewrite Nth. cbn [snd fmul]. fold s. fold s in Ps. destruct (Req_dec y 0) as [->|Ny0].
    + replace (0 / s * (rs / c_kms * lam)) with 0 by (unfold Rdiv; ring).
      unfold fdiv at 3. rewrite (proj2 (Reqb_true 0 0) eq_refl).
      assert (P : 0 < c_kms / (rs * fwhm_factor) * s) by (apply Rmult_lt_0_compat; [apply Rdiv_lt_0_compat|]; nra).
      rewrite (proj2 (Reqb_false _ 0)) by lra. rewrite (proj2 (Rltb_true _ _) P).
      cbn [fdiv]. rewrite (proj2 (Reqb_false _ 0)) by lra. f_equal. unfold Rdiv. ring.
    + rewrite (fdiv_Fin _ y) by exact Ny0.
      assert (N2 : c_kms / (rs * fwhm_factor) * s / y <> 0).
      { unfold Rdiv. repeat apply Rmult_integral_contrapositive_currified; try lra; try (apply Rinv_neq_0_compat; nra). }
      rewrite (fdiv_Fin lam) by exact N2. rewrite fdiv_Fin by lra. f_equal. field. repeat split; lra.
Qed.

Lemma take_lnth (l : list fl) (f : nat -> fl) : forall inds, (forall k, In k inds -> (k < length l)%nat /\ lnth l k = f k) -> take l inds = Ok (map f inds).
Proof.
  induction inds as [|k inds IH]; intros H; [reflexivity|]. cbn [take map]. destruct (H k (or_introl eq_refl)) as [A B].
  unfold getn. rewrite (nth_error_nth' l NaN A). fold (lnth l k). rewrite B. cbn [bind]. rewrite IH by (intros; apply H; now right). reflexivity.
Qed.

(* the cube with the light-position shift: every row moves by its own velocity *)
Lemma shifted_emission c th l a0 b g w d q q0 m0 z rs (rest ratio : list R) (vr hr sr : R -> R -> R) (px py pz : nat -> R) :
  setup_model_grid c th = Ok (g, w) -> setup_calcs c th = Ok a0 ->
  o_shift (c_opt c) = true -> o_abs (c_opt c) = false -> o_floor (c_opt c) = false -> o_spec (c_opt c) = Wave ->
  cube_run c a0 = (b, Ok tt) ->
  0 < i_slit (c_ins c) -> 0 < i_pix (c_ins c) -> (1 <= g_rows (c_gal c))%nat -> g_wave (c_gal c) = map Fin l ->
  p_ndisp (c_prof c) = 1%nat -> (2 <= length th)%nat ->
  g_dPA (c_gal c) = Fin d -> g_q (c_gal c) = Fin q -> g_q0 (c_gal c) = Fin q0 -> 0 <= q0 < 1 -> 0 <= q <= 1 ->
  fadd (g_m0 (c_gal c)) (nth (length th - 2) th NaN) = Fin m0 -> nth (length th - 1) th NaN = Fin z -> 1 + z <> 0 ->
  g_rest (c_gal c) = map Fin rest -> g_ratio (c_gal c) = map Fin ratio -> (forall x, In x rest -> x <> 0) ->
  i_res (c_ins c) = Fin rs -> 0 < rs ->
  (forall r h, p_vel (c_prof c) (firstn (p_nvel (c_prof c)) th) (Fin r) (Fin h) = Fin (vr r h)) ->
  (forall r h, p_int (c_prof c) (Fin r) (Fin h) = Fin (hr r h)) ->
  (forall r h, p_disp (c_prof c) (firstn 1 (skipn (p_nvel (c_prof c)) th)) (Fin r) (Fin h) = Fin (sr r h) /\ sr r h <> 0) ->
  (forall xs ys, exists A mu fw, p_lmfit (c_prof c) xs ys = (A, Fin mu, Fin fw) /\ 0 <= fw) ->
  (forall k, (k < nX g)%nat -> lnth (x_arr g) k = Fin (px k)) ->
  (forall k, (k < nY g)%nat -> lnth (y_arr g) k = Fin (py k)) ->
  (forall k, (k < nZ g)%nat -> lnth (z_arr g) k = Fin (pz k)) ->
  exists inc n conv cube sh,
    inclined q q0 inc /\ turning_axis d inc n /\ a_cube b = Some cube /\
    PSF_convolve (mk3 1 (nY g) (nX g) (fun _ j k => fsumn (nZ g) (fun o => at3 (I_wide g) o j k))) (Fin (i_fwhm (c_ins c))) (a_stamp a0) = Ok (Some conv) /\
    (forall o j k, (o < nZ g)%nat -> (j < nY g)%nat -> (k < nX g)%nat ->
       at3 (I_wide g) o j k = Fin (hr (from_axis n (px k, py j, pz o)) (height n (px k, py j, pz o)))) /\
    (forall j, (j < nY g)%nat -> exists A mu fw,
       p_lmfit (c_prof c) (map (fun k => Fin (px k)) (seq (padX g) (n_pix_x g))) (map (fun k => at3 conv 0 j k) (seq (padX g) (n_pix_x g))) = (A, Fin mu, Fin fw) /\
       sh j = Rmax (- (i_slit (c_ins c) / 2)) (Rmin mu (i_slit (c_ins c) / 2)) / i_slit (c_ins c) * (rs * fwhm_factor)) /\
    (forall t j k, (t < length l)%nat -> (j < nY g)%nat -> (k < nX g)%nat ->
      at3 cube t j k = Fin (delt_z g * tot (nZ g) (fun o =>
        let p := (px k, py j, pz o) in
        let R := from_axis n p in let H := height n p in
        hr R H * spectrum rest ratio z (along_sight n (vr R H) p + sh j) (sr R H) (nth t l 0)))).
Proof.
  unfold cube_run. intros Hg Es Hsh Hab Hfl Hsp Eb H2 H3 H4 H5 H9 H8 Hd Hq Hq0 Bq0 Bq Hm0 Hz Nz Hre Hra Nre Hrs Prs Hv Hi Hs Hfit X' Y' Z'.
  destruct (setup_fields _ _ _ _ Hg) as (F1&F2&F3&F4&F5&F6&F7&F8&F9&F10&F11&F12&F13&F14&F15&F16&F17&F18&(s0&F19&F19')&F20&F21&F22&F23).
  assert (T1 : getz th (-1) = Ok (nth (length th - 1) th NaN)) by (apply (getz_neg th NaN 1); lia).
  assert (Gz : gz g = Fin z) by congruence.
  destruct (setup_cubes _ _ _ _ Hg) as (C0&CL&C1&C2&C3&C4). rewrite Hq, Hq0 in C0.
  destruct (sin_i_range q q0 ltac:(lra) ltac:(lra) ltac:(lra) ltac:(lra)) as (si&E1&Bs&S1&S2&S3).
  rewrite E1 in C0. destruct (inclined_ok q q0 si Bs S1 S3) as (INC&EA&SS).
  set (inc := asin si) in *.
  destruct (CL Hsp) as (r0&Er0&EL). clear CL. rewrite Hre in Er0. destruct rest as [|rest0 rest']; [discriminate|]. cbn in Er0. injection Er0 as <-.
  set (rest := rest0 :: rest') in *. rewrite Gz in EL. cbn [fadd fmul] in EL.
  assert (NL : rest0 * (1 + z) <> 0) by (apply Rmult_integral_contrapositive_currified; [apply Nre; now left|exact Nz]).
  set (RR := fun o j k => from_axis (axis d inc) (px k, py j, pz o)).
  set (HH := fun o j k => height (axis d inc) (px k, py j, pz o)).
  assert (CR : forall o j k, (o < nZ g)%nat -> (j < nY g)%nat -> (k < nX g)%nat ->
    at3 (r_cube g) o j k = Fin (RR o j k) /\ at3 (zint g) o j k = Fin (HH o j k) /\
    fmul (fmul (p_vel (c_prof c) (firstn (p_nvel (c_prof c)) th) (at3 (r_cube g) o j k) (at3 (zint g) o j k))
       (if feqb (at3 (r_cube g) o j k) (Fin 0) then Fin 0 else fdiv (at3 (yint g) o j k) (at3 (r_cube g) o j k))) (sini g)
    = Fin (los d inc vr (px k) (py j) (pz o))).
  { intros o j k Ho Hj Hk. rewrite C1, C2, C3, C0, EA, Hd, X', Y', Z', transform_Fin by assumption. cbn [fst snd]. rewrite fsqrt_sumsq.
    unfold RR, HH. rewrite from_axis_r, height_zi. split; [reflexivity|]. split; [reflexivity|]. rewrite <- SS. apply (los_code d inc vr _ _ _ _ Hv). }
  pose proof Es as Es'. unfold setup_calcs in Es'. rewrite Hg in Es'. cbn [bind] in Es'. apply Ok_inj in Es'.
  assert (W : a_wv a0 = w) by (rewrite <- Es'; reflexivity).
  assert (SG : s_grid (a_su a0) = g) by (rewrite <- Es'; reflexivity).
  assert (TH : a_theta a0 = th) by (rewrite <- Es'; reflexivity).
  assert (DV : a_dvel a0 = None) by (rewrite <- Es'; reflexivity). clear Es'.
  unfold update_theta, modS in Eb. unfold bindS at 1 in Eb. rewrite TH in Eb.
  set (vel := firstn (p_nvel (c_prof c)) th) in *. set (dsp := firstn (p_ndisp (c_prof c)) (skipn (p_nvel (c_prof c)) th)) in *.
  set (a1 := set_prof vel dsp a0) in *.
  revert Eb. rewrite calc_unfold. unfold calc_tail, calc_tail2, calc_tail3, sigma_options, shift_cache.
  rewrite Hsh, Hab, Hfl, Hsp. cbn [orb]. ub.
  change (a_su a1) with (a_su a0). change (a_stamp a1) with (a_stamp a0). change (a_dvel a1) with (a_dvel a0). rewrite SG, DV.
  destruct (eff_inst_res c g (a_stamp a0)) as [[v ds]|] eqn:Ee; [|discriminate]. cbn [fst snd].
  unfold shift_V. rewrite Hsh. cbn [set_dvel a_dvel a_su]. change (a_su a1) with (a_su a0). rewrite SG.
  change (a_wv (set_dvel (Some v) (IdwArr ds) a1)) with (a_wv a0). rewrite W.
  destruct (eff_rows c g _ v ds rs (rest0 * (1 + z)) Ee Hrs Prs EL NL H2 Hfit) as (Lv&Ld&conv&Ecv&Rows).
  rewrite Lv, Nat.ltb_irrefl. rewrite F23, H5, Hre, Hra, Gz. cbn [w_arr w_n w_I4 w_ref]. rewrite map_length.
  destruct (add_sigma_collapse_z _ _ _ _ _ _ _ _ _ _ _ _ _ _ _) as [cube|] eqn:Ec; [|discriminate].
  intros Eb. inversion Eb as [Eb']. clear Eb.
  set (sh := fun j => match lnth v j with Fin x => x | _ => 0 end).
  assert (Hsv : forall j, (j < nY g)%nat -> lnth v j = Fin (sh j)).
  { intros j Hj. destruct (Rows j Hj) as (xs&A&mu&fw&off&wd&_&_&_&Ev&_). unfold sh. now rewrite Ev. }
  exists inc, (axis d inc), conv, cube, sh. split; [exact INC|]. split; [apply axis_turning|]. split; [reflexivity|]. split; [exact Ecv|].
  split. { intros o j k Ho Hj Hk. destruct (CR o j k Ho Hj Hk) as (A1&A2&_). rewrite C4, A1, A2. apply Hi. }
  split. { intros j Hj. destruct (Rows j Hj) as (xs&A&mu&fw&off&wd&Et&Ef&_&Ev&_). exists A, mu, fw. split.
    - rewrite <- Ef. f_equal. assert (T : take (x_arr g) (seq (padX g) (n_pix_x g)) = Ok (map (fun k => Fin (px k)) (seq (padX g) (n_pix_x g)))).
      { apply take_lnth. intros k Hk. apply in_seq in Hk. split; [|apply X'; lia].
        destruct (x_grid _ _ _ _ Hg) as [LX _]. rewrite LX. lia. }
      congruence.
    - unfold sh. now rewrite Ev. }
  assert (Ne : rest <> []) by discriminate.
  apply cube_value_in with (I := fun o j k => hr (RR o j k) (HH o j k)) (V := fun o j k => los d inc vr (px k) (py j) (pz o) + sh j)
     (s := fun o j k => sr (RR o j k) (HH o j k)) in Ec; auto.
  - destruct Ec as [Lr Ec]. intros t j k Ht Hj Hk. rewrite (Ec t j k Ht Hj Hk). f_equal. change tot with rsumn.
    symmetry. rewrite <- rsumn_scal. symmetry.
    rewrite (rsumn_ext (length rest) _ (fun n => rsumn (nZ g) (fun o => delt_z g * (hr (RR o j k) (HH o j k) * (nth n ratio 0 * normal (nth n rest 0 * (1 + z) * (1 + (los d inc vr (px k) (py j) (pz o) + sh j) / c_kms)) (sr (RR o j k) (HH o j k) / c_kms * (nth n rest 0 * (1 + z))) (nth t l 0)))))).
    2: { intros n Hn. rewrite <- !rsumn_scal. apply rsumn_ext. intros; cbv zeta; ring. }
    rewrite rsumn_swap. apply rsumn_ext. intros o Ho. cbv zeta. rewrite (spectrum_normal _ _ _ _ _ _ Lr), rsumn_scal, rsumn_scal. reflexivity.
  - intros o j k Ho Hj Hk. destruct (CR o j k Ho Hj Hk) as (A1&A2&A3). rewrite at3_mk. unfold V_cube. change (a_su a1) with (a_su a0). rewrite SG, at3_mk.
    change (a_vel a1) with vel. rewrite A3, (Hsv j Hj). split; [reflexivity|]. rewrite at3_mk, A1, A2.
    destruct (Hs (RR o j k) (HH o j k)) as [B1 B2]. rewrite <- H9 in B1. split; [exact B1|]. split; [exact B2|]. intros t Ht. split.
    + unfold tile_I. cbn [at4]. rewrite C4, A1, A2. apply Hi.
    + unfold repeat_wave. cbn [at4]. apply lnth_map. exact Ht.
  - rewrite F14, F5, F4. nia.
  - rewrite F13, F4. nia.
  - rewrite F12. lia.
Qed.

(* one column, one row, evenly lit slit; the object is a quarter of the slit away from its centre *)
Definition u_prof : profs := mkprofs 2 1 MProf.vel_arctan MProf.disp_const (fun _ _ => Fin 1)
  (fun xs _ => (Fin 1, match xs with Fin x :: _ => Fin x | _ => Fin 0 end, Fin (1/10))).
Definition u_data : data2 := mkdata (fin2 1 2 (fun _ _ => 1)) (fin2 1 2 (fun _ _ => 1)) (fin2 1 2 (fun _ _ => 1)) (fin2 1 2 (fun _ _ => 1)) [0%nat; 1%nat].
Definition u_gal : gal := mkgal (Fin 1) (Fin 0) (Fin 0) 1 (map Fin [13126; 13134]) (Fin 0) [Fin 6565] [Fin 1] u_data.
Definition u_ins : instr := mkinstr 1 1 0 (Fin 30) false (fun _ _ => Fin 1).
Definition u_opt (s : bool) : opts := mkopts 1 0 true s false (1/4) Wave false false 1 false.
Definition u_cfg (s : bool) : cfg := mkcfg u_gal u_ins (u_opt s) u_prof.
Definition u_th : list fl := [Fin 200; Fin (1/2); Fin 50; Fin 0; Fin 1].

Lemma u_shift : exists a0 b g w v, setup_model_grid (u_cfg true) u_th = Ok (g, w) /\ setup_calcs (u_cfg true) u_th = Ok a0 /\
  cube_run (u_cfg true) a0 = (b, Ok tt) /\ n_pix_x g = 1%nat /\ nX g = 1%nat /\ delt_x g = 1 /\
  (forall r h, p_int (c_prof (u_cfg true)) r h = Fin 1) /\
  (forall x ys, p_lmfit (c_prof (u_cfg true)) [Fin x] ys = (Fin 1, Fin x, Fin (1/10))) /\
  a_dvel b = Some v /\ lnth v 0 = Fin (- (1/4) * (30 * fwhm_factor)).
Proof.
  assert (W : well_posed (u_cfg false) u_th [13126; 13134]).
  { unfold well_posed. cbn. repeat split; try lia; try lra; try discriminate; auto.
    intros i j H. destruct i as [|[|i]], j as [|[|j]]; cbn in *; try lia; lra. }
  destruct (setup_ok _ _ _ W) as (g&w&Hg). change (setup_model_grid (u_cfg false) u_th) with (setup_model_grid (u_cfg true) u_th) in Hg.
  destruct (setup_fields _ _ _ _ Hg) as (F1&F2&F3&F4&F5&F6&F7&F8&F9&F10&F11&F12&F13&F14&F15&F16&F17&F18&F19&F20&F21&F22&F23).
  assert (P : forall x, nat_of_round (0 * x) = 0%nat) by exact pad0.
  unfold Rdiv in F10, F11. change (i_fwhm (c_ins (u_cfg true))) with 0 in F10, F11. rewrite Rmult_0_l, P in F10, F11.
  assert (NX : n_pix_x g = 1%nat).
  { rewrite F6. unfold slit_npix. cbn. destruct (Reqb (1 * (1 / 1)) 1) eqn:E; [reflexivity|]. apply Reqb_false in E. lra. }
  rewrite F11, NX in F12. rewrite F10, F4 in F13. rewrite F5, F4 in F14. cbn [c_gal u_cfg u_gal g_rows o_nsub c_opt u_opt Nat.mul Nat.add] in F12, F13, F14.
  assert (DX : delt_x g = 1). { rewrite F9, NX. cbn. lra. }
  destruct (x_grid _ _ _ _ Hg) as [LX X]. rewrite F12 in LX, X. specialize (X 0%nat ltac:(lia)). unfold xat in X. rewrite F12, DX in X.
  change (o_xc (c_opt (u_cfg true))) with (1/4) in X. cbn [INR] in X. replace ((0 - (1 - 1) / 2) * 1 - 1 / 4) with (- (1/4)) in X by lra.
  assert (XA : x_arr g = [Fin (- (1/4))]). { destruct (x_arr g) as [|x0 [|]]; try discriminate. cbn in X. now rewrite X. }
  assert (T1 : gz g = Fin 1). { pose proof (getz_neg u_th NaN 1 ltac:(cbn; lia)) as G. change (- Z.of_nat 1)%Z with (-1)%Z in G. rewrite G in F18. cbn in F18. congruence. }
  destruct (setup_cubes _ _ _ _ Hg) as (_&CL&_). destruct (CL eq_refl) as (r0&Er0&EL). cbn in Er0. injection Er0 as <-. rewrite T1 in EL. cbn [fadd fmul] in EL.
  assert (EE : exists v d, eff_inst_res (u_cfg true) g (make_stamp u_ins g) = Ok (v, d)).
  { unfold eff_inst_res. change (c_ins (u_cfg true)) with u_ins. cbn [u_ins i_fwhm i_slit i_res]. unfold PSF_convolve, fgtb. cbn [fltb].
    destruct (Rltb 0 0) eqn:E; [apply Rltb_true in E; lra|]. cbn [bind]. rewrite F11, NX, F13, XA. cbn [seq mapR take getn nth_error bind map].
    change (p_lmfit (c_prof (u_cfg true))) with (fun (xs : list fl) (_ : list fl) => (Fin 1, match xs with Fin x :: _ => Fin x | _ => Fin 0 end, Fin (1/10))). cbv beta iota.
    unfold check_slit_illum, fsub, fgtb. cbn [fmul fadd fneg fltb].
    rewrite (proj2 (Rltb_false _ _)) by lra. rewrite (proj2 (Rltb_false _ _)) by lra. cbn [fltb]. rewrite (proj2 (Rltb_false _ _)) by lra. cbn [andb orb bind]. eauto. }
  destruct EE as (v&ds&EE).
  assert (Es : setup_calcs (u_cfg true) u_th = Ok (mkaper (mksetup g None None None) u_th [] [] w None IdwNone None None None None (make_stamp u_ins g))).
  { unfold setup_calcs. rewrite Hg. reflexivity. }
  assert (Eb : exists b, cube_run (u_cfg true) (mkaper (mksetup g None None None) u_th [] [] w None IdwNone None None None None (make_stamp u_ins g)) = (b, Ok tt) /\ a_dvel b = Some v).
  { unfold cube_run, update_theta, modS. unfold bindS at 1. rewrite calc_unfold. unfold calc_tail, sigma_options.
    change (o_abs (c_opt (u_cfg true))) with false. change (o_floor (c_opt (u_cfg true))) with false.
    unfold calc_tail2, shift_cache, calc_tail3, shift_V. change (o_shift (c_opt (u_cfg true))) with true. cbn [orb].
    ub. cbv beta iota zeta delta [a_su a_theta a_vel a_disp a_wv a_dvel a_idw a_cube a_conv a_out a_model a_stamp s_grid set_prof set_dvel set_cube]. rewrite EE. cbn [fst snd]. cbv beta iota.
    destruct (eff_rows _ _ _ _ _ 30 _ EE eq_refl ltac:(lra) EL) as (Lv&_); [lra|cbn; lra| |].
    { intros xs ys. exists (Fin 1). destruct xs as [|[x| | |] xs]; eexists _, (1/10); (split; [reflexivity|lra]). }
    rewrite Lv, Nat.ltb_irrefl. cbv beta iota.
    match goal with |- context [add_sigma_collapse_z ?I ?V ?S ?wave ?z ?rest ?ratio ?nW ?nz ?ny ?nx ?dz ?I4 ?wr ?sp] =>
      destruct (collapse_ok I V S wave z rest ratio nW nz ny nx dz I4 wr) as [cube Hc] end.
    1,2: rewrite F23; unfold shape4_eqb; cbn; rewrite ?F20, ?F21, ?F22, ?F12, ?F13, ?F14; reflexivity.
    1-3: cbn; lia. { discriminate. } { cbn; lia. }
    change (o_spec (c_opt (u_cfg true))) with Wave. rewrite Hc. eexists. split; reflexivity. }
  destruct Eb as (b&Eb&Ev).
  eexists _, b, g, w, v. split; [exact Hg|]. split; [exact Es|]. split; [exact Eb|]. split; [exact NX|]. split; [exact F12|]. split; [exact DX|].
  split; [reflexivity|]. split; [reflexivity|]. split; [exact Ev|].
  destruct (eff_rows _ _ _ _ _ 30 _ EE eq_refl ltac:(lra) EL) as (_&_&cv&_&Rows); [lra|cbn; lra| |].
  { intros xs ys. exists (Fin 1). destruct xs as [|[x| | |] xs]; eexists _, (1/10); (split; [reflexivity|lra]). }
  destruct (Rows 0%nat ltac:(lia)) as (xs&A&mu&fw&off&wd&Et&Ef&_&E&_). rewrite E. f_equal.
  rewrite XA, F11, NX in Et. cbn in Et. apply Ok_inj in Et. subst xs. cbn in Ef. inversion Ef. change (i_slit (c_ins (u_cfg true))) with 1.
  unfold Rmin, Rmax. destruct (Rle_dec (- (1/4)) (1/2)); [|lra]. destruct (Rle_dec (- (1/2)) (- (1/4))); [|lra]. lra.
Qed.
