From Coq Require Import Reals Lra List Bool Arith ZArith Lia.
From Verif Require Import PyFloat PyBase Arr PyNum MParams MKernels MAper2D SParams SKernels SAper2D SAper1D SLine SLos SReach SFinite PParams PMask PAper2D PAper2DHist PAper2DGrid PAper2DShape PAper2DOk PAper2DVal PAper2DGeo PKernels PKernels2 PProf PAper1D5 PLine PLos PLos3 PFinite.
Import ListNotations.
Local Open Scope R_scope.

(* what the pipeline reads from the grid *)
Record good_grid (c : cfg) (vel : list fl) (g : grid) : Prop := mkgood
  { gg_z : exists z, gz g = Fin z /\ 0 < 1 + z;
    gg_lam : exists x, lam0_primary g = Fin x /\ 0 < x;
    gg_dz : 0 < delt_z g; gg_dx : 0 < delt_x g; gg_nx : (0 < n_pix_x g)%nat; gg_nX : nX g = (n_pix_x g + 2 * padX g)%nat;
    gg_cell : forall m j k, (m < nZ g)%nat -> (j < nY g)%nat -> (k < nX g)%nat ->
      (exists r h, at3 (r_cube g) m j k = Fin r /\ at3 (zint g) m j k = Fin h) /\
      (exists i, at3 (I_wide g) m j k = Fin i /\ 0 < i) /\
      (exists v, (let r := at3 (r_cube g) m j k in
         let cosphi := if feqb r (Fin 0) then Fin 0 else fdiv (at3 (yint g) m j k) r in
         fmul (fmul (p_vel (c_prof c) vel r (at3 (zint g) m j k)) cosphi) (sini g)) = Fin v) }.

Lemma near_In f l x : In x (near f l) -> In x l.
Proof. unfold near. intros H. apply filter_In in H. apply H. Qed.

Lemma good_setup c th l g w : shining c th l -> setup_model_grid c th = Ok (g, w) ->
  good_grid c (firstn (p_nvel (c_prof c)) th) g /\
  (0 < i_fwhm (c_ins c) -> exists ker, make_stamp (c_ins c) g = Stamp3 ker /\ (0 < dim0 ker)%nat /\ (0 < dim1 ker)%nat /\ (0 < dim2 ker)%nat /\
     forall i j k, (i < dim0 ker)%nat -> (j < dim1 ker)%nat -> (k < dim2 ker)%nat -> exists v, at3 ker i j k = Fin v /\ 0 < v).
Proof.
  intros [Hwp (d & q & q0 & Hd & Hq & Hq0 & Bq0 & Bq) (m0 & Hm0) (z & Hz & Pz) (rest & Hre & Pre) _ Hv Hi _ _ _ Hpsf] Hg.
  pose proof Hwp as (H1&H2&H3&H4&H5&H6&H7&H8&H9&H10&H11&H12&H13&H14&H15&H16&H17&H18&H19).
  pose proof (stamp_nonempty _ _ _ _ _ Hwp Hg) as Hst.
  destruct (setup_fields _ _ _ _ Hg) as (F1&F2&F3&F4&F5&F6&F7&F8&F9&F10&F11&F12&F13&F14&F15&F16&F17&F18&(sh&F19&F19')&F20&F21&F22&F23).
  assert (T1 : getz th (-1) = Ok (nth (length th - 1) th NaN)) by (apply (getz_neg th NaN 1); lia).
  assert (T2 : getz th (-2) = Ok (nth (length th - 2) th NaN)) by (apply (getz_neg th NaN 2); lia).
  assert (Gz : gz g = Fin z) by congruence.
  assert (Gm : m0_fit g = Fin m0) by congruence.
  destruct (setup_cubes _ _ _ _ Hg) as (C0&CL&C1&C2&C3&C4). rewrite Hq, Hq0 in C0.
  destruct (sin_i_range q q0 ltac:(lra) ltac:(lra) ltac:(lra) ltac:(lra)) as (si&E1&Bs&S1&S2&S3).
  rewrite E1 in C0. destruct (inclined_ok q q0 si Bs S1 S3) as (INC&EA&SS). rewrite <- C0 in EA.
  destruct (cubes_finite _ _ _ _ _ _ _ Hg Gm Hd EA) as (xr & yr & zr & X & Y & Z & C).
  destruct (slit_tiling _ _ _ _ Hg H2 H3) as (_&(Dx0&_)&_).
  assert (Ns : 0 < INR (o_nsub (c_opt c))) by (apply lt_0_INR; lia).
  split.
  - split.
    + exists z. now split.
    + destruct (CL H11) as (r & Er & El). rewrite Hre in Er. destruct rest as [|r0 rest]; [discriminate|]. injection Er as <-. rewrite Gz in El. exists (r0 * (1 + z)).
      split; [exact El|]. apply Rmult_lt_0_compat; [apply Pre; now left|exact Pz].
    + rewrite F8, F7. now apply Rdiv_lt_0_compat.
    + exact Dx0.
    + lia.
    + exact F12.
    + intros m j k Hm Hj Hk. destruct (C m j k Hm Hj Hk) as (A & B & D). split; [eexists _, _; split; [exact A|exact D]|]. split.
      * rewrite C4, A, D. destruct (Hi (sqrt (xi_ (d * (PI / 180)) (asin si) (xr k) (yr j) (zr m) * xi_ (d * (PI / 180)) (asin si) (xr k) (yr j) (zr m) +
           yi_ (d * (PI / 180)) (asin si) (xr k) (yr j) (zr m) * yi_ (d * (PI / 180)) (asin si) (xr k) (yr j) (zr m))) (zi_ (d * (PI / 180)) (asin si) (xr k) (yr j) (zr m))) as (v & Ev & Pv). exists v. now split.
      * cbv zeta. rewrite A, B, D, C0. set (r := sqrt _). destruct (Hv r (zi_ (d * (PI / 180)) (asin si) (xr k) (yr j) (zr m))) as (v & ->).
        cbn [feqb]. destruct (Reqb r 0) eqn:Er; [eexists; reflexivity|]. rewrite fdiv_Fin by (now apply Reqb_false in Er). eexists; reflexivity.
  - intros Hf. destruct (Hst Hf) as (ker & Ek & Sk). exists ker. split; [exact Ek|]. unfold make_stamp in Ek. injection Ek as <-. unfold size3 in Sk. cbn [dim0 dim1 dim2] in *.
    split; [lia|]. split; [nia|]. split; [nia|]. intros i j k _ Hj Hk. cbn [at3].
    assert (FX : exists x, lnth (near (i_fwhm (c_ins c)) (x_arr g)) k = Fin x).
    { assert (In (lnth (near (i_fwhm (c_ins c)) (x_arr g)) k) (x_arr g)) as J by (eapply near_In; unfold lnth; apply nth_In; exact Hk).
      destruct (In_nth _ _ NaN J) as (t & Ht & <-). rewrite (proj1 (x_grid _ _ _ _ Hg)) in Ht. exists (xr t). now apply X. }
    assert (FY : exists x, lnth (near (i_fwhm (c_ins c)) (y_arr g)) j = Fin x).
    { assert (In (lnth (near (i_fwhm (c_ins c)) (y_arr g)) j) (y_arr g)) as J by (eapply near_In; unfold lnth; apply nth_In; exact Hj).
      destruct (In_nth _ _ NaN J) as (t & Ht & <-). rewrite (proj1 (y_grid _ _ _ _ _ Hg Gm)) in Ht. exists (yr t). now apply Y. }
    destruct FX as (x & ->), FY as (y & ->). now apply Hpsf.
Qed.

(* the dispersion parameter after the two options *)
Lemma sigma_lit c a s b : a_disp a = [Fin s] -> (o_abs (c_opt c) = true \/ 0 <= s) ->
  (forall v, s_floor (a_su a) = Some v -> exists x, v = Fin x /\ 0 < x) ->
  sigma_options c a = (b, Ok tt) -> exists t, a_disp b = [Fin t] /\ 0 <= t.
Proof.
  intros Hd Hs Hf. unfold sigma_options. ub.
  assert (Q : exists t, 0 <= t /\ a_disp (if o_abs (c_opt c) then set_prof (a_vel a) (map fabs (a_disp a)) a else a) = [Fin t]).
  { destruct (o_abs (c_opt c)).
    - exists (Rabs s). split; [apply Rabs_pos|]. cbn [a_disp set_prof]. rewrite Hd. reflexivity.
    - exists s. split; [destruct Hs as [Q|Q]; [discriminate Q|exact Q]|exact Hd]. }
  destruct Q as (t & Ht & Et).
  destruct (o_abs (c_opt c)); destruct (o_floor (c_opt c)); cbn [a_su set_prof] in *; rewrite ?Et;
    try (destruct (s_floor (a_su a)) as [v|] eqn:Ev; cbn [abs_lt_truth]; [|intros Q; discriminate Q];
         destruct (fltb (fabs (Fin t)) v)); intros Q; injection Q as <-; cbn [a_disp set_prof];
    try (exists t; split; [first [exact Et|reflexivity]|exact Ht]).
  all: destruct (Hf v eq_refl) as (x & -> & Hx); exists x; split; [reflexivity|lra].
Qed.

Lemma calc_lit c a b s x (rest ratio : list R) vel : o_shift (c_opt c) = false -> o_eff (c_opt c) = false -> o_spec (c_opt c) = Wave ->
  g_rest (c_gal c) = map Fin rest -> rest <> [] -> (forall y, In y rest -> 0 < y) ->
  g_ratio (c_gal c) = map Fin ratio -> (forall y, In y ratio -> 0 < y) -> (length rest <= length ratio)%nat ->
  let g := s_grid (a_su a) in
  good_grid c vel g -> a_vel a = vel -> geom_ok c g -> wave_ok g (a_wv a) -> w_arr (a_wv a) = map Fin x -> x <> [] ->
  a_disp a = [Fin s] -> (o_abs (c_opt c) = true \/ 0 <= s) ->
  (forall v, s_floor (a_su a) = Some v -> exists y, v = Fin y /\ 0 < y) ->
  (forall s, 0 <= s -> forall r h, exists v, p_disp (c_prof c) [Fin s] (Fin r) (Fin h) = Fin v /\ (s = 0 -> v = 0) /\ (0 < s -> 0 < v)) ->
  calculate_spectral_cube c a = (b, Ok tt) -> exists cube, a_cube b = Some cube /\ lit3 cube.
Proof.
  intros Hs He Hsp Hre Ne Pre Hra Pra Lr g Gg Hvel Hg Hw Hx Nx Hd Hss Hf Hdis E.
  destruct (calc_shape _ _ _ E) as (_&_&_&cube&C3&Q0&Q1&Q2). exists cube. split; [exact C3|].
  rewrite calc_unfold in E. unfold calc_tail in E.
  destruct (sigma_options_ok c a (Fin s) Hd) as [a1 E1].
  { intros Hfl. unfold calc_tail, sigma_options in E. intros Q. revert E. unfold bindS at 1, sigma_options. ub. rewrite Hfl. destruct (o_abs (c_opt c)); cbn [a_su set_prof a_disp]; rewrite Q; intros X; discriminate X. }
  rewrite (bindS_Ok _ _ _ _ _ E1) in E. destruct (sigma_lit _ _ _ _ Hd Hss Hf E1) as (t & Dt & Ht).
  destruct (sigma_options_keep _ _ _ _ E1) as (P1&P2&P3&_).
  unfold calc_tail2, shift_cache in E. rewrite Hs, He in E. cbn [orb] in E. unfold calc_tail3 in E. revert E. ub.
  unfold shift_V. rewrite Hs, Hsp. ub. rewrite P2, Dt. fold g. intros E.
  destruct Gg as [(z & Gz & Pz) _ Gdz _ _ _ Gc]. rewrite Gz, Hre, Hra in E.
  destruct Hg as (D0&D1&D2&Z0&X0&Y0&EY&EW). pose proof Hw as (W1&W2&W3). fold g in Q0, Q1, Q2.
  assert (Ln : length x = w_n (a_wv a)) by (rewrite <- W3, Hx, map_length; reflexivity).
  assert (L0 : (0 < length x)%nat) by (destruct x; [congruence|cbn; lia]).
  match type of E with context [add_sigma_collapse_z ?I ?V ?S ?wave ?zz ?rs ?rt ?nW ?nz ?ny ?nx ?dz ?I4 ?wr Wave] =>
    destruct (add_sigma_collapse_z I V S wave zz rs rt nW nz ny nx dz I4 wr Wave) as [cb|e] eqn:Ec; [|discriminate E] end.
  injection E as <-. cbn [a_cube set_cube] in C3. injection C3 as ->.
  rewrite Hx, <- Ln in Ec.
  destruct (Req_dec t 0) as [T0|T0].
  - refine (narrow_lit _ _ _ _ _ (map Fin x) rest ratio _ (length x) _ _ _ _ cube _ _ _ _ _ _ _ _ _ _ _ _ Ec); auto; try congruence.
    + intros v Hv. apply in_flat3 in Hv. destruct Hv as (i & j & k & Hi & Hj & Hk & Ev). cbn [dim0 dim1 dim2 at3] in *.
      destruct (Gc i j k Hi Hj Hk) as ((r & h & Er & Eh) & _). rewrite Er, Eh in Ev. destruct (Hdis t Ht r h) as (y & Ey & Y0' & _). rewrite Ey, (Y0' T0) in Ev. now symmetry.
    + intros m j k Hm Hj Hk. apply Gc; auto.
  - refine (gauss_lit _ _ _ _ _ x rest ratio z _ _ _ _ cube _ _ _ _ _ _ _ _ _ _ _ _ _ _ Ec); auto; try congruence; try lia.
    intros m j k Hm Hj Hk. cbn [at3]. destruct (Gc m j k Hm Hj Hk) as ((r & h & Er & Eh) & (i & Ei & Pi) & v & Ev). split; [|split].
    + exists v. unfold V_cube. cbn [at3]. rewrite Hvel. exact Ev.
    + rewrite Er, Eh. destruct (Hdis t Ht r h) as (y & Ey & _ & Y1). exists y. split; [exact Ey|apply Y1; lra].
    + exists i. split; [exact Pi|]. intros w Hww. rewrite W1, W2, Hx. unfold tile_I, repeat_wave. cbn [at4]. split; [exact Ei|]. now apply lnth_map.
Qed.

Lemma trim_lit c a b cv f : i_slitmask (c_ins c) = false -> a_conv a = Some cv -> lit3 cv ->
  let g := s_grid (a_su a) in
  dim0 cv = w_n (a_wv a) -> dim1 cv = nY g -> dim2 cv = nX g -> (0 < w_n (a_wv a))%nat -> f = w_n (a_wv a) ->
  geom_ok c g -> 0 < delt_x g -> (0 < n_pix_x g)%nat -> nX g = (n_pix_x g + 2 * padX g)%nat ->
  trim_downsample_spectral_cube c a = (b, Ok tt) -> exists m, a_out b = Some m /\ lit2 m.
Proof.
  intros Hm Hc (Nc & Lc) g D0 D1 D2 Hw _ (_&_&_&Z0&X0&Y0&EY&EW) Dx Nx EX. unfold trim_downsample_spectral_cube. ub. rewrite Hm, Hc. unfold cut. fold g.
  set (y0 := Nat.min (padY g) (dim1 cv)). set (ny := (Nat.min (n_pix_y g + padY g) (dim1 cv) - y0)%nat).
  set (x0 := Nat.min (padX g) (dim2 cv)). set (nx := (Nat.min (n_pix_x g + padX g) (dim2 cv) - x0)%nat).
  set (out := mk2 (dim0 cv) ny (fun w j => fmul (fsumn nx (fun k => at3 (mk3 (dim0 cv) ny nx (fun w j k => at3 cv w (y0 + j) (x0 + k))) w j k)) (Fin (delt_x g)))).
  assert (EYn : ny = n_pix_y g) by (unfold ny, y0; lia). assert (EXn : nx = n_pix_x g) by (unfold nx, x0; lia).
  assert (Lo : lit2 out).
  { split.
    - intros w j Hw' Hj. unfold out in *. cbn [rows cols at2 at3] in *. apply fmul_nonneg; [|exists (delt_x g); split; [reflexivity|lra]].
      apply fsumn_nonneg. intros k Hk. apply Nc; auto; unfold y0, x0; lia.
    - unfold out. cbn [rows cols at2 at3]. intros j Hj. destruct (Lc (y0 + j)%nat (x0 + 0)%nat) as (w & v & Hw' & Ev & Hv); [unfold y0; lia|unfold x0; lia|].
      exists w. destruct (fmul_positive (fsumn nx (fun k => at3 cv w (y0 + j) (x0 + k))) (Fin (delt_x g))) as (y & Ey & Hy).
      + apply fsumn_positive; [intros k Hk; apply Nc; auto; unfold y0, x0; lia|]. exists 0%nat, v. split; [lia|]. now split.
      + exists (delt_x g). now split.
      + exists y. split; [exact Hw'|]. now split. }
  destruct (o_rebin (c_opt c)).
  - destruct (rebin2 out (w_n (a_wv a)) (n_pix_y_whole g)) as [b2|e] eqn:Eb; intros Q; [|discriminate Q]. injection Q as <-. cbn [a_out set_out].
    exists b2. split; [reflexivity|]. refine (rebin_lit out (w_n (a_wv a)) (n_pix_y_whole g) 1 (o_nsub (c_opt c)) b2 Lo Hw _ _ _ _ Eb).
    + destruct (n_pix_y_whole g); cbn in EW; lia.
    + destruct (o_nsub (c_opt c)); lia.
    + unfold out. cbn [rows]. lia.
    + unfold out. cbn [cols]. lia.
  - intros Q. injection Q as <-. exists out. cbn [a_out set_out]. now split.
Qed.
