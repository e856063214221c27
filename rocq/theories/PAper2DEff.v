From Coq Require Import Reals Lra List Bool Arith ZArith Lia.
From Verif Require Import PyFloat PyBase Arr PyNum MParams MKernels MAper2D SParams SKernels SAper2D PParams PAper2D PAper2DHist PAper2DGrid PAper2DShape PAper2DOk PAper2DVal PKernels PKernels2.
Import ListNotations.
Local Open Scope R_scope.

(* without the position shift the effective-resolution option leaves the image alone *)
Definition sim (a b : aper) : Prop := exists v i, b = set_dvel v i a.
Definition simr (p q : aper * res unit) : Prop := sim (fst p) (fst q) /\ snd p = snd q.
Definition simm (m n : ST aper unit) : Prop := forall a b, sim a b -> simr (m a) (n b).

Lemma simm_bind m n f g : simm m n -> (forall u, simm (f u) (g u)) -> simm (bindS m f) (bindS n g).
Proof.
  intros H1 H2 a b Hab. unfold bindS. destruct (H1 a b Hab) as [X Y].
  destruct (m a) as [a' [u|e]], (n b) as [b' [u'|e']]; cbn [fst snd] in *; try discriminate.
  - injection Y as <-. now apply H2.
  - injection Y as <-. split; auto.
Qed.
Lemma simm_ret : simm (ret tt) (ret tt). Proof. intros a b H. split; auto. Qed.
Ltac sm := intros [q1 q2 q3 q4 q5 q6 q7 q8 q9 q10 q11 q12] ? (v&i&->);
  unfold simr, sim, set_dvel, set_theta, set_out, set_prof, set_wv, set_cube, set_conv, set_model;
  ub; cbn [with_eff c_opt c_gal c_ins c_prof o_nsub o_pad o_rebin o_shift o_eff o_xc o_spec o_abs o_adapt o_factor o_floor
      a_su a_theta a_vel a_disp a_wv a_dvel a_idw a_cube a_conv a_out a_model a_stamp fst snd negb].
Ltac dmr := match goal with |- context [match ?x with _ => _ end] =>
  lazymatch x with context [match _ with _ => _ end] => fail | _ => destruct x end end.
Ltac fin_ := repeat (cbn [a_su a_theta a_vel a_disp a_wv a_dvel a_idw a_cube a_conv a_out a_model a_stamp fst snd negb];
   first [ (split; [eexists _, _; reflexivity|reflexivity]) | dmr ]).

Section E.
Variable c : cfg.
Hypothesis Hs : o_shift (c_opt c) = false.
Local Notation c1 := (with_eff true c).
Local Notation c0 := (with_eff false c).

Lemma sim_theta : simm (update_theta c0) (update_theta c1).
Proof. unfold update_theta. sm. fin_. Qed.
Lemma sim_up : simm (check_do_upsample_wave c0) (check_do_upsample_wave c1).
Proof. unfold check_do_upsample_wave. sm. fin_. Qed.
Lemma sim_sig : simm (sigma_options c0) (sigma_options c1).
Proof. unfold sigma_options. sm. fin_. Qed.
Lemma sim_cache a b : sim a b ->
  (exists r, eff_inst_res c1 (s_grid (a_su a)) (a_stamp a) = Ok r) -> simr (shift_cache c0 a) (shift_cache c1 b).
Proof.
  intros H (r&Hr). revert a b H r Hr. unfold shift_cache. cbn [c_opt with_eff o_shift o_eff]. rewrite Hs. cbn [orb].
  sm. intros r Hr. destruct v, i; cbn [fst snd a_su a_stamp a_dvel a_idw] in *; rewrite ?Hr; cbn [fst snd];
  (split; [eexists _, _; reflexivity|reflexivity]).
Qed.
Lemma sim_tail3 V g d : simm (calc_tail3 c0 V g d) (calc_tail3 c1 V g d).
Proof.
  unfold calc_tail3, shift_V. cbn [c_opt with_eff o_shift o_spec c_gal c_prof]. rewrite Hs. sm.
  destruct (add_sigma_collapse_z _ _ _ _ _ _ _ _ _ _ _ _ _ _ _); cbn [fst snd]; (split; [eexists _, _; reflexivity|reflexivity]).
Qed.

Definition effok (a : aper) : Prop := exists r, eff_inst_res c1 (s_grid (a_su a)) (a_stamp a) = Ok r.

Lemma sim_calc a b : sim a b -> effok a -> simr (calculate_spectral_cube c0 a) (calculate_spectral_cube c1 b).
Proof.
  intros H He. rewrite !calc_unfold.
  assert (EV : V_cube c0 a = V_cube c1 b) by (destruct H as (v&i&->); reflexivity).
  assert (EG : a_su a = a_su b) by (destruct H as (v&i&->); reflexivity). rewrite EV, EG.
  unfold calc_tail, calc_tail2.
  destruct (sim_sig a b H) as [X Y].
  destruct (sigma_options c0 a) as [a1 [u|e]] eqn:E1; destruct (sigma_options c1 b) as [b1 [u'|e']] eqn:E1'; cbn [fst snd] in *; try discriminate.
  - rewrite (bindS_Ok _ _ _ _ _ E1), (bindS_Ok _ _ _ _ _ E1').
    destruct (sigma_options_keep _ _ _ _ E1) as (K1&_&K3&_).
    assert (ED : a_disp a1 = a_disp b1) by (destruct X as (v&i&->); reflexivity). rewrite ED.
    assert (C : simr (shift_cache c0 a1) (shift_cache c1 b1)).
    { apply sim_cache; auto. rewrite K1, K3. exact He. }
    destruct C as [C1 C2]. destruct (shift_cache c0 a1) as [a2 [w|e]] eqn:E2; destruct (shift_cache c1 b1) as [b2 [w'|e']] eqn:E2';
      cbn [fst snd] in *; try discriminate.
    + rewrite (bindS_Ok _ _ _ _ _ E2), (bindS_Ok _ _ _ _ _ E2'). now apply sim_tail3.
    + rewrite (bindS_Err _ _ _ _ _ E2), (bindS_Err _ _ _ _ _ E2'). split; auto.
  - rewrite (bindS_Err _ _ _ _ _ E1), (bindS_Err _ _ _ _ _ E1'). split; auto.
Qed.
Lemma sim_conv : simm (convolve_spectral_cube_PSF c0) (convolve_spectral_cube_PSF c1).
Proof. unfold convolve_spectral_cube_PSF. sm. fin_. Qed.
Lemma sim_trim : simm (trim_downsample_spectral_cube c0) (trim_downsample_spectral_cube c1).
Proof. unfold trim_downsample_spectral_cube, cut. sm. fin_. Qed.
Lemma sim_inst : simm (convolve_instrument_resolution c0) (convolve_instrument_resolution c1).
Proof. unfold convolve_instrument_resolution. cbn [c_opt with_eff o_shift o_spec c_ins]. rewrite Hs. sm. fin_. Qed.
Lemma sim_down : simm (downsample_to_real_wave c0) (downsample_to_real_wave c1).
Proof. unfold downsample_to_real_wave. sm. fin_. Qed.

Lemma upsample_keep a b r : check_do_upsample_wave c0 a = (b, r) -> a_su b = a_su a /\ a_stamp b = a_stamp a.
Proof.
  unfold check_do_upsample_wave. ub.
  destruct (abs_lt_truth _ _) as [[|]|]; [|intros E; injection E as <- <-; auto|intros E; injection E as <- <-; auto].
  destruct (s_real _); [|intros E; injection E as <- <-; auto].
  destruct (np_min _); [|intros E; injection E as <- <-; auto].
  destruct (np_max _); [|intros E; injection E as <- <-; auto].
  destruct (int_round _); [|intros E; injection E as <- <-; auto].
  destruct (_ <? _)%Z; intros E; injection E as <- <-; auto.
Qed.

Lemma eff_no_effect a b : sim a b -> effok a -> simr (do_model_calcs c0 a) (do_model_calcs c1 b).
Proof.
  intros H He. unfold do_model_calcs.
  assert (T0 : update_theta c0 a = (set_prof (firstn (p_nvel (c_prof c)) (a_theta a)) (firstn (p_ndisp (c_prof c)) (skipn (p_nvel (c_prof c)) (a_theta a))) a, Ok tt)) by reflexivity.
  assert (T1 : update_theta c1 b = (set_prof (firstn (p_nvel (c_prof c)) (a_theta b)) (firstn (p_ndisp (c_prof c)) (skipn (p_nvel (c_prof c)) (a_theta b))) b, Ok tt)) by reflexivity.
  rewrite (bindS_Ok _ _ _ _ _ T0), (bindS_Ok _ _ _ _ _ T1).
  destruct (sim_theta a b H) as [X _]. rewrite T0, T1 in X. cbn [fst] in X. clear T0 T1.
  set (a1 := set_prof _ _ a) in *. set (b1 := set_prof _ _ b) in *.
  assert (He1 : effok a1) by exact He. clearbody a1 b1.
  assert (U : simr ((if o_adapt (c_opt c0) then check_do_upsample_wave c0 else ret tt) a1)
                   ((if o_adapt (c_opt c1) then check_do_upsample_wave c1 else ret tt) b1)).
  { cbn [c_opt with_eff o_adapt]. destruct (o_adapt (c_opt c)); [now apply sim_up|now apply simm_ret]. }
  destruct ((if o_adapt (c_opt c0) then check_do_upsample_wave c0 else ret tt) a1) as [a2 [u|e]] eqn:E2;
  destruct ((if o_adapt (c_opt c1) then check_do_upsample_wave c1 else ret tt) b1) as [b2 [u'|e']] eqn:E2';
    destruct U as [U1 U2]; cbn [fst snd] in *; try discriminate;
    [rewrite (bindS_Ok _ _ _ _ _ E2), (bindS_Ok _ _ _ _ _ E2')
    |rewrite (bindS_Err _ _ _ _ _ E2), (bindS_Err _ _ _ _ _ E2'); split; auto].
  assert (He2 : effok a2).
  { unfold effok. cbn [c_opt with_eff o_adapt] in E2. revert E2. case_eq (o_adapt (c_opt c)); intros _ E2.
    - apply upsample_keep in E2. destruct E2 as [-> ->]. exact He1.
    - injection E2 as <- <-. exact He1. }
  destruct (sim_calc a2 b2 U1 He2) as [C1 C2].
  destruct (calculate_spectral_cube c0 a2) as [a3 [u3|e]] eqn:E3; destruct (calculate_spectral_cube c1 b2) as [b3 [u3'|e']] eqn:E3';
    cbn [fst snd] in *; try discriminate;
    [rewrite (bindS_Ok _ _ _ _ _ E3), (bindS_Ok _ _ _ _ _ E3')
    |rewrite (bindS_Err _ _ _ _ _ E3), (bindS_Err _ _ _ _ _ E3'); split; auto].
  assert (L : simm (sdo u4 <- convolve_spectral_cube_PSF c0; sdo u5 <- trim_downsample_spectral_cube c0;
    sdo u6 <- convolve_instrument_resolution c0; sdo u7 <- (if o_adapt (c_opt c0) then downsample_to_real_wave c0 else ret tt);
    sdo a <- getS; match a_out a with None => raise AttributeError | Some m => putS (set_model (Some (transpose m)) a) end)
   (sdo u4 <- convolve_spectral_cube_PSF c1; sdo u5 <- trim_downsample_spectral_cube c1;
    sdo u6 <- convolve_instrument_resolution c1; sdo u7 <- (if o_adapt (c_opt c1) then downsample_to_real_wave c1 else ret tt);
    sdo a <- getS; match a_out a with None => raise AttributeError | Some m => putS (set_model (Some (transpose m)) a) end)).
  { apply simm_bind; [apply sim_conv|intros _]. apply simm_bind; [apply sim_trim|intros _].
    apply simm_bind; [apply sim_inst|intros _].
    apply simm_bind; [cbn [c_opt with_eff o_adapt]; destruct (o_adapt (c_opt c)); [apply sim_down|apply simm_ret]|intros _].
    sm. fin_. }
  exact (L a3 b3 C1).
Qed.
End E.

(* an aperture model built with the option on shows the same image as one built with it off *)
Lemma eff_same_image c th st a0 : o_shift (c_opt c) = false -> setup_calcs c th = Ok a0 ->
  (exists r, eff_inst_res c (s_grid (a_su a0)) (a_stamp a0) = Ok r) ->
  match aper_new (with_eff false c) th st, aper_new (with_eff true c) th st with
  | (_, Ok a), (_, Ok b) => a_model a = a_model b
  | (_, Err e), (_, Err e') => e = e'
  | _, _ => False
  end.
Proof.
  intros Hs Es He. unfold aper_new.
  assert (E0 : setup_calcs (with_eff false c) th = Ok a0) by exact Es.
  assert (E1 : setup_calcs (with_eff true c) th = Ok a0) by exact Es.
  rewrite E0, E1.
  assert (S : sim a0 a0) by (exists (a_dvel a0), (a_idw a0); destruct a0; reflexivity).
  destruct (eff_no_effect c Hs a0 a0 S He) as [X Y].
  destruct (do_model_calcs (with_eff false c) a0) as [a [u|e]], (do_model_calcs (with_eff true c) a0) as [b [u'|e']];
    cbn [fst snd] in *; try discriminate.
  - destruct X as (v&i&->). reflexivity.
  - congruence.
Qed.

(* with both options on: fails if the smallest width is positive, otherwise no broadening *)
Lemma both_on c a d mn m : o_shift (c_opt c) = true -> o_eff (c_opt c) = true -> o_spec (c_opt c) <> Velocity ->
  a_idw a = IdwArr d -> np_min d = Ok mn -> a_out a = Some m ->
  convolve_instrument_resolution c a = (a, if fgtb mn (Fin 0) then Err ValueError else Ok tt).
Proof.
  intros Hs He Hv Hi Hm Ho. unfold convolve_instrument_resolution. ub. rewrite Hs, He. cbn [negb].
  destruct (o_spec (c_opt c)); try congruence; rewrite Hi, Hm;
  (destruct (fgtb mn (Fin 0)); [rewrite Ho|]; reflexivity).
Qed.

(* a successful evaluation with both options on has had no broadening applied *)
Lemma both_on_eval c th a0 b : o_shift (c_opt c) = true -> o_eff (c_opt c) = true -> 
  setup_calcs c th = Ok a0 -> do_model_calcs c a0 = (b, Ok tt) ->
  exists v d mn, eff_inst_res c (s_grid (a_su a0)) (a_stamp a0) = Ok (v, d) /\ np_min d = Ok mn /\ fgtb mn (Fin 0) = false.
Proof.
  intros Hs He Es Eb. destruct (setup_calcs_inv _ _ _ Es) as (w&Hreal&W&I&T).
  set (su := a_su a0) in *. set (st := a_stamp a0) in *.
  unfold do_model_calcs in Eb.
  assert (HT : update_theta c a0 = (set_prof (firstn (p_nvel (c_prof c)) (a_theta a0)) (firstn (p_ndisp (c_prof c)) (skipn (p_nvel (c_prof c)) (a_theta a0))) a0, Ok tt)) by reflexivity.
  rewrite (bindS_Ok _ _ _ _ _ HT) in Eb. clear HT. set (a1 := set_prof _ _ a0) in *.
  assert (Hi1 : inv c su w st a1) by now apply inv_prof. clearbody a1.
  destruct ((if o_adapt (c_opt c) then check_do_upsample_wave c else ret tt) a1) as [a2 [u2|e]] eqn:E2;
    [rewrite (bindS_Ok _ _ _ _ _ E2) in Eb|rewrite (bindS_Err _ _ _ _ _ E2) in Eb; discriminate].
  assert (Hi2 : inv c su w st a2).
  { revert E2. case_eq (o_adapt (c_opt c)); intros Ea E2.
    - pose proof (upsample_pres c su w st Ea a1 Hi1) as P. rewrite E2 in P. exact P.
    - injection E2 as <- <-. exact Hi1. }
  destruct (calculate_spectral_cube c a2) as [a3 [[]|e]] eqn:E3;
    [rewrite (bindS_Ok _ _ _ _ _ E3) in Eb|rewrite (bindS_Err _ _ _ _ _ E3) in Eb; discriminate].
  assert (Hi3 : inv c su w st a3) by (pose proof (calc_pres c su w st a2 Hi2) as P; rewrite E3 in P; exact P).
  pose proof (calc_cached c su w st a2 a3 Hi2 E3) as C3.
  destruct (convolve_spectral_cube_PSF c a3) as [a4 [[]|e]] eqn:E4;
    [rewrite (bindS_Ok _ _ _ _ _ E4) in Eb|rewrite (bindS_Err _ _ _ _ _ E4) in Eb; discriminate].
  assert (Hi4 : inv c su w st a4) by (pose proof (conv_pres c su w st a3 Hi3) as P; rewrite E4 in P; exact P).
  destruct (trim_downsample_spectral_cube c a4) as [a5 [[]|e]] eqn:E5;
    [rewrite (bindS_Ok _ _ _ _ _ E5) in Eb|rewrite (bindS_Err _ _ _ _ _ E5) in Eb; discriminate].
  assert (Hi5 : inv c su w st a5) by (pose proof (trim_pres c su w st a4 Hi4) as P; rewrite E5 in P; exact P).
  destruct (convolve_instrument_resolution c a5) as [a6 [[]|e]] eqn:E6;
    [|rewrite (bindS_Err _ _ _ _ _ E6) in Eb; discriminate].
  pose proof (keep_cached_conv c _ _ E4) as K4. pose proof (keep_cached_trim c _ _ E5) as K5.
  destruct Hi5 as (_&_&Hdv&_). unfold dv_ok in Hdv. rewrite Hs, He in Hdv.
  unfold cached in C3. rewrite Hs in C3.
  destruct Hdv as [[D1 D2]|[(_&v&d&D1&D2&D3&D4)|(D1&_)]]; [| |discriminate].
  - exfalso. specialize (C3 eq_refl). congruence.
  - specialize (D4 eq_refl). exists v, d.
    revert E6. unfold convolve_instrument_resolution. ub. rewrite Hs, He. cbn [negb].
    destruct (o_spec (c_opt c)); try discriminate; rewrite D4;
    (destruct (np_min d) as [mn|]; [|discriminate]; exists mn; split; [exact D1|]; split; [reflexivity|];
     destruct (fgtb mn (Fin 0)); [|reflexivity]; destruct (a_out a5); discriminate).
Qed.
