(* Proofs: two 2-D models whose light differs only by the order of the cells along the line of
   sight give the same image. *)
From Coq Require Import Reals Lra Lia List Bool Arith ZArith Permutation FunctionalExtensionality.
From Verif Require Import PyFloat PyBase Arr PyNum MParams MKernels MAper2D PKernels PAper2D PMirror.
Import ListNotations.
Local Open Scope R_scope.

Definition regrid (g : grid) (r y z I : arr3 fl) : grid :=
  mkgrid (sini g) (n_pix_y_whole g) (n_pix_y g) (n_pix_x g) (n_pix_z g) (delt_x g) (delt_y g) (delt_z g)
    (padX g) (padY g) (nX g) (nY g) (nZ g) (x_arr g) (y_arr g) (z_arr g) (gz g) (m0_fit g) (lam0_primary g) r y z I.
(* line-of-sight velocity of one cell *)
Definition vcell (P : profs) (g : grid) (v : list fl) (m j k : nat) : fl :=
  let r := at3 (r_cube g) m j k in
  fmul (fmul (p_vel P v r (at3 (zint g) m j k)) (if feqb r (Fin 0) then Fin 0 else fdiv (at3 (yint g) m j k) r)) (sini g).

Section Ren.
Variables (G G' : gal) (ins : instr) (o : opts) (P : profs) (n : nat) (ren : nat -> nat).
Hypothesis Hren : reorders n ren.
Hypothesis Hrest : g_rest G' = g_rest G.
Hypothesis Hratio : g_ratio G' = g_ratio G.
Let c := mkcfg G ins o P.
Let c' := mkcfg G' ins o P.

Definition grel (g g' : grid) : Prop :=
  nZ g = n /\ exists r y z I, g' = regrid g r y z I /\
  dim0 I = dim0 (I_wide g) /\ dim1 I = dim1 (I_wide g) /\ dim2 I = dim2 (I_wide g) /\
  forall m j k, (m < n)%nat ->
    (forall d, p_disp P d (at3 r m j k) (at3 z m j k) = p_disp P d (at3 (r_cube g) (ren m) j k) (at3 (zint g) (ren m) j k)) /\
    at3 I m j k = at3 (I_wide g) (ren m) j k.
Definition vrel (g g' : grid) (v v' : list fl) : Prop :=
  forall m j k, (m < n)%nat -> vcell P g' v' m j k = vcell P g v (ren m) j k.
Definition wrel (w w' : wv) : Prop :=
  exists I4, w' = mkwv (w_arr w) (w_n w) (w_d w) I4 (w_ref w) /\
  d0 I4 = d0 (w_I4 w) /\ d1 I4 = d1 (w_I4 w) /\ d2 I4 = d2 (w_I4 w) /\ d3 I4 = d3 (w_I4 w) /\
  (forall t m j k, (m < n)%nat -> at4 I4 t m j k = at4 (w_I4 w) t (ren m) j k) /\
  (forall t m m' j k, at4 (w_ref w) t m j k = at4 (w_ref w) t m' j k).
Definition orel (x y : option wv) : Prop :=
  match x, y with None, None => True | Some a, Some b => wrel a b | _, _ => False end.
Variable Gam : grid -> grid -> Prop.
Hypothesis HG : forall g g', Gam g g' -> grel g g'.
Definition surel (s s' : setup) : Prop :=
  exists g' sr', s' = mksetup g' (s_floor s) (s_up s) sr' /\ Gam (s_grid s) g' /\ orel (s_real s) sr'.
Definition Sim (a a' : aper) : Prop :=
  exists s' th' v' w', a' = mkaper s' th' v' (a_disp a) w' (a_dvel a) (a_idw a) (a_cube a) (a_conv a) (a_out a) (a_model a) (a_stamp a) /\
  surel (a_su a) s' /\ wrel (a_wv a) w' /\ vrel (s_grid (a_su a)) (s_grid s') (a_vel a) v'.
Definition Simr {A} (p q : aper * res A) : Prop := Sim (fst p) (fst q) /\ snd p = snd q.
Definition Simm (m m' : ST aper unit) : Prop := forall a a', Sim a a' -> Simr (m a) (m' a').

Lemma Simm_bind m m' f f' : Simm m m' -> Simm (f tt) (f' tt) -> Simm (bindS m f) (bindS m' f').
Proof.
  intros H1 H2 a b Hab. unfold bindS. destruct (H1 a b Hab) as [X Y].
  destruct (m a) as [a1 [[]|e]], (m' b) as [b1 [[]|e']]; cbn [fst snd] in *; try discriminate.
  - now apply H2.
  - injection Y as <-. split; auto.
Qed.
Lemma Simm_ret : Simm (ret tt) (ret tt). Proof. intros a b H. split; auto. Qed.
Ltac open_sim :=
  let q := fresh "q" in
  intros [[q1a q1b q1c q1d] q2 q3 q4 q5 q6 q7 q8 q9 q10 q11 q12] ? (s' & th' & v' & w' & -> & SU & W & VV);
  unfold surel in SU; cbn [a_su s_grid s_floor s_up s_real] in SU; destruct SU as (g' & sr' & -> & GG & OO);
  unfold Simr, set_theta, set_prof, set_wv, set_dvel, set_cube, set_conv, set_out, set_model;
  ub; cbn [c c' c_gal c_ins c_opt c_prof a_su a_theta a_vel a_disp a_wv a_dvel a_idw a_cube a_conv a_out a_model a_stamp fst snd s_grid s_floor s_up s_real] in *.
Ltac cl := unfold set_theta, set_prof, set_wv, set_dvel, set_cube, set_conv, set_out, set_model; cbn [a_su a_theta a_vel a_disp a_wv a_dvel a_idw a_cube a_conv a_out a_model a_stamp fst snd s_grid s_floor s_up s_real].
Ltac done_ := cl; split; [unfold Sim; cl; eexists _, _, _, _; split; [reflexivity|]; cl; split; [unfold surel; cl; eexists _, _; split; [reflexivity|]; auto|]; auto|reflexivity].

Lemma sim_check : Simm (check_do_upsample_wave c) (check_do_upsample_wave c').
Proof.
  open_sim. unfold check_do_upsample_wave. ub. cl. destruct (abs_lt_truth _ _) as [[]|]; cl; [|done_|done_].
  unfold orel in OO. destruct q1d as [re|], sr' as [re'|]; try contradiction; [|done_].
  destruct OO as (I4 & -> & O0 & O1 & O2 & O3 & O4 & O5). pose proof W as (J4 & -> & J0 & J1 & J2 & J3 & J5 & J6).
  cbn [w_arr w_n w_d w_I4 w_ref].
  assert (OO : orel (Some re) (Some (mkwv (w_arr re) (w_n re) (w_d re) I4 (w_ref re)))) by (cbn; exists I4; repeat split; auto).
  assert (WW : forall d, wrel (mkwv (w_arr q5) (w_n q5) d (w_I4 q5) (w_ref q5)) (mkwv (w_arr q5) (w_n q5) d J4 (w_ref q5))).
  { intros d. exists J4. repeat split; auto. }
  destruct (np_min _); cl; [|done_]. destruct (np_max _); cl; [|done_]. destruct (int_round _); cl; [|done_].
  destruct (_ <? 0)%Z; cl; [done_|]. pose proof (HG _ _ GG) as (Gn & r & y & z & I & -> & E0 & E1 & E2 & EE). cl.
  cbn [regrid I_wide nZ nY nX].
  split; [|reflexivity]. eexists _, _, _, _. split; [reflexivity|]. cl. split; [eexists _, _; split; [reflexivity|]; auto|]. split; [|exact VV].
  eexists. split; [reflexivity|]. cbn [w_I4 w_ref tile_I d0 d1 d2 d3 at4 repeat_wave]. repeat split; auto. intros t m j k Hm. now apply EE.
Qed.

Lemma sim_sigma : Simm (sigma_options c) (sigma_options c').
Proof.
  open_sim. unfold sigma_options. cbn [c c' c_opt]. destruct (o_abs o), (o_floor o); ub; cl; try done_;
    (destruct (abs_lt_truth _ _) as [[]|]; cl; [destruct q1b|..]; done_).
Qed.

Lemma eff_same g g' st : grel g g' -> eff_inst_res c' g' st = eff_inst_res c g st.
Proof.
  intros (Gn & r & y & z & I & -> & _ & _ & _ & EE). unfold eff_inst_res. cbn [c c' c_ins c_prof regrid nY nX nZ I_wide padX n_pix_x x_arr lam0_primary].
  replace (fun _ j k : nat => fsumn (nZ g) (fun m => at3 I m j k)) with (fun _ j k : nat => fsumn (nZ g) (fun m => at3 (I_wide g) m j k)); [reflexivity|].
  extensionality u. extensionality j. extensionality k. symmetry. rewrite Gn. apply (fsumn_ren n ren); [exact Hren|]. intros m Hm. now apply EE.
Qed.

Lemma sim_cache : Simm (shift_cache c) (shift_cache c').
Proof.
  open_sim. unfold shift_cache. cbn [c c' c_opt]. destruct (_ || _); [|done_]. ub. cl. rewrite (eff_same _ _ _ (HG _ _ GG)).
  destruct q6, q7; cl; try done_; destruct (eff_inst_res _ _ _); cl; done_.
Qed.

Definition tail_b (cc : cfg) (V : arr3 fl) (g : grid) (dsp : list fl) : ST aper unit :=
  sdo a3 <- getS;
  sdo V2 <- liftR (shift_V cc a3 V);
  sdo cube <- liftR (add_sigma_collapse_z (I_wide g) V2
      (mk3 (nZ g) (nY g) (nX g) (fun m j k => p_disp (c_prof cc) dsp (at3 (r_cube g) m j k) (at3 (zint g) m j k)))
      (w_arr (a_wv a3)) (gz g)
      (g_rest (c_gal cc)) (g_ratio (c_gal cc)) (w_n (a_wv a3)) (nZ g) (nY g) (nX g) (Fin (delt_z g))
      (w_I4 (a_wv a3)) (w_ref (a_wv a3)) (o_spec (c_opt cc)));
  modS (set_cube (Some cube)).
Definition tail_a (cc : cfg) (V : arr3 fl) (g : grid) : ST aper unit :=
  sdo a2 <- getS; sdo u2 <- shift_cache cc; tail_b cc V g (a_disp a2).
Lemma calc_pieces cc a :
  calculate_spectral_cube cc a = bindS (sigma_options cc) (fun _ => tail_a cc (V_cube cc a) (s_grid (a_su a))) a.
Proof. reflexivity. Qed.

Lemma sim_tail_b V V' g g1 d : grel g g1 -> (forall m j k, (m < n)%nat -> at3 V' m j k = at3 V (ren m) j k) ->
  Simm (tail_b c V g d) (tail_b c' V' g1 d).
Proof.
  intros K HV. open_sim. unfold tail_b. ub. cl.
  assert (HV2 : match shift_V c (mkaper (mksetup q1a q1b q1c q1d) q2 q3 q4 q5 q6 q7 q8 q9 q10 q11 q12) V,
                      shift_V c' (mkaper (mksetup g' q1b q1c sr') th' v' q4 w' q6 q7 q8 q9 q10 q11 q12) V' with
                | Ok X, Ok X' => forall m j k, (m < n)%nat -> at3 X' m j k = at3 X (ren m) j k
                | Err e, Err e' => e = e'
                | _, _ => False end).
  { unfold shift_V. cbn [c c' c_opt]. cl. destruct (HG _ _ GG) as (_ & ? & ? & ? & ? & -> & _). cbn [regrid nZ nY nX].
    destruct (o_shift o); [|exact HV]. destruct q6; [|reflexivity]. destruct (Nat.ltb _ _); [reflexivity|].
    intros m j k Hm. cbn [at3]. now rewrite HV. }
  destruct (shift_V c _ V) as [X|e], (shift_V c' _ V') as [X'|e']; try contradiction; cl; [|subst; done_].
  pose proof W as (J4 & -> & J0 & J1 & J2 & J3 & J5 & J6). cbn [w_arr w_n w_d w_I4 w_ref].
  destruct K as (Kn & r & y & z & I & -> & E0 & E1 & E2 & EE). cbn [regrid I_wide nZ nY nX r_cube zint gz delt_z c c' c_gal c_prof c_opt].
  rewrite Hrest, Hratio.
  rewrite (add_sigma_ren (I_wide g) X (mk3 (nZ g) (nY g) (nX g) (fun m j k => p_disp P d (at3 (r_cube g) m j k) (at3 (zint g) m j k))) I X'
             (mk3 (nZ g) (nY g) (nX g) (fun m j k => p_disp P d (at3 r m j k) (at3 z m j k)))
             (w_arr q5) (gz g) (g_rest G) (g_ratio G) (w_n q5) (nZ g) (nY g) (nX g) (Fin (delt_z g)) (w_I4 q5) J4 (w_ref q5) (o_spec o) ren);
    try reflexivity; try assumption; try (rewrite Kn; assumption).
  - destruct (add_sigma_collapse_z _ _ _ _ _ _ _ _ _ _ _ _ _ _ _); cl; done_.
  - intros m j k Hm. rewrite Kn in Hm. apply (EE m j k Hm).
  - intros m j k Hm. rewrite Kn in Hm. apply (EE m j k Hm).
Qed.

Lemma Sim_disp a a' : Sim a a' -> a_disp a' = a_disp a.
Proof. intros (? & ? & ? & ? & -> & _). reflexivity. Qed.
Lemma sim_calc : Simm (calculate_spectral_cube c) (calculate_spectral_cube c').
Proof.
  intros a a' H. rewrite !calc_pieces.
  assert (K : grel (s_grid (a_su a)) (s_grid (a_su a')) /\ forall m j k, (m < n)%nat -> at3 (V_cube c' a') m j k = at3 (V_cube c a) (ren m) j k).
  { destruct H as (s' & th' & v' & w' & -> & (g' & sr' & -> & GG & OO) & W & VV). split; [exact (HG _ _ GG)|]. intros m j k Hm. exact (VV m j k Hm). }
  destruct K as [K1 K2]. revert H. generalize (V_cube c a), (V_cube c' a'), (s_grid (a_su a)), (s_grid (a_su a')), K1, K2. clear K1 K2.
  intros V V' g g' K1 K2 H. refine (Simm_bind _ _ (fun _ => tail_a c V g) (fun _ => tail_a c' V' g') sim_sigma _ a a' H).
  intros b b' Hb. unfold tail_a. unfold getS at 1 2. change (fun s => (s, Ok s)) with (@getS aper).
  change (Simr (bindS (shift_cache c) (fun _ => tail_b c V g (a_disp b)) b) (bindS (shift_cache c') (fun _ => tail_b c' V' g' (a_disp b')) b')).
  rewrite (Sim_disp b b' Hb). refine (Simm_bind _ _ (fun _ => tail_b c V g (a_disp b)) (fun _ => tail_b c' V' g' (a_disp b)) sim_cache _ b b' Hb).
  now apply sim_tail_b.
Qed.

Lemma sim_conv : Simm (convolve_spectral_cube_PSF c) (convolve_spectral_cube_PSF c').
Proof.
  open_sim. unfold convolve_spectral_cube_PSF. ub. cl. destruct q8; cl; [|done_]. cbn [c c' c_ins].
  destruct (PSF_convolve _ _ _); cl; done_.
Qed.
Lemma sim_trim : Simm (trim_downsample_spectral_cube c) (trim_downsample_spectral_cube c').
Proof.
  open_sim. unfold trim_downsample_spectral_cube. ub. cbn [c c' c_ins c_opt]. cl. destruct (i_slitmask ins); cl; [done_|].
  destruct q9; cl; [|done_]. pose proof (HG _ _ GG) as (_ & ? & ? & ? & ? & -> & _). pose proof W as (? & -> & _). cbn [regrid padY padX n_pix_y n_pix_x delt_x n_pix_y_whole w_n].
  destruct (cut _ _ _). destruct (cut _ _ _). cl. destruct (o_rebin o); cl; [|done_].
  destruct (rebin2 _ _ _); cl; done_.
Qed.
Lemma sim_inst : Simm (convolve_instrument_resolution c) (convolve_instrument_resolution c').
Proof.
  open_sim. unfold convolve_instrument_resolution. cbn [c c' c_ins c_opt]. ub. cl.
  pose proof (HG _ _ GG) as (_ & ? & ? & ? & ? & -> & _). pose proof W as (? & -> & _). cbn [regrid lam0_primary w_arr].
  destruct (o_shift o), (o_spec o), (o_eff o); cbn [negb]; cl; cbn [w_arr];
    repeat (first [done_ | match goal with |- context [match ?x with _ => _ end] =>
      lazymatch x with context [match _ with _ => _ end] => fail | _ => destruct x end end; cl; cbn [w_arr]]).
Qed.
Lemma sim_down : Simm (downsample_to_real_wave c) (downsample_to_real_wave c').
Proof.
  open_sim. unfold downsample_to_real_wave. ub. cl. pose proof (HG _ _ GG) as (_ & ? & ? & ? & ? & -> & _). cbn [regrid n_pix_y_whole].
  unfold orel in OO. destruct q1d as [re|], sr' as [re'|]; try contradiction; [|destruct q10; done_].
  destruct OO as (I4 & -> & O). cbn [w_arr w_n w_d w_I4 w_ref].
  assert (OO : orel (Some re) (Some (mkwv (w_arr re) (w_n re) (w_d re) I4 (w_ref re)))) by (exists I4; split; [reflexivity|exact O]).
  destruct q10; [|done_]. destruct (rebin2 _ _ _); cl; [|done_]. split; [|reflexivity]. eexists _, _, _, _. split; [reflexivity|]. cl.
  split; [eexists _, _; split; [reflexivity|]; auto|]. split; [|exact VV]. exists I4. split; [reflexivity|exact O].
Qed.

Definition after_theta (cc : cfg) : ST aper unit :=
  sdo u1 <- (if o_adapt (c_opt cc) then check_do_upsample_wave cc else ret tt);
  sdo u2 <- calculate_spectral_cube cc;
  sdo u3 <- convolve_spectral_cube_PSF cc;
  sdo u4 <- trim_downsample_spectral_cube cc;
  sdo u5 <- convolve_instrument_resolution cc;
  sdo u6 <- (if o_adapt (c_opt cc) then downsample_to_real_wave cc else ret tt);
  sdo a <- getS;
  match a_out a with
  | None => raise AttributeError
  | Some m => putS (set_model (Some (transpose m)) a)
  end.
Lemma sim_after : Simm (after_theta c) (after_theta c').
Proof.
  unfold after_theta. cbn [c c' c_opt].
  repeat (apply Simm_bind; [first [exact sim_calc | exact sim_conv | exact sim_trim | exact sim_inst
    | destruct (o_adapt o); [first [exact sim_check | exact sim_down] | exact Simm_ret]]|]).
  open_sim. destruct q10; cl; done_.
Qed.
Lemma sim_do a a' :
  Sim (fst (update_theta c a)) (fst (update_theta c' a')) -> Simr (do_model_calcs c a) (do_model_calcs c' a').
Proof. intros H. exact (sim_after _ _ H). Qed.

(* over whole runs: the first part of the parameter vector may differ *)
Definition Pre (a a' : aper) : Prop :=
  exists s' th' v' w', a' = mkaper s' th' v' (a_disp a) w' (a_dvel a) (a_idw a) (a_cube a) (a_conv a) (a_out a) (a_model a) (a_stamp a) /\
  surel (a_su a) s' /\ wrel (a_wv a) w'.
Definition Prer {A} (p q : aper * res A) : Prop := Pre (fst p) (fst q) /\ snd p = snd q.
Lemma Simr_Prer {A} (p q : aper * res A) : Simr p q -> Prer p q.
Proof. intros [(s' & th' & v' & w' & E & S & W & _) Y]. split; [|exact Y]. exists s', th', v', w'. auto. Qed.
Variable Th : list fl -> list fl -> Prop.
Hypothesis HT : forall th th', Th th th' -> firstn (p_ndisp P) (skipn (p_nvel P) th') = firstn (p_ndisp P) (skipn (p_nvel P) th).
Hypothesis HV : forall g g' th th', Gam g g' -> Th th th' -> vrel g g' (firstn (p_nvel P) th) (firstn (p_nvel P) th').
Lemma pre_do a a' : Pre a a' -> Th (a_theta a) (a_theta a') -> Prer (do_model_calcs c a) (do_model_calcs c' a').
Proof.
  intros (s' & th' & v' & w' & -> & (g' & sr' & -> & GG & OO) & W) T. cbn [a_theta] in T. apply Simr_Prer, sim_do.
  unfold update_theta, modS. cbn [fst c c' c_prof]. cl.
  eexists _, _, _, _. split; [cl; rewrite (HT _ _ T); reflexivity|]. cl. split; [eexists _, _; split; [reflexivity|]; auto|]. split; [exact W|]. now apply HV.
Qed.
Lemma pre_update a a' th th' : Pre a a' -> Th th th' -> Prer (aper_update c th a) (aper_update c' th' a').
Proof.
  intros (s' & t1 & v' & w' & -> & S & W) T.
  change (Prer (do_model_calcs c (set_theta th a)) (do_model_calcs c' (set_theta th' (mkaper s' t1 v' (a_disp a) w' (a_dvel a) (a_idw a) (a_cube a) (a_conv a) (a_out a) (a_model a) (a_stamp a))))).
  apply pre_do; [|exact T]. unfold Pre. cl. eexists _, _, _, _. split; [reflexivity|]. auto.
Qed.

(* construction *)
Hypothesis HS : forall th th', Th th th' ->
  match setup_calcs c th, setup_calcs c' th' with Ok a, Ok a' => Pre a a' /\ a_theta a = th /\ a_theta a' = th' | Err e, Err e' => e = e' | _, _ => False end.
Lemma pre_new th th' st : Th th th' ->
  fst (aper_new c th st) = fst (aper_new c' th' st) /\
  match snd (aper_new c th st), snd (aper_new c' th' st) with Ok a, Ok a' => Pre a a' | Err e, Err e' => e = e' | _, _ => False end.
Proof.
  intros T. specialize (HS th th' T). unfold aper_new. destruct (setup_calcs c th) as [a|e], (setup_calcs c' th') as [a'|e']; try contradiction; [|subst; split; reflexivity].
  destruct HS as (H & E1 & E2). rewrite <- E1, <- E2 in T. destruct (pre_do a a' H T) as [X Y].
  destruct (do_model_calcs c a) as [b [[]|e]], (do_model_calcs c' a') as [b' [[]|e']]; cbn [fst snd] in *; try discriminate.
  - split; [|exact X]. destruct X as (? & ? & ? & ? & -> & _). reflexivity.
  - injection Y as <-. split; [|reflexivity]. destruct X as (? & ? & ? & ? & -> & _). reflexivity.
Qed.

(* the fit *)
Hypothesis Hdata : g_data G' = g_data G.
Definition krel (k k' : kinmodel) : Prop :=
  k_vary k' = k_vary k /\ k_noscale k' = k_noscale k /\ k_model k' = k_model k /\ k_stamp k' = k_stamp k /\
  match k_aper k, k_aper k' with None, None => True | Some a, Some a' => Pre a a' | _, _ => False end /\
  Th (k_theta k) (k_theta k').
Definition krelr {A} (p q : kinmodel * res A) : Prop := krel (fst p) (fst q) /\ snd p = snd q.
Lemma store_rel k k' a a' : krel k k' -> Pre a a' -> krelr (store_model c k a) (store_model c' k' a').
Proof.
  intros (E1 & E2 & E3 & E4 & E5 & E6) (? & ? & ? & ? & -> & _). unfold store_model. cbn [a_model c c' c_gal]. rewrite E1, E2, E4, Hdata.
  destruct (a_model a); [|split; [repeat split; assumption|reflexivity]].
  destruct (k_noscale k); [|destruct (scale_model _ _)]; (split; [|reflexivity]); repeat split; assumption.
Qed.
Lemma update_aper_rel k k' : krel k k' -> krelr (km_update_aper c k) (km_update_aper c' k').
Proof.
  intros H. pose proof H as (E1 & E2 & E3 & E4 & E5 & E6). unfold km_update_aper.
  destruct (k_aper k) as [a|], (k_aper k') as [a'|]; try contradiction; [|split; [exact H|reflexivity]].
  destruct (pre_update a a' _ _ E5 E6) as [X Y].
  destruct (aper_update c _ a) as [b [[]|e]], (aper_update c' _ a') as [b' [[]|e']]; cbn [fst snd] in X, Y; try discriminate.
  - apply store_rel; [|exact X]. repeat split; cbn; auto. destruct X as (? & ? & ? & ? & -> & _). reflexivity.
  - injection Y as <-. split; [|reflexivity]. repeat split; cbn; auto. destruct X as (? & ? & ? & ? & -> & _). reflexivity.
Qed.
(* [tf], [tf'] assign related parameter vectors *)
Definition steps (k : kinmodel) (tf tf' : list fl) : Prop :=
  length tf' = length tf /\ forall th th', Th th th' ->
    snd (update_parameters th (k_vary k) tf) = snd (update_parameters th' (k_vary k) tf') /\
    Th (fst (update_parameters th (k_vary k) tf)) (fst (update_parameters th' (k_vary k) tf')).
Lemma km_update_rel k k' tf tf' : krel k k' -> steps k tf tf' -> krelr (km_update c tf k) (km_update c' tf' k').
Proof.
  intros H [L S]. pose proof H as (E1 & E2 & E3 & E4 & E5 & E6). unfold km_update. rewrite L, E1.
  destruct (negb _); [split; [exact H|reflexivity]|]. destruct (S _ _ E6) as [S1 S2].
  destruct (update_parameters (k_theta k) _ _) as [t r], (update_parameters (k_theta k') _ _) as [t' r']. cbn [fst snd] in S1, S2. subst r'.
  destruct r as [[]|e]; [apply update_aper_rel|split; [|reflexivity]]; repeat split; cbn; auto.
Qed.
Lemma km_make_rel k k' tf tf' : krel k k' -> steps k tf tf' -> krelr (km_make c tf k) (km_make c' tf' k').
Proof.
  intros H [L S]. pose proof H as (E1 & E2 & E3 & E4 & E5 & E6). unfold km_make. rewrite L, E1.
  destruct (negb _); [split; [exact H|reflexivity]|]. destruct (S _ _ E6) as [S1 S2].
  destruct (update_parameters (k_theta k) _ _) as [t r], (update_parameters (k_theta k') _ _) as [t' r']. cbn [fst snd] in S1, S2. subst r'.
  destruct r as [[]|e]; [|split; [|reflexivity]; repeat split; cbn; auto]. cbn [k_aper k_stamp]. rewrite E2, E3, E4.
  destruct (k_aper k) as [a|] eqn:Ka, (k_aper k') as [a'|] eqn:Ka'; try contradiction.
  - apply update_aper_rel. repeat split; cbn; auto.
  - destruct (pre_new t t' (k_stamp k) S2) as [X Y].
    destruct (aper_new c t _) as [st [a|e]], (aper_new c' t' _) as [st' [a'|e']]; cbn [fst snd] in X, Y; try contradiction; subst st'.
    + apply store_rel; [|exact Y]. repeat split; cbn; auto.
    + subst e'. split; [|reflexivity]. repeat split; cbn; auto.
Qed.
Lemma km_llike_rel k k' tf tf' : krel k k' -> steps k tf tf' -> krelr (km_llike c k tf) (km_llike c' k' tf').
Proof.
  intros H S. unfold km_llike. destruct (km_update_rel k k' tf tf' H S) as [X Y].
  destruct (km_update c tf k) as [b [[]|e]], (km_update c' tf' k') as [b' [[]|e']]; cbn [fst snd] in X, Y; try discriminate.
  - pose proof X as (_ & _ & E & _). rewrite E. cbn [c c' c_gal]. rewrite Hdata. destruct (k_model b); split; auto.
  - injection Y as <-. split; auto.
Qed.
End Ren.
