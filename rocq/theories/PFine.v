From Coq Require Import Reals Lra List Bool Arith ZArith Lia.
From Verif Require Import PyFloat PyBase Arr PyNum MParams MKernels MAper2D SParams SKernels SAper2D SAper1D SLine SLos SReach SFinite SFine PParams PMask PAper2D PAper2DHist PAper2DGrid PAper2DShape PAper2DOk PAper2DVal PAper2DGeo PKernels PKernels2 PLine PLos PLos3.
Import ListNotations.
Local Open Scope R_scope.

Record sim (a b : aper) : Prop := mksim
  { m_grid : s_grid (a_su a) = s_grid (a_su b); m_vel : a_vel a = a_vel b; m_disp : a_disp a = a_disp b;
    m_arr : w_arr (a_wv a) = w_arr (a_wv b); m_n : w_n (a_wv a) = w_n (a_wv b); m_I4 : w_I4 (a_wv a) = w_I4 (a_wv b); m_ref : w_ref (a_wv a) = w_ref (a_wv b);
    m_dvel : a_dvel a = a_dvel b; m_idw : a_idw a = a_idw b; m_cube : a_cube a = a_cube b; m_conv : a_conv a = a_conv b; m_out : a_out a = a_out b; m_stamp : a_stamp a = a_stamp b }.

Definition same {A} (m m' : ST aper A) : Prop := forall a b, sim a b -> sim (fst (m a)) (fst (m' b)) /\ snd (m a) = snd (m' b).

Lemma same_bind {A B} (m m' : ST aper A) (k k' : A -> ST aper B) : same m m' -> (forall x, same (k x) (k' x)) -> same (bindS m k) (bindS m' k').
Proof.
  intros H K a b S. destruct (H a b S) as (S1 & E). unfold bindS. destruct (m a) as [a1 [x|e]], (m' b) as [b1 [y|e']]; cbn [fst snd] in *; try discriminate E.
  - injection E as ->. now apply K.
  - injection E as ->. now split.
Qed.
Lemma same_ret {A} (x : A) : same (ret x) (ret x).
Proof. intros a b S. now split. Qed.

Ltac brk := match goal with S : sim ?a ?b |- _ => destruct a as [[g fl0 up re] t v d [wa wn wd wi wr] dv iw cu cvv ou mo sp], b as [[g' fl0' up' re'] t' v' d' [wa' wn' wd' wi' wr'] dv' iw' cu' cvv' ou' mo' sp'];
  destruct S as [S1 S2 S3 S4 S5 S6 S7 S8 S9 S10 S11 S12 S13]; cbn [a_su a_wv a_vel a_disp a_dvel a_idw a_cube a_conv a_out a_stamp s_grid w_arr w_n w_I4 w_ref] in *; subst end.

Section Fine.
Variables (c : cfg) (l' : list R).
Let c' := on_grid l' c.

Lemma sim_conv : same (convolve_spectral_cube_PSF c) (convolve_spectral_cube_PSF c').
Proof.
  intros a b S. brk. unfold convolve_spectral_cube_PSF. ub. cbn [a_cube a_stamp]. change (c_ins c') with (c_ins c). destruct cu' as [cu|]; [|split; [now split|reflexivity]].
  destruct (PSF_convolve _ _ _) as [r|e]; cbn [fst snd]; (split; [now split|reflexivity]).
Qed.
Lemma sim_trim : same (trim_downsample_spectral_cube c) (trim_downsample_spectral_cube c').
Proof.
  intros a b S. brk. unfold trim_downsample_spectral_cube. ub. change (c_ins c') with (c_ins c). change (o_rebin (c_opt c')) with (o_rebin (c_opt c)). cbn [a_conv a_su s_grid].
  destruct (i_slitmask (c_ins c)); [split; [now split|reflexivity]|]. destruct cvv' as [cv|]; [|split; [now split|reflexivity]].
  destruct (cut _ _ _) as [y0 ny]. destruct (cut _ _ _) as [x0 nx]. destruct (o_rebin (c_opt c)); [|split; [now split|reflexivity]]. cbn [a_wv w_n set_out set_conv].
  destruct (rebin2 _ _ _) as [r|e]; cbn [fst snd]; (split; [now split|reflexivity]).
Qed.
Lemma sim_inst : same (convolve_instrument_resolution c) (convolve_instrument_resolution c').
Proof.
  intros a b S. brk. unfold convolve_instrument_resolution. ub. change (c_ins c') with (c_ins c). change (o_shift (c_opt c')) with (o_shift (c_opt c)). change (o_spec (c_opt c')) with (o_spec (c_opt c)). change (o_eff (c_opt c')) with (o_eff (c_opt c)).
  cbn [a_su s_grid a_idw a_dvel a_out a_wv w_arr set_dvel].
  destruct (o_shift (c_opt c)).
  - destruct (o_spec (c_opt c)); try (split; [now split|reflexivity]); destruct (negb (o_eff (c_opt c))); cbn [a_idw set_dvel a_out a_wv w_arr]; try destruct iw'; cbn [fst snd]; try (split; [now split|reflexivity]);
     try destruct (np_min _); cbn [fst snd a_out set_dvel a_wv w_arr a_idw]; try (split; [now split|reflexivity]); destruct (fgtb _ _); cbn [fst snd]; try (split; [now split|reflexivity]); destruct ou' as [m|]; cbn [fst snd]; try (split; [now split|reflexivity]);
     destruct (inst_convol_complete _ _ _); cbn [fst snd]; (split; [now split|reflexivity]).
  - destruct (fgtb _ _); cbn [fst snd]; [|split; [now split|reflexivity]]. cbn [a_out set_dvel a_wv w_arr a_idw]. destruct ou' as [m|]; cbn [fst snd]; try (split; [now split|reflexivity]).
     destruct (inst_convol_complete _ _ _); cbn [fst snd]; (split; [now split|reflexivity]).
Qed.
Lemma sim_cache : same (shift_cache c) (shift_cache c').
Proof.
  intros a b S. brk. unfold shift_cache. change (o_shift (c_opt c')) with (o_shift (c_opt c)). change (o_eff (c_opt c')) with (o_eff (c_opt c)). destruct (o_shift (c_opt c) || o_eff (c_opt c))%bool; [|split; [now split|reflexivity]].
  ub. cbn [a_dvel a_idw a_su s_grid a_stamp]. change (eff_inst_res c') with (eff_inst_res c).
  destruct dv'; [destruct iw'|]; try (split; [now split|reflexivity]); destruct (eff_inst_res _ _ _); cbn [fst snd]; (split; [now split|reflexivity]).
Qed.
Lemma sim_sigma a b : sim a b -> (o_floor (c_opt c) = true -> abs_lt_truth (if o_abs (c_opt c) then map fabs (a_disp a) else a_disp a) (s_floor (a_su a)) = Ok false) ->
  sim (fst (sigma_options c a)) (fst (sigma_options c' b)) /\ snd (sigma_options c a) = snd (sigma_options c' b).
Proof.
  intros S F. brk. unfold sigma_options. ub. change (o_abs (c_opt c')) with (o_abs (c_opt c)). change (o_floor (c_opt c')) with false. cbv iota.
  destruct (o_abs (c_opt c)); (destruct (o_floor (c_opt c)); [specialize (F eq_refl)|clear F]); cbn [fst snd a_disp a_su s_floor set_prof a_vel a_theta] in *; try rewrite F; cbn [fst snd]; (split; [now split|reflexivity]).
Qed.
Lemma sim_calc a b : sim a b -> (o_floor (c_opt c) = true -> abs_lt_truth (if o_abs (c_opt c) then map fabs (a_disp a) else a_disp a) (s_floor (a_su a)) = Ok false) ->
  sim (fst (calculate_spectral_cube c a)) (fst (calculate_spectral_cube c' b)) /\ snd (calculate_spectral_cube c a) = snd (calculate_spectral_cube c' b).
Proof.
  intros S F. assert (EV : V_cube c a = V_cube c' b) by (unfold V_cube; now rewrite (m_grid _ _ S), (m_vel _ _ S)).
  rewrite !calc_unfold, <- EV, <- (m_grid _ _ S). generalize (V_cube c a) as V, (s_grid (a_su a)) as G. intros V G. clear EV. unfold calc_tail.
  destruct (sim_sigma a b S F) as (S1 & E1). unfold bindS. destruct (sigma_options c a) as [a1 [u1|e1]], (sigma_options c' b) as [b1 [u1'|e1']]; cbn [fst snd] in *; try discriminate E1; [|injection E1 as ->; now split].
  clear S F E1. unfold calc_tail2. rewrite <- (m_disp _ _ S1). apply same_bind; [exact sim_cache| |exact S1]. intros _. clear S1. generalize (a_disp a1) as dsp. intros dsp. clear a1 b1 u1 u1' a b. intros a b S. brk. unfold calc_tail3. ub. unfold shift_V.
  change (o_shift (c_opt c')) with (o_shift (c_opt c)). cbn [a_dvel a_su s_grid a_wv w_arr w_n w_I4 w_ref]. change (c_prof c') with (c_prof c). change (g_rest (c_gal c')) with (g_rest (c_gal c)). change (g_ratio (c_gal c')) with (g_ratio (c_gal c)). change (o_spec (c_opt c')) with (o_spec (c_opt c)).
  destruct (if o_shift (c_opt c) then _ else _) as [V2|e]; [|split; [now split|reflexivity]]. destruct (add_sigma_collapse_z _ _ _ _ _ _ _ _ _ _ _ _ _ _ _) as [cu|e]; (split; [now split|reflexivity]).
Qed.

(* all stages up to the undoing of the up-sampling *)
Definition stages (c : cfg) : ST aper unit :=
  sdo u2 <- calculate_spectral_cube c; sdo u3 <- convolve_spectral_cube_PSF c; sdo u4 <- trim_downsample_spectral_cube c; convolve_instrument_resolution c.
Lemma sim_stages a b : sim a b -> (o_floor (c_opt c) = true -> abs_lt_truth (if o_abs (c_opt c) then map fabs (a_disp a) else a_disp a) (s_floor (a_su a)) = Ok false) ->
  sim (fst (stages c a)) (fst (stages c' b)) /\ snd (stages c a) = snd (stages c' b).
Proof.
  intros S F. unfold stages. destruct (sim_calc a b S F) as (S1 & E1).
  assert (K : forall u : unit, same (sdo u3 <- convolve_spectral_cube_PSF c; sdo u4 <- trim_downsample_spectral_cube c; convolve_instrument_resolution c) (sdo u3 <- convolve_spectral_cube_PSF c'; sdo u4 <- trim_downsample_spectral_cube c'; convolve_instrument_resolution c')).
  { intros _. apply same_bind; [exact sim_conv|]. intros _. apply same_bind; [exact sim_trim|]. intros _. exact sim_inst. }
  unfold bindS at 1 4 7 10. destruct (calculate_spectral_cube c a) as [a1 [u1|e1]], (calculate_spectral_cube c' b) as [b1 [u1'|e1']]; cbn [fst snd] in *; try discriminate E1; [|injection E1 as ->; now split]. now apply (K tt).
Qed.
End Fine.
