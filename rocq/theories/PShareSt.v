(* The stamp held by the shared instrument: where evaluation reads it. *)
From Coq Require Import String Reals Lra List Bool Arith ZArith Lia.
From Verif Require Import PyFloat PyBase Arr PyNum MParams MKernels MAper2D MShare SParams SAper2D PParams PAper2D.
Import ListNotations.
Local Open Scope R_scope.

(** [f] does not read the stamp and does not write it. *)
Definition blind {A} (f : ST aper A) : Prop := forall st a, f (set_stamp st a) = (set_stamp st (fst (f a)), snd (f a)).

Lemma blind_bind {A B} (f : ST aper A) (g : A -> ST aper B) : blind f -> (forall x, blind (g x)) -> blind (bindS f g).
Proof.
  intros F G st a. unfold bindS. rewrite F. destruct (f a) as [b [x|e]]; cbn [fst snd]; [|reflexivity]. apply G.
Qed.
Lemma blind_ret {A} (x : A) : blind (ret x). Proof. intros st a. reflexivity. Qed.
Lemma blind_raise {A} e : blind (@raise aper A e). Proof. intros st a. reflexivity. Qed.
Lemma blind_lift {A} (r : res A) : blind (liftR r). Proof. intros st a. destruct r; reflexivity. Qed.
Lemma blind_update c : blind (update_theta c). Proof. intros st a. reflexivity. Qed.

Lemma blind_upsample c : blind (check_do_upsample_wave c).
Proof.
  intros st a. unfold check_do_upsample_wave. ub. cbn [set_stamp a_disp a_su a_wv].
  destruct (abs_lt_truth _ _) as [[|]|]; [|reflexivity|reflexivity].
  destruct (s_real _) as [re|]; [|reflexivity].
  destruct (np_min _); [|reflexivity]. destruct (np_max _); [|reflexivity].
  destruct (int_round _); [|reflexivity]. destruct (_ <? 0)%Z; reflexivity.
Qed.

Lemma blind_sigma c : blind (sigma_options c).
Proof.
  intros st a. unfold sigma_options. ub. destruct (o_abs (c_opt c)), (o_floor (c_opt c)); try reflexivity.
  - cbn [set_prof set_stamp a_disp a_su a_vel]. destruct (abs_lt_truth _ _) as [[|]|]; [|reflexivity|reflexivity].
    destruct (s_floor _); reflexivity.
  - cbn [set_prof set_stamp a_disp a_su a_vel]. destruct (abs_lt_truth _ _) as [[|]|]; [|reflexivity|reflexivity].
    destruct (s_floor _); reflexivity.
Qed.

(** Without a PSF, or without the options that model the slit, the offsets do not depend on the stamp. *)
Definition unread (c : cfg) : Prop := i_fwhm (c_ins c) <= 0 \/ o_shift (c_opt c) || o_eff (c_opt c) = false.

Lemma eff_unread c g st st' : i_fwhm (c_ins c) <= 0 -> eff_inst_res c g st = eff_inst_res c g st'.
Proof.
  intros H. unfold eff_inst_res, PSF_convolve, fgtb, fltb. replace (Rltb 0 (i_fwhm (c_ins c))) with false; [reflexivity|].
  symmetry. apply Rltb_false. lra.
Qed.

Lemma blind_cache c : unread c -> blind (shift_cache c).
Proof.
  intros H st a. unfold shift_cache. ub. destruct (o_shift (c_opt c) || o_eff (c_opt c)) eqn:E; [|reflexivity].
  destruct H as [H|H]; [|congruence].
  cbn [set_stamp a_dvel a_idw a_su a_stamp]. rewrite (eff_unread c _ st (a_stamp a) H).
  destruct (a_dvel a); destruct (a_idw a); try reflexivity; destruct (eff_inst_res _ _ _) as [[v d]|]; reflexivity.
Qed.

Lemma blind_cube c : unread c -> blind (calculate_spectral_cube c).
Proof.
  intros H st a. unfold calculate_spectral_cube. unfold bindS, getS, liftR. cbv beta iota zeta.
  change (V_cube c (set_stamp st a)) with (V_cube c a). change (a_su (set_stamp st a)) with (a_su a).
  rewrite (blind_sigma c st a). destruct (sigma_options c a) as [b [u|e]]; cbn [fst snd]; [|reflexivity].
  rewrite (blind_cache c H st b).
  change (a_disp (set_stamp st b)) with (a_disp b).
  destruct (shift_cache c b) as [b2 [u2|e]]; cbn [fst snd]; [|reflexivity].
  change (shift_V c (set_stamp st b2) (V_cube c a)) with (shift_V c b2 (V_cube c a)).
  destruct (shift_V c b2 (V_cube c a)) as [V|e]; cbn [fst snd]; [|reflexivity].
  change (a_wv (set_stamp st b2)) with (a_wv b2).
  destruct (add_sigma_collapse_z _ _ _ _ _ _ _ _ _ _ _ _ _ _ _) as [cu|e]; cbn [fst snd]; reflexivity.
Qed.

Lemma blind_trim c : blind (trim_downsample_spectral_cube c).
Proof.
  intros st a. unfold trim_downsample_spectral_cube. ub. destruct (i_slitmask (c_ins c)); [reflexivity|].
  cbn [set_stamp a_conv a_su a_wv]. destruct (a_conv a) as [cv|]; [|reflexivity].
  destruct (cut _ _ _) as [y0 ny]. destruct (cut (dim2 cv) _ _) as [x0 nx].
  destruct (o_rebin (c_opt c)); [|reflexivity]. destruct (rebin2 _ _ _); reflexivity.
Qed.

Lemma blind_instres c : blind (convolve_instrument_resolution c).
Proof.
  intros st a. unfold convolve_instrument_resolution. ub. destruct (o_shift (c_opt c)).
  - destruct (o_spec (c_opt c)); try reflexivity; destruct (o_eff (c_opt c)); cbn [negb set_stamp set_dvel a_idw a_su a_out a_wv a_dvel];
    repeat (match goal with |- context [match ?x with _ => _ end] => lazymatch x with context [match _ with _ => _ end] => fail | _ => destruct x end end; try reflexivity).
  - cbn [set_stamp set_dvel a_idw a_su a_out a_wv a_dvel].
    repeat (match goal with |- context [match ?x with _ => _ end] => lazymatch x with context [match _ with _ => _ end] => fail | _ => destruct x end end; try reflexivity).
Qed.

Lemma blind_down c : blind (downsample_to_real_wave c).
Proof.
  intros st a. unfold downsample_to_real_wave. ub. cbn [set_stamp a_su a_out].
  destruct (s_real _); [|reflexivity]. destruct (a_out a); [|reflexivity]. destruct (rebin2 _ _ _); reflexivity.
Qed.

Lemma blind_conv c : i_fwhm (c_ins c) <= 0 -> blind (convolve_spectral_cube_PSF c).
Proof.
  intros H st a. unfold convolve_spectral_cube_PSF. ub. cbn [set_stamp a_cube a_stamp]. destruct (a_cube a); [|reflexivity].
  unfold PSF_convolve, fgtb, fltb. replace (Rltb 0 (i_fwhm (c_ins c))) with false; [reflexivity|]. symmetry. apply Rltb_false. lra.
Qed.

Lemma blind_last : blind (sdo a <- getS; match a_out a with None => raise AttributeError | Some m => putS (set_model (Some (transpose m)) a) end).
Proof. intros st a. ub. cbn [set_stamp a_out]. destruct (a_out a); reflexivity. Qed.

(** Without a PSF the stamp is never read. *)
Lemma blind_calcs c : i_fwhm (c_ins c) <= 0 -> blind (do_model_calcs c).
Proof.
  intros H. unfold do_model_calcs. apply blind_bind; [apply blind_update|intros _].
  apply blind_bind; [destruct (o_adapt (c_opt c)); [apply blind_upsample|apply blind_ret]|intros _].
  apply blind_bind; [apply blind_cube; now left|intros _].
  apply blind_bind; [apply blind_conv; exact H|intros _].
  apply blind_bind; [apply blind_trim|intros _].
  apply blind_bind; [apply blind_instres|intros _].
  apply blind_bind; [destruct (o_adapt (c_opt c)); [apply blind_down|apply blind_ret]|intros _].
  apply blind_last.
Qed.

Lemma blind_aper_update c th : i_fwhm (c_ins c) <= 0 -> blind (aper_update c th).
Proof. intros H. unfold aper_update. apply blind_bind; [intros st a; reflexivity|intros _]. apply blind_calcs; exact H. Qed.

(** With a stamp that has no samples every evaluation that would have succeeded fails. *)
Lemma empty_stamp_fails c ker a b : 0 < i_fwhm (c_ins c) -> o_shift (c_opt c) || o_eff (c_opt c) = false -> size3 ker = 0%nat ->
  do_model_calcs c a = (b, Ok tt) -> snd (do_model_calcs c (set_stamp (Stamp3 ker) a)) = Err IndexError.
Proof.
  intros Hf Ho Hk E. unfold do_model_calcs in *. unfold bindS at 1 in E. unfold bindS at 1. rewrite (blind_update c).
  destruct (update_theta c a) as [a1 [u1|e]]; [|discriminate]. cbn [fst snd].
  unfold bindS at 1 in E. unfold bindS at 1.
  assert (B2 : blind (if o_adapt (c_opt c) then check_do_upsample_wave c else ret tt)) by (destruct (o_adapt (c_opt c)); [apply blind_upsample|apply blind_ret]).
  rewrite B2. destruct ((if o_adapt (c_opt c) then check_do_upsample_wave c else ret tt) a1) as [a2 [u2|e]]; [|discriminate]. cbn [fst snd].
  unfold bindS at 1 in E. unfold bindS at 1. rewrite (blind_cube c (or_intror Ho)).
  destruct (calculate_spectral_cube c a2) as [a3 [u3|e]]; [|discriminate]. cbn [fst snd].
  unfold bindS at 1 in E. unfold bindS at 1.
  destruct (convolve_spectral_cube_PSF c a3) as [a4 [u4|e]] eqn:E4; [|discriminate].
  unfold bindS at 1 in E. unfold bindS at 1.
  unfold convolve_spectral_cube_PSF in E4 |- *. unfold bindS, getS in E4 |- *. cbn [set_stamp a_cube a_stamp].
  destruct (a_cube a3) as [cube|]; [|discriminate].
  unfold PSF_convolve, fgtb, fltb. rewrite (proj2 (Rltb_true 0 (i_fwhm (c_ins c))) Hf). rewrite Hk.
  replace (Nat.eqb (size3 cube) 0 || Nat.eqb 0 0)%bool with true by (destruct (Nat.eqb (size3 cube) 0); reflexivity).
  unfold liftR, putS. unfold trim_downsample_spectral_cube in E |- *. unfold bindS, getS in E |- *.
  destruct (i_slitmask (c_ins c)); [discriminate|]. reflexivity.
Qed.
