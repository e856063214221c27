(* Further concrete configurations meeting the hypotheses of the theorems. *)
From Coq Require Import Reals Lra List Bool Arith ZArith Lia.
From Verif Require Import PyFloat PyBase Arr PyNum MParams MKernels MAper2D MCube3D SParams SKernels SAper2D PParams PAper2D PAper2DHist PAper2DGrid PAper2DShape PAper2DOk PAper2DVal PAper2DGeo PAper2DEx PKernels PKernels2.
Import ListNotations.
Local Open Scope R_scope.

(* dispersion free, offset and redshift fixed *)
Definition w_kf : kinmodel := mkkm (w_th 0) [true; false; false] true None None NoStamp.
Lemma w_history : exists k, offsets_fixed w_kf /\ fresh w_kf /\ history w_cfg w_kf k.
Proof.
  destruct (make_ok w_cfg w_kf [Fin 0] (w_th 0) [1; 2]) as (k'&m&E&_); try reflexivity.
  - apply w_posed.
  - left. reflexivity.
  - exists k'. split; [|split; [reflexivity|now apply (h_start _ _ [Fin 0])]].
    split; [reflexivity|]. split; [cbn; lia|]. cbn. intros i Hi. destruct i as [|[|[|[|i]]]]; cbn; try lia; discriminate.
Qed.

(* adaptive up-sampling by 3 *)
Definition w_up : cfg := mkcfg w_gal w_ins (mkopts 1 0 true false false 0 Wave false true 3 false) w_prof.
Lemma w_up_posed z : well_posed w_up (w_th z) [1; 2].
Proof.
  unfold well_posed. cbn. repeat split; try lia; try lra; try discriminate; auto; [apply incr12|].
  intros _. exists 3%nat. split; [lia|cbn; lra].
Qed.
Lemma w_up_triggers : exists a0, setup_calcs w_up (w_th 0) = Ok a0 /\
  g_wave (c_gal w_up) = uniform 1 1 2 /\ o_factor (c_opt w_up) = INR 3 /\
  abs_lt_truth [Fin 0] (s_up (a_su a0)) = Ok true.
Proof.
  destruct (setup_ok _ _ _ (w_up_posed 0)) as (g&w&Hg).
  destruct (setup_fields _ _ _ _ Hg) as (F1&F2&F3&F4&F5&F6&F7&F8&F9&F10&F11&F12&F13&F14&F15&F16&F17&F18&F19&F20&F21&F22&F23).
  destruct (setup_cubes _ _ _ _ Hg) as (_&Q&_).
  unfold setup_calcs. rewrite Hg. unfold bind. eexists. split; [reflexivity|].
  split; [unfold uniform; cbn; repeat f_equal; lra|]. split; [cbn; lra|].
  cbn [a_su s_up]. unfold thresholds. cbn [c_opt w_up o_floor o_adapt o_spec andb negb snd].
  assert (L : lam0_primary g = Fin 1).
  { clear - Hg. unfold setup_model_grid in Hg. cbn [c_opt w_up o_nsub Nat.eqb] in Hg.
    destruct (Nat.eqb (slit_npix _ _ _) 0); [discriminate|]. cbn [o_spec] in Hg. cbv beta iota zeta in Hg.
    change (getz (w_th 0) (-1)) with (@Ok fl (Fin 0)) in Hg. change (getz (w_th 0) (-2)) with (@Ok fl (Fin 0)) in Hg.
    cbn [bind] in Hg. change (getn (g_rest (c_gal w_up)) 0) with (@Ok fl (Fin 1)) in Hg. cbn [bind] in Hg.
    injection Hg as <- _. cbn [lam0_primary fmul fadd]. f_equal. lra. }
  rewrite L, F23. cbn [w_d]. change (g_wave (c_gal w_up)) with (map Fin [1; 2]). rewrite avg_step. cbn [last length INR].
  unfold fdiv. destruct (Reqb 1 0) eqn:E1; [apply Reqb_true in E1; lra|]. cbn [fmul].
  destruct (Reqb (235/100) 0) eqn:E2; [apply Reqb_true in E2; lra|]. cbn [abs_lt_truth fabs fltb].
  rewrite Rabs_R0. pose proof c_kms_pos. destruct (Rltb 0 _) eqn:E3; [reflexivity|]. apply Rltb_false in E3. exfalso.
  assert (0 < (2 - 1) / 1 / 1 * c_kms / (235 / 100)); [|lra].
  apply Rdiv_lt_0_compat; [|lra]. apply Rmult_lt_0_compat; lra.
Qed.

(* two rows, two sub-pixels *)
Definition w_data2 : data2 := mkdata (fin2 2 2 (fun _ _ => 1)) (fin2 2 2 (fun _ _ => 1)) (fin2 2 2 (fun _ _ => 1)) (fin2 2 2 (fun _ _ => 1)) [0%nat; 1%nat].
Definition w_cfg2 : cfg := mkcfg (mkgal (Fin 1) (Fin 0) (Fin 0) 2 (map Fin [1; 2]) (Fin 0) [Fin 1] [Fin 1] w_data2) w_ins (mkopts 2 0 true false false 0 Wave false false 1 false) w_prof.
Lemma w_cfg2_posed z : well_posed w_cfg2 (w_th z) [1; 2].
Proof. unfold well_posed. cbn. repeat split; try lia; try lra; try discriminate; auto. apply incr12. Qed.
Lemma w_cfg2_grid : exists g w, setup_model_grid w_cfg2 (w_th 0) = Ok (g, w) /\ m0_fit g = Fin (0 + 0) /\ nY g = 4%nat.
Proof.
  destruct (setup_ok _ _ _ (w_cfg2_posed 0)) as (g&w&Hg). exists g, w. split; [exact Hg|].
  destruct (setup_fields _ _ _ _ Hg) as (F1&F2&F3&F4&F5&F6&F7&F8&F9&F10&F11&F12&F13&F14&F15&F16&F17&F18&(sh&F19&F20)&_).
  cbn in F19. injection F19 as <-. split; [rewrite F20; reflexivity|]. rewrite F13, F4, F10. cbn [c_ins w_cfg2 w_ins i_fwhm].
  unfold nat_of_round. replace (0 * o_pad (c_opt w_cfg2) / delt_y g) with 0 by (unfold Rdiv; ring).
  change 0 with (IZR 0). rewrite Rround_IZR. reflexivity.
Qed.

Lemma w3_posed z : well_posed (cfg3 w_cfg) (w_th z) [1; 2].
Proof. unfold well_posed. cbn. repeat split; try lia; try lra; try discriminate; auto. apply incr12. Qed.

Lemma w_eff_ok : exists a0 r, o_shift (c_opt w_cfg) = false /\ setup_calcs w_cfg (w_th 0) = Ok a0 /\
  eff_inst_res w_cfg (s_grid (a_su a0)) (a_stamp a0) = Ok r.
Proof.
  destruct (setup_ok _ _ _ (w_posed 0)) as (g&w&Hg).
  destruct (setup_fields _ _ _ _ Hg) as (F1&F2&F3&F4&F5&F6&F7&F8&F9&F10&F11&F12&F13&F14&_).
  assert (P : forall x, nat_of_round (0 * o_pad (c_opt w_cfg) / x) = 0%nat).
  { intros x. unfold nat_of_round. replace (0 * o_pad (c_opt w_cfg) / x) with 0 by (unfold Rdiv; ring).
    change 0 with (IZR 0). rewrite Rround_IZR. reflexivity. }
  cbn [c_ins w_cfg w_ins i_fwhm] in F10, F11. rewrite P in F10, F11.
  assert (NX : n_pix_x g = 1%nat).
  { rewrite F6. unfold slit_npix. cbn. destruct (Reqb (1 * (1 / 1)) 1) eqn:E; [reflexivity|]. apply Reqb_false in E. lra. }
  destruct (x_grid _ _ _ _ Hg) as [LX _].
  unfold setup_calcs. rewrite Hg. unfold bind. eexists.
  enough (X : exists r, eff_inst_res w_cfg g (make_stamp (c_ins w_cfg) g) = Ok r)
    by (destruct X as [r Hr]; exists r; split; [reflexivity|]; split; [reflexivity|exact Hr]).
  unfold eff_inst_res. cbn [c_ins w_cfg w_ins i_fwhm i_slit]. unfold PSF_convolve. cbn [fgtb].
  unfold fgtb. cbn [fltb]. destruct (Rltb 0 0) eqn:E; [apply Rltb_true in E; lra|]. cbn [bind].
  rewrite F11, NX, F13, F4, F10. cbn [c_opt w_cfg w_opt o_nsub c_gal w_gal g_rows Nat.mul Nat.add seq mapR].
  rewrite F12, F11, NX in LX. cbn in LX. destruct (x_arr g) as [|x0 [|]]; try discriminate. cbn [take getn nth_error bind c_prof p_lmfit w_prof map].
  change (p_lmfit (c_prof w_cfg)) with (fun _ _ : list fl => (Fin 1, Fin 0, Fin 1)). cbv beta iota.
  match goal with |- context [check_slit_illum ?a ?b ?c ?d ?e ?f] => assert (X : exists r, check_slit_illum a b c d e f = Ok r) end.
  { unfold check_slit_illum, fsub, fgtb. cbn [fmul fadd fneg fltb].
    replace (0 + - (1 / 2 * 1)) with (-1 / 2 * 1) by field. replace (0 + 1/2 * 1) with (1/2 * 1) by ring.
    destruct (Rltb (-1 / 2 * 1) (-1/2 * 1)) eqn:E1; [apply Rltb_true in E1; lra|].
    destruct (Rltb (1 / 2 * 1) (1/2 * 1)) eqn:E2; [apply Rltb_true in E2; lra|].
    cbn [fltb]. destruct (Rltb (1 / 2 * 1) (-1/2 * 1)) eqn:E3; [apply Rltb_true in E3; lra|]. cbn [andb orb]. eexists; reflexivity. }
  destruct X as [r Hr]. rewrite Hr. eexists; reflexivity.
Qed.
