(* A small concrete model used as a witness: one row, two wavelengths, one line, no blurring. *)
From Coq Require Import Reals Lra List Bool Arith ZArith Lia.
From Verif Require Import PyFloat PyBase Arr PyNum MParams MKernels MAper2D SParams SKernels SAper2D PParams PAper2D PAper2DHist PAper2DGrid PAper2DShape PAper2DOk PAper2DVal PAper2DGeo PKernels PKernels2.
Import ListNotations.
Local Open Scope R_scope.

Definition w_data : data2 := mkdata (fin2 1 2 (fun _ _ => 1)) (fin2 1 2 (fun _ _ => 1)) (fin2 1 2 (fun _ _ => 1)) (fin2 1 2 (fun _ _ => 1)) [0%nat; 1%nat].
Definition w_gal : gal := mkgal (Fin 1) (Fin 0) (Fin 0) 1 (map Fin [1; 2]) (Fin 0) [Fin 1] [Fin 1] w_data.
Definition w_ins : instr := mkinstr 1 1 0 (Fin 0) false (fun _ _ => Fin 1).
Definition w_opt : opts := mkopts 1 0 true false false 0 Wave false false 1 false.
Definition w_prof : profs := mkprofs 0 1 (fun _ _ _ => Fin 0) (fun th _ _ => lnth th 0) (fun _ _ => Fin 1) (fun _ _ => (Fin 1, Fin 0, Fin 1)).
Definition w_cfg : cfg := mkcfg w_gal w_ins w_opt w_prof.
(* parameters: dispersion, vertical offset, redshift *)
Definition w_th (z : R) : list fl := [Fin 0; Fin 0; Fin z].

Lemma incr12 : increasing [1; 2].
Proof. intros i j H. destruct i as [|[|i]], j as [|[|j]]; cbn in *; try lia; lra. Qed.

Lemma w_posed z : well_posed w_cfg (w_th z) [1; 2].
Proof.
  unfold well_posed. cbn. repeat split; try lia; try lra; try discriminate; auto.
  apply incr12.
Qed.
Lemma w_unbl : unblurred w_cfg. Proof. repeat split. Qed.

Lemma w_image z : z = 0 \/ z = 1 -> exists a0 b m, setup_calcs w_cfg (w_th z) = Ok a0 /\ do_model_calcs w_cfg a0 = (b, Ok tt) /\
  a_model b = Some m /\ at2 m 0 0 = Fin (1 - z).
Proof.
  intros Hz. destruct (plain_image w_cfg (w_th z) [1;2] (w_posed z) w_unbl) as (a0&b&g&w&cube&m&Hg&Es&Eb&Em&Rm&Cm&P1&P2&Ec&Ev).
  exists a0, b, m. repeat (split; [assumption|]).
  destruct (setup_fields _ _ _ _ Hg) as (F1&F2&F3&F4&F5&F6&F7&F8&F9&F10&F11&F12&F13&F14&_&_&_&F18&(sh&F19&F20)&_).
  destruct (setup_cubes _ _ _ _ Hg) as (S1&_&_&_&_&S6).
  cbn in F18, F19, F20, F4, F7, F9. injection F18 as Gz. injection F19 as <-.
  assert (NX1 : n_pix_x g = 1%nat).
  { rewrite F6. unfold slit_npix. cbn. destruct (Reqb (1 * (1 / 1)) 1) eqn:E; [reflexivity|]. apply Reqb_false in E. lra. }
  assert (Si : sini g = Fin 0).
  { rewrite S1. unfold sin_i. cbn. destruct (Rltb 1 0) eqn:E; [apply Rltb_true in E; lra|].
    unfold fdiv. destruct (Reqb (1 + - (0 * 0)) 0) eqn:E1; [apply Reqb_true in E1; lra|]. cbn.
    replace ((1 + - (1 * 1)) / (1 + - (0 * 0))) with 0 by field.
    destruct (Rltb 0 0) eqn:E2; [apply Rltb_true in E2; lra|]. now rewrite sqrt_0. }
  assert (Ai : fasin (sini g) = Fin 0).
  { rewrite Si. cbn. destruct (Rleb (-1) 0) eqn:E1; [|apply Rleb_false in E1; lra].
    destruct (Rleb 0 1) eqn:E2; [|apply Rleb_false in E2; lra]. cbn. now rewrite asin_0. }
  assert (M0 : m0_fit g = Fin (0 + 0)) by (rewrite F20; reflexivity).
  destruct (cubes_finite _ _ _ _ _ 0 0 Hg M0 eq_refl Ai) as (xr&yr&zr&_&_&_&CV).
  assert (NZ1 : nZ g = 1%nat) by (rewrite F14, F5, F4; reflexivity).
  assert (NY1 : nY g = 1%nat) by (rewrite F13, F4, P2; reflexivity).
  assert (NX1' : nX g = 1%nat) by (rewrite F12, P1, NX1; reflexivity).
  destruct (CV 0 0 0)%nat as (R0&Y0&_); try lia.
  rewrite Ev by (cbn; lia). change (o_nsub (c_opt w_cfg)) with 1%nat. rewrite NX1.
  assert (Z : forall y, fadd y (Fin 0) = y) by (intros []; cbn; auto; f_equal; ring).
  unfold fsumn at 1 2. cbn [seq map]. unfold fsum; cbn [fold_right]. rewrite !Z. cbn [Nat.mul Nat.add].
  cbv zeta in Ec. rewrite NZ1, NY1, NX1' in Ec.
  match type of Ec with add_sigma_collapse_z _ _ ?S _ _ _ _ _ _ _ _ _ _ _ _ = _ =>
    assert (HS : forall x, In x (flat_list3 S) -> x = Fin 0) end.
  { intros x Hx. apply in_flat_list3 in Hx. destruct Hx as (x1&x2&x3&_&_&_&->). reflexivity. }
  rewrite (collapse_zero_sigma _ _ _ _ _ _ _ _ _ _ _ _ _ _ _ HS Ec) by discriminate.
  unfold I_simple_collapse. cbn [at3 c_gal w_cfg g_rest w_gal length g_ratio].
  unfold fsumn. cbn [seq map]. unfold fsum; cbn [fold_right]. rewrite !Z.
  rewrite S6. cbn [c_prof w_prof p_int p_vel w_cfg]. rewrite R0, Y0, Si, <- Gz.
  set (rr := sqrt _). set (yy := yi_ _ _ _ _ _).
  assert (V : fmul (fmul (Fin 0) (if feqb (Fin rr) (Fin 0) then Fin 0 else fdiv (Fin yy) (Fin rr))) (Fin 0) = Fin 0).
  { cbn [feqb]. destruct (Reqb rr 0) eqn:E; cbn [fmul]; [f_equal; ring|]. unfold fdiv. rewrite E. cbn [fmul]. f_equal; ring. }
  rewrite V. unfold lnth. change (g_wave w_gal) with [Fin 1; Fin 2]. cbn [nth map length Nat.sub argmin_ isnan].
  pose proof c_kms_pos as Hc.
  assert (D : fdiv (Fin 0) (Fin c_kms) = Fin 0).
  { unfold fdiv. destruct (Reqb c_kms 0) eqn:E; [apply Reqb_true in E; lra|]. f_equal. unfold Rdiv. ring. }
  rewrite D. unfold fsub. cbn [fadd fneg fmul fabs isnan fltb].
  replace (1 * (1 + z) * (1 + 0) + - (2)) with (z - 1) by ring. replace (1 * (1 + z) * (1 + 0) + - (1)) with z by ring.
  rewrite F8, F7, F9, NX1. cbn [i_pix i_slit c_ins w_cfg w_ins INR o_nsub c_opt w_opt].
  destruct Hz as [->| ->].
  - rewrite Rabs_R0. destruct (Rltb (Rabs (0 - 1)) 0) eqn:E; [apply Rltb_true in E; pose proof (Rabs_pos (0-1)); lra|].
    cbn [Nat.eqb fmul]. f_equal. field.
  - replace (1 - 1) with 0 by ring. rewrite Rabs_R0, Rabs_R1. destruct (Rltb 0 1) eqn:E; [|apply Rltb_false in E; lra].
    cbn [Nat.eqb fmul]. f_equal. field.
Qed.

Definition w_k0 : kinmodel := mkkm (w_th 0) [false; false; true] true None None NoStamp.

Lemma w_make z : z = 0 \/ z = 1 -> exists k m, km_make w_cfg [Fin z] w_k0 = (k, Ok tt) /\ k_model k = Some m /\
   at2 m 0 0 = Fin (1 - z) /\ (exists a, k_aper k = Some a) /\ length (k_vary k) = length (k_theta k) /\ k_vary k = [false; false; true].
Proof.
  intros Hz. destruct (w_image z Hz) as (a0&b&m&Es&Eb&Em&V).
  assert (X : km_make w_cfg [Fin z] w_k0 = store_model w_cfg (mkkm (w_th z) [false;false;true] true (Some b) None (a_stamp b)) b).
  { unfold km_make. change (negb _) with false. cbv iota.
    change (update_parameters (k_theta w_k0) (k_vary w_k0) [Fin z]) with (w_th z, @Ok unit tt). cbv beta iota zeta.
    cbn [k_aper w_k0]. unfold aper_new. rewrite Es, Eb. reflexivity. }
  rewrite X. unfold store_model. rewrite Em. cbn [k_noscale]. eexists _, _. split; [reflexivity|]. cbn. repeat split; eauto.
Qed.

(* whatever the free redshift, an update reproduces one and the same image, a fresh model does not *)
Lemma redshift_ignored : exists c k0 k1 tf0,
  fresh k0 /\ km_make c tf0 k0 = (k1, Ok tt) /\
  ~ (forall tf, length tf = nfree (k_vary k0) ->
       k_model (fst (km_update c tf k1)) = k_model (fst (km_make c tf k0))).
Proof.
  destruct (w_make 0 (or_introl eq_refl)) as (k1&m&E&Em&V&(a&Ea)&L&Hv).
  exists w_cfg, w_k0, k1, [Fin 0]. split; [reflexivity|]. split; [exact E|]. intros H.
  destruct (w_make 1 (or_intror eq_refl)) as (k2&m2&E2&Em2&V2&_).
  pose proof (H [Fin 0] eq_refl) as A. pose proof (H [Fin 1] eq_refl) as B. rewrite E in A. rewrite E2 in B. cbn [fst] in A, B.
  assert (X := update_reads_profiles w_cfg k1 a [Fin 0] [Fin 1] Ea L).
  rewrite Hv in X. destruct X as [_ X]; auto.
  { intros i Hi Hf. unfold free in Hf. cbn in Hi. assert (i = 0)%nat by lia. subst i. discriminate. }
  rewrite A, B, Em, Em2 in X. injection X as <-. rewrite V in V2. injection V2 as V2. lra.
Qed.
