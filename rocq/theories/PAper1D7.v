(* 1-D aperture models: statements about the grid, the slope option, and concrete settings. *)
From Coq Require Import Reals List Bool Arith ZArith Lia Lra Psatz.
From Verif Require Import PyFloat PyBase Arr PyNum MKernels MAper2D MProf MAper1D SKernels SAper1D SProf
  PKernels PKernels2 PProf PProf2 PAper1D PAper1D2 PAper1D3 PAper1D4 PAper1D5 PAper1D6.
Import ListNotations.
Local Open Scope R_scope.

Lemma grid_window o ins re q a W xc yc F : 0 < re -> 0 < q ->
  j_slit ins = Fin W -> d_xc o = Fin xc -> d_yc o = Fin yc -> psf_fwhm (j_psf ins) = Some (Fin F) ->
  (d_ew o = None \/ exists H, d_ew o = Some (Fin H) /\ 0 < H) ->
  exists g cx cy, let n := half_samples o re in let H := width o re q a F in
    grid_1D o ins (Fin re) (Fin q) (Fin a) = Ok g /\
    length (u_x g) = ((n + 1) + (2 * n + 1) + (n + 1))%nat /\
    length (u_y g) = ((n + 1) + (2 * n + 1) + (n + 1))%nat /\
    u_padX g = (n + 1)%nat /\ u_padY g = (n + 1)%nat /\
    u_dx g = Fin (W / INR (2 * n + 1)) /\ u_dy g = Fin (H / INR (2 * n + 1)) /\
    (forall i, (i < length (u_x g))%nat -> lnth (u_x g) i = Fin (cx i)) /\
    (forall i, (i < length (u_y g))%nat -> lnth (u_y g) i = Fin (cy i)) /\
    tiles cx (n + 1) (2 * n + 1) (W / INR (2 * n + 1)) (- W / 2 - xc) (W / 2 - xc) /\
    tiles cy (n + 1) (2 * n + 1) (H / INR (2 * n + 1)) (- H / 2 - yc) (H / 2 - yc).
Proof.
  intros Hre Hq EW Ex Ey EF HE.
  destruct (grid_exists o ins re q a W xc yc F Hre Hq EW Ex Ey EF HE) as (g & G & EH & PH).
  destruct (grid_value _ _ _ _ _ W xc yc g _ EW Ex Ey G EH) as
    (Gn & Gx & Gy & _ & P1 & P2 & Lx & Ly & Vx & Vy & _).
  rewrite half_samples_eq in Gn. set (H := width o re q a F) in *. rewrite Gn in *. set (n := half_samples o re) in *.
  destruct (grid_tiles n W xc) as [D1 T1]. destruct (grid_tiles n H yc) as [D2 T2]. rewrite D1 in *. rewrite D2 in *.
  exists g, (gx n (W / INR (2 * n + 1)) xc), (gx n (H / INR (2 * n + 1)) yc). cbv zeta.
  rewrite Lx, Ly. repeat split; auto; try lia; try apply T1; try apply T2.
Qed.

Lemma window_sum quad o ins gal re q rm qm n a c W xc yc r :
  physical o ins gal re q rm qm n a c W xc yc 0 ->
  (disp_1D quad o ins gal = Ok r -> exists s, x_ap r = Fin s /\ 0 < s /\
    let N := half_samples o (re * sqrt q) in let H := width o (re * sqrt q) 1 0 0 in
    let d j i := ell ((INR i - INR N) * (W / INR (2 * N + 1)) - xc) ((INR j - INR N) * (H / INR (2 * N + 1)) - yc) 1 0 in
    let I j i := row_weight (d_method o) N j * sers (re * sqrt q) n c (d j i) in
    s ^ 2 = rsum2 (2 * N + 1) (2 * N + 1) (fun j i => vds (rm * sqrt qm) c (-89/1000) (d j i) ^ 2 * I j i) /
            rsum2 (2 * N + 1) (2 * N + 1) I) /\
  (disp_misalign_1D quad o ins gal = Ok r -> exists s, x_ap r = Fin s /\ 0 < s /\
    let N := half_samples o re in let H := width o re q a 0 in
    let d j i := ell ((INR i - INR N) * (W / INR (2 * N + 1)) - xc) ((INR j - INR N) * (H / INR (2 * N + 1)) - yc) q a in
    let I j i := row_weight (d_method o) N j * sers (re * sqrt q) n c (d j i) in
    s ^ 2 = rsum2 (2 * N + 1) (2 * N + 1) (fun j i => vds (rm * sqrt qm) c (-89/1000) (d j i) ^ 2 * I j i) /
            rsum2 (2 * N + 1) (2 * N + 1) I).
Proof.
  intros P. split; intros E.
  - destruct (disp_run quad _ _ _ _ _ _ _ _ _ _ _ _ _ _ P) as (s & (S0 & _ & SV) & D). rewrite E in D.
    destruct (sigma_e _ _ _ _ _ _) as [e|]; [|discriminate]. cbn [bind] in D. apply ok_inj in D. subst r.
    exists s. split; [reflexivity|]. split; [auto|]. exact (SV eq_refl).
  - destruct (misalign_run quad _ _ _ _ _ _ _ _ _ _ _ _ _ _ P) as (s & (S0 & _ & SV) & D). rewrite E in D.
    destruct (sigma_e _ _ _ _ _ _) as [e|]; [|discriminate]. cbn [bind] in D. apply ok_inj in D. subst r.
    exists s. split; [reflexivity|]. split; [auto|]. exact (SV eq_refl).
Qed.

(** Both dispersion models are averages. *)
Lemma disp_average quad o ins gal re q rm qm n a c W xc yc F r :
  physical o ins gal re q rm qm n a c W xc yc F ->
  (disp_1D quad o ins gal = Ok r -> exists s, x_ap r = Fin s /\ x_ratio r = fdiv (Fin s) (x_e r) /\
     average_of (d_method o) (re * sqrt q) n (rm * sqrt qm) c F W (width o (re * sqrt q) 1 0 F) xc yc 1 0
              (half_samples o (re * sqrt q)) s) /\
  (disp_misalign_1D quad o ins gal = Ok r -> exists s, x_ap r = Fin s /\ x_ratio r = fdiv (Fin s) (x_e r) /\
     average_of (d_method o) (re * sqrt q) n (rm * sqrt qm) c F W (width o re q a F) xc yc q a
              (half_samples o re) s).
Proof.
  intros P. split; intros E.
  - destruct (disp_run quad _ _ _ _ _ _ _ _ _ _ _ _ _ _ P) as (s & A & D). rewrite E in D.
    destruct (sigma_e _ _ _ _ _ _) as [e|]; [|discriminate]. cbn [bind] in D. apply ok_inj in D. subst r.
    exists s. auto.
  - destruct (misalign_run quad _ _ _ _ _ _ _ _ _ _ _ _ _ _ P) as (s & A & D). rewrite E in D.
    destruct (sigma_e _ _ _ _ _ _) as [e|]; [|discriminate]. cbn [bind] in D. apply ok_inj in D. subst r.
    exists s. auto.
Qed.

(** They exist whenever the two integrals do. *)
Lemma disp_exists quad o ins gal re q rm qm n a c W xc yc F :
  physical o ins gal re q rm qm n a c W xc yc F ->
  (forall f R0, exists v, quad f (Fin 0) R0 = Ok v) ->
  (exists r, disp_1D quad o ins gal = Ok r) /\ (exists r, disp_misalign_1D quad o ins gal = Ok r).
Proof.
  intros P Q.
  assert (S : forall N R1 R2 R3, exists e, sigma_e quad o N R1 R2 R3 = Ok e).
  { intros N R1 R2 R3. unfold sigma_e. destruct (Q (sigsq_I_integrand R1 N (d_Ie o) (d_slope o) (d_rcore o) R2) R3) as [v ->].
    destruct (Q (I_integrand R1 N (d_Ie o) (d_rcore o)) R3) as [w ->]. cbn [bind]. eauto. }
  split.
  - destruct (disp_run quad _ _ _ _ _ _ _ _ _ _ _ _ _ _ P) as (s & _ & ->).
    edestruct S as [e ->]. cbn [bind]. eauto.
  - destruct (misalign_run quad _ _ _ _ _ _ _ _ _ _ _ _ _ _ P) as (s & _ & ->).
    edestruct S as [e ->]. cbn [bind]. eauto.
Qed.

(* ---------------- slope ---------------- *)


Lemma slope_unused quad quad' o ins gal d r r' :
  (disp_1D quad o ins gal = Ok r -> disp_1D quad' (with_slope o d) ins gal = Ok r' -> x_ap r' = x_ap r) /\
  (disp_misalign_1D quad o ins gal = Ok r -> disp_misalign_1D quad' (with_slope o d) ins gal = Ok r' -> x_ap r' = x_ap r).
Proof.
  split.
  - unfold disp_1D. change (grid_1D (with_slope o d)) with (grid_1D o).
    destruct (grid_1D o ins _ _ _) as [g|]; [|discriminate]. cbn [bind].
    destruct (stamp_1D ins g) as [st|]; [|discriminate]. cbn [bind].
    change (sigma_aper (with_slope o d)) with (sigma_aper o).
    destruct (sigma_aper o ins g st _ _ _) as [ap|]; [|discriminate]. cbn [bind].
    destruct (sigma_e quad o _ _ _ _) as [e|]; [|discriminate].
    destruct (sigma_e quad' (with_slope o d) _ _ _ _) as [e'|]; [|discriminate]. cbn [bind].
    intros E E'. apply ok_inj in E. apply ok_inj in E'. subst. reflexivity.
  - unfold disp_misalign_1D. change (grid_1D (with_slope o d)) with (grid_1D o).
    destruct (grid_1D o ins _ _ _) as [g|]; [|discriminate]. cbn [bind].
    destruct (stamp_1D ins g) as [st|]; [|discriminate]. cbn [bind].
    change (sigma_aper_misalign (with_slope o d)) with (sigma_aper_misalign o).
    destruct (sigma_aper_misalign o ins g st _ _ _) as [ap|]; [|discriminate]. cbn [bind].
    destruct (sigma_e quad o _ _ _ _) as [e|]; [|discriminate].
    destruct (sigma_e quad' (with_slope o d) _ _ _ _) as [e'|]; [|discriminate]. cbn [bind].
    intros E E'. apply ok_inj in E. apply ok_inj in E'. subst. reflexivity.
Qed.

(** A flat profile: the local dispersion is one everywhere. *)
Lemma flat_profile rm c r : 0 < rm -> 0 < c -> 0 <= r -> sigma_profile (Fin r) (Fin rm) (Fin 0) (Fin c) = Fin 1.
Proof.
  intros Hm Hc Hr. rewrite sigma_Fin by auto. f_equal. unfold vds. apply Rpower_O.
  assert (0 < c * rm) by nra. apply Rdiv_lt_0_compat; lra.
Qed.

Lemma flat_integrand re n Ie c rm r : 0 < rm -> 0 < c -> 0 <= r ->
  sigsq_I_integrand re n Ie (Fin 0) (Fin c) (Fin rm) (Fin r) = I_integrand re n Ie (Fin c) (Fin r).
Proof.
  intros Hm Hc Hr. unfold sigsq_I_integrand, I_integrand. rewrite flat_profile by auto.
  destruct (I_sersic (Fin r) re n Ie (Fin c)) as [v|]; [|reflexivity]. cbn [bind]. do 4 f_equal.
  unfold fsq. cbn [fmul]. replace (1 * 1) with 1 by ring.
  destruct v; cbn [fmul]; unfold inf_scale; try reflexivity.
  - now rewrite Rmult_1_l.
  - rewrite (proj2 (Reqb_false _ _)) by lra. rewrite (proj2 (Rltb_true _ _)) by lra. reflexivity.
  - rewrite (proj2 (Reqb_false _ _)) by lra. rewrite (proj2 (Rltb_true _ _)) by lra. reflexivity.
Qed.

(** Compact aperture: the aperture dispersion exceeds the value at the effective radius. *)
Lemma compact quad o ins gal re q rm qm n a c W xc yc F R0 r :
  physical o ins gal re q rm qm n a c W xc yc F -> 0 <= R0 < rm * sqrt qm ->
  (forall x y, Rabs (x + xc) <= W -> Rabs (y + yc) <= width o (re * sqrt q) 1 0 F -> ell x y 1 0 <= R0) ->
  disp_1D quad o ins gal = Ok r -> exists s, x_ap r = Fin s /\ 1 < s.
Proof.
  intros P HR HB E. destruct (disp_average quad _ _ _ _ _ _ _ _ _ _ _ _ _ _ r P) as [D _].
  destruct (D E) as (s & Es & _ & A & B & _). exists s. split; auto.
  assert (C : 0 < c) by (destruct P as (_ & _ & (_ & _ & _ & _ & _ & ? & _) & _); auto).
  set (m := rm * sqrt qm) in *. set (lo := vds m c (-89/1000) R0).
  assert (L1 : 1 < lo).
  { unfold lo, vds, Rpower. assert (0 < c * m) by nra. rewrite <- exp_0. apply exp_increasing.
    assert (ln ((R0 + c * m) / (m + c * m)) < 0).
    { rewrite <- ln_1. apply ln_increasing; [apply Rdiv_lt_0_compat; lra|].
      apply Rmult_lt_reg_r with (m + c * m); [lra|]. unfold Rdiv. rewrite Rmult_assoc, Rinv_l by lra. lra. }
    nra. }
  destruct (B lo (vds m c (-89/1000) 0)) as [S1 _]; [lra| |lra].
  intros x y Hx Hy. specialize (HB x y Hx Hy). pose proof (ell_nonneg x y 1 0).
  split; apply vds_decr; auto; lra.
Qed.

(* ---------------- concrete settings ---------------- *)

Definition ex_psf1 : psf := mkpsf PsfGaussian (Some (Fin 1)) None.
Definition ex_gal1 : gal1 := mkgal1 (Fin 1) (Fin 1) (Fin 0) (Fin 4) (Fin 1) (Fin 1) (Fin 30).
Definition ex_ins1 : ins1 := mkins1 (Fin 1) ex_psf1.
Definition ex_dopt (d : fl) : dopt := mkdopt 2 Optimal (Some (Fin 1)) None (Fin 0) (Fin 0) (Fin (1/10)) d (Fin 1).

Lemma ex_physical d : physical (ex_dopt d) ex_ins1 ex_gal1 1 1 4 1 1 30 (1/10) 1 0 0 1.
Proof.
  unfold physical. repeat split; try reflexivity; try lra; try discriminate.
  - left. split; reflexivity.
  - right. exists 1. split; [reflexivity|lra].
Qed.

Lemma ex_grid_hyps : physical (mkdopt 2 Optimal None None (Fin 0) (Fin 0) (Fin (1/10)) (Fin 0) (Fin 1)) ex_ins1
  (mkgal1 (Fin 1) (Fin (1/2)) (Fin 0) (Fin 4) (Fin 1) (Fin 1) (Fin 30)) 1 (1/2) 4 1 1 30 (1/10) 1 0 0 1.
Proof.
  unfold physical. repeat split; try reflexivity; try lra; try discriminate; left; [split; reflexivity|reflexivity].
Qed.

Lemma slope_refuted : exists o ins gal, d_slope o = Fin 0 /\
  (forall r, 0 <= r -> sigma_profile (Fin r) (circ (l_remass gal) (l_qmass gal)) (d_slope o) (d_rcore o) = Fin 1) /\
  forall quad,
    (forall f g R0, (forall r, 0 <= r -> f (Fin r) = g (Fin r)) -> quad f (Fin 0) R0 = quad g (Fin 0) R0) ->
    (forall f R0, exists v, quad f (Fin 0) R0 = Ok (Fin v) /\ 0 < v) ->
    exists r s, disp_1D quad o ins gal = Ok r /\ x_ap r = Fin s /\ x_e r = Fin 1 /\ x_ratio r = Fin s /\ 1 < s.
Proof.
  exists (ex_dopt (Fin 0)), ex_ins1, ex_gal1. split; [reflexivity|].
  assert (EC : circ (l_remass ex_gal1) (l_qmass ex_gal1) = Fin 4).
  { unfold ex_gal1. cbn [l_remass l_qmass]. destruct (circ_Fin 4 1) as [-> _]; try lra. rewrite sqrt_1. f_equal. ring. }
  split; [intros r Hr; rewrite EC; apply flat_profile; lra|].
  intros quad Q1 Q2. pose proof (ex_physical (Fin 0)) as P.
  destruct (disp_run quad _ _ _ _ _ _ _ _ _ _ _ _ _ _ P) as (s & _ & D).
  rewrite sqrt_1 in D. replace (1 * 1) with 1 in D by ring. replace (4 * 1) with 4 in D by ring.
  cbn [ex_dopt d_rad l_n ex_gal1] in D.
  assert (SE : sigma_e quad (ex_dopt (Fin 0)) (Fin 1) (Fin 1) (Fin 4) (Fin 1) = Ok (Fin 1)).
  { unfold sigma_e. cbn [ex_dopt d_Ie d_slope d_rcore].
    rewrite (Q1 (sigsq_I_integrand (Fin 1) (Fin 1) (Fin 1) (Fin 0) (Fin (1 / 10)) (Fin 4))
      (I_integrand (Fin 1) (Fin 1) (Fin 1) (Fin (1/10))) (Fin 1)) by (intros; apply flat_integrand; lra).
    destruct (Q2 (I_integrand (Fin 1) (Fin 1) (Fin 1) (Fin (1/10))) (Fin 1)) as (v & -> & Pv). cbn [bind].
    rewrite fdiv_Fin by lra. replace (v / v) with 1 by (field; lra). cbn [fsqrt].
    rewrite (proj2 (Rltb_false _ _)) by lra. now rewrite sqrt_1. }
  unfold ex_dopt in D at 2. cbn [d_rad] in D. fold (ex_dopt (Fin 0)) in D. change (l_n ex_gal1) with (Fin 1) in D.
  rewrite SE in D. cbn [bind] in D.
  eexists. exists s. split; [exact D|]. split; [reflexivity|]. split; [reflexivity|].
  split; [cbn [x_ratio]; rewrite fdiv_Fin by lra; f_equal; field|].
  destruct (compact quad _ _ _ _ _ _ _ _ _ _ _ _ _ _ 2 (mkout1 (Fin s) (Fin 1) (fdiv (Fin s) (Fin 1))) P)
    as (s' & Es' & K); [rewrite sqrt_1; lra| |exact D|].
  - intros x y Hx Hy. unfold width, ex_dopt in Hy. cbn [d_ew] in Hy. rewrite !Rplus_0_r in *.
    unfold ell. replace (0 * PI / 180) with 0 by field. rewrite sin_0, cos_0.
    apply Rle_trans with (sqrt (2 * 2)); [apply sqrt_le_1_alt|rewrite sqrt_square; lra].
    assert (x * x <= 1) by (revert Hx; unfold Rabs; destruct (Rcase_abs x); nra).
    assert (y * y <= 1) by (revert Hy; unfold Rabs; destruct (Rcase_abs y); nra).
    replace (1 * (0 * x + 1 * y) ^ 2 + (1 * x - 0 * y) ^ 2 / 1) with (x * x + y * y) by field. lra.
  - cbn [x_ap] in Es'. injection Es' as <-. exact K.
Qed.

Definition ex_ropt (b : option fl) (sh : bool) : ropt :=
  mkropt 4 Boxcar (Some (Fin 2)) None (Fin 0) (Fin 0) (Fin (1/2)) b (Fin 100) (Fin (1/2)) sh false (fun _ _ => Fin 1).
Definition ex_galr : gal1 := mkgal1 (Fin 1) (Fin (1/2)) (Fin (1/5)) (Fin 1) (Fin 1) (Fin 1) (Fin 20).

Lemma ex_physical_rot b : physical_rot (ex_ropt b false) ex_ins1 ex_galr 1 (1/2) (1/5) 20 1 0 0 (1/2) 1 2 100 (1/2).
Proof.
  unfold physical_rot. repeat split; try reflexivity; try lra; try discriminate; try (cbn; lia).
  - left. split; reflexivity.
  - right. split; [reflexivity|lra].
  - cbn [ex_ropt t_npix]. rewrite INR_IZR_INZ. simpl. lra.
  - intros. exists 1. split; [reflexivity|lra].
Qed.

(** Objects and recalculation. *)
Lemma rebuilt_same shift o ins gal st : t_shift o = false -> t_eff o = false ->
  rot_new shift o ins gal = Ok st -> calc_aper_correction shift o ins st = (st, Ok tt).
Proof.
  intros S1 S2. unfold rot_new. destruct (grid_1R o ins gal) as [g|]; [|discriminate]. cbn [bind].
  destruct (stamp_1R ins g) as [sp|]; [|discriminate]. cbn [bind].
  destruct (calc_aper_correction shift o ins _) as [s' [[]|]] eqn:E; [|discriminate].
  intros K. apply ok_inj in K. subst s'. exact (recalc_same _ _ _ _ _ S1 S2 E).
Qed.

Lemma rebuilt_fails shift o ins gal st : t_shift o = true \/ t_eff o = true ->
  rot_new shift o ins gal = Ok st -> snd (calc_aper_correction shift o ins st) = Err AttributeError.
Proof.
  intros S. unfold rot_new. destruct (grid_1R o ins gal) as [g|]; [|discriminate]. cbn [bind].
  destruct (stamp_1R ins g) as [sp|]; [|discriminate]. cbn [bind].
  destruct (calc_aper_correction shift o ins _) as [s' [[]|]] eqn:E; [|discriminate].
  intros K. apply ok_inj in K. subst s'. exact (recalc_fails _ _ _ _ _ S E).
Qed.

(** Turning on the effective instrument resolution. *)
Definition with_inst_eff (o : ropt) : ropt :=
  mkropt (t_npix o) (t_method o) (t_ew o) (t_rad o) (t_xc o) (t_yc o) (t_pad o) (t_ratio o) (t_va o) (t_rt o)
    (t_shift o) true (t_int o).

Lemma eff_builds shift o ins gal st : t_shift o = false -> t_eff o = false ->
  (forall g s, exists l, shift g s = Ok l) -> rot_new shift o ins gal = Ok st ->
  exists st', rot_new shift (with_inst_eff o) ins gal = Ok st' /\ h_out st' = h_out st.
Proof.
  intros S1 S2 SH. unfold rot_new. change (grid_1R (with_inst_eff o)) with (grid_1R o).
  destruct (grid_1R o ins gal) as [g|]; [|discriminate]. cbn [bind].
  destruct (stamp_1R ins g) as [sp|]; [|discriminate]. cbn [bind].
  unfold calc_aper_correction, bindS, getS, putS, liftR, ret, modS. cbn [h_g h_st h_rad h_dv h_out].
  change (t_shift (with_inst_eff o)) with (t_shift o). change (t_eff (with_inst_eff o)) with true.
  change (update_kinProfile (with_inst_eff o)) with (update_kinProfile o).
  change (t_rad (with_inst_eff o)) with (t_rad o).
  change (rot_aperture (with_inst_eff o)) with (rot_aperture o).
  rewrite S1, S2. cbn [orb]. destruct (SH g sp) as [l ->]. cbn [h_g h_st h_rad h_dv h_out].
  destruct (rot_aperture o ins g sp _ _) as [v|]; [|discriminate].
  intros K. apply ok_inj in K. subst st. eexists. split; reflexivity.
Qed.

(** Recalculation with one of the two options on: construction succeeds, recalculation fails. *)
Lemma recalc_refuted : exists shift o ins gal st, rot_new shift o ins gal = Ok st /\
  snd (calc_aper_correction shift o ins st) = Err AttributeError.
Proof.
  destruct (no_rotation (fun _ _ => Ok []) _ _ _ _ _ _ _ _ _ _ _ _ _ _ _ 1 (ex_physical_rot (Some (Fin 0))) eq_refl eq_refl ltac:(lra))
    as (st & E & _).
  destruct (eff_builds (fun _ _ => Ok []) (ex_ropt (Some (Fin 0)) false) _ _ _ eq_refl eq_refl (fun _ _ => ex_intro _ [] eq_refl) E) as (st' & E' & _).
  exists (fun _ _ => Ok []), (with_inst_eff (ex_ropt (Some (Fin 0)) false)), ex_ins1, ex_galr, st'.
  split; [exact E'|]. refine (rebuilt_fails _ _ _ _ _ _ E'). right. reflexivity.
Qed.

Lemma realised_profile o va rt R0 b vth dth : t_va o = Fin va -> t_rt o = Fin rt -> rt <> 0 ->
  t_ratio o = Some (Fin b) -> b <> 0 -> update_kinProfile o (Fin R0) = (vth, dth) ->
  exists v s, vel_arctan vth (Fin R0) (Fin 0) = Fin v /\ disp_const dth (Fin R0) (Fin 0) = Fin s /\ v = b * s /\
    forall r z, disp_const dth (Fin r) z = Fin s.
Proof.
  intros Ev Et Hrt Er Hb E. destruct (realised o va rt R0 Ev Et Hrt) as (A & _). rewrite (A b Er Hb) in E.
  assert (vth = [Fin va; Fin rt]) by congruence. assert (dth = [Fin (rotation va rt R0 / b)]) by congruence. subst.
  exists (rotation va rt R0), (rotation va rt R0 / b). rewrite vel_Fin by auto. split; [reflexivity|].
  cbn [disp_const fmul fadd]. split; [f_equal; ring|]. split; [field; auto|]. intros. f_equal. ring.
Qed.

Lemma ex_ratio : t_va (ex_ropt (Some (Fin 2)) false) = Fin 100 /\ t_rt (ex_ropt (Some (Fin 2)) false) = Fin (1/2) /\
  update_kinProfile (ex_ropt (Some (Fin 2)) false) (Fin (1/2)) = ([Fin 100; Fin (1/2)], [Fin 25]).
Proof.
  split; [reflexivity|]. split; [reflexivity|].
  destruct (realised (ex_ropt (Some (Fin 2)) false) 100 (1/2) (1/2) eq_refl eq_refl ltac:(lra)) as (A & _).
  rewrite (A 2 eq_refl ltac:(lra)). do 4 f_equal. unfold rotation. replace (1 / 2 / (1 / 2)) with 1 by field.
  rewrite atan_1. pose proof PI_RGT_0. field. lra.
Qed.

Lemma ex_major : transform_int_3d (Fin (- 2 * sin (- (30) * (PI / 180)))) (Fin (2 * cos (- (30) * (PI / 180)))) (Fin 0) (Fin (- (30))) (Fin (PI / 3))
  = (Fin 0, Fin 2, Fin 0).
Proof. apply (tr_major (- (30)) (PI / 3) 2). Qed.

Lemma ex_width : default_width (Fin 1) (Fin 1) (Fin 0) (Fin 0) = Fin 4.
Proof.
  destruct (width_value 1 1 0 0 ltac:(lra) ltac:(lra)) as [-> _]. f_equal. unfold wide.
  replace (0 * PI / 180) with 0 by field. rewrite cos_0, Rabs_R1.
  replace ((2 * 1 * 1) ^ 2 + 0 ^ 2) with (2 * 2) by ring. replace ((2 * 1) ^ 2 + 0 ^ 2) with (2 * 2) by ring.
  rewrite sqrt_square by lra. rewrite Rmax_left by lra. ring.
Qed.
