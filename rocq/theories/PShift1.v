(* The 1-D rotation model with a velocity shift along the slit. *)
From Coq Require Import Reals List Bool Arith ZArith Lia Lra Psatz.
From Verif Require Import PyFloat PyBase Arr PyNum MKernels MAper2D MProf MAper1D SKernels SAper1D SProf SShift1
  PKernels PKernels2 PProf PProf2 PAper1D PAper1D2 PAper1D3 PAper1D4 PAper1D5 PAper1D6 PAper1D7.
From Verif Require PLine.
Import ListNotations.
Local Open Scope R_scope.

Lemma sl n d c f j : (j < n)%nat -> lnth (map (fun y => Fin (f y)) (map (sx n d c) (seq 0 n))) j = Fin (f (sx n d c j)).
Proof. intros H. rewrite map_map. now apply (lnth_map_seq (fun x => Fin (f (sx n d c x)))). Qed.

Lemma kin_cube_shift o ins q q0 a W xc yc pad F H g i dx dy va rt sg f l lo hi :
  (forall j, (j < t_npix o + 2 * e_padY g)%nat -> lnth l j = Fin (f (sx (t_npix o + 2 * e_padY g) dy yc j))) ->
  grid_of o ins q q0 a W xc yc pad F H g i dx dy -> rt <> 0 -> (0 < t_npix o)%nat ->
  (forall r z, exists v, t_int o (Fin r) (Fin z) = Fin v /\ 0 < v) ->
  (forall x y z, Rabs (x + xc) <= W / 2 + pad * F -> Rabs (y + yc) <= H / 2 + pad * F -> Rabs z <= H / 2 ->
       lo <= (speed va rt a i x y z + f y) ^ 2 + sg ^ 2 <= hi) ->
  let c := kin_cube g [Fin va; Fin rt] [Fin sg] (Some l) in
  dom lo hi (fst c) (snd c) /\ rows (snd c) = (t_npix o + 2 * e_padY g)%nat /\ cols (snd c) = (e_nx g + 2 * e_padX g)%nat.
Proof.
  intros Hl G Hrt Hn HI HB c. unfold c, kin_cube. cbn [fst snd].
  rewrite (go_d0 _ _ _ _ _ _ _ _ _ _ _ _ _ _ _ G), (go_d1 _ _ _ _ _ _ _ _ _ _ _ _ _ _ _ G), (go_d2 _ _ _ _ _ _ _ _ _ _ _ _ _ _ _ G).
  split; [|split; reflexivity]. split; [reflexivity|]. split; [reflexivity|]. cbn [rows cols at2]. intros j ii Hj Hi.
  rewrite (go_sini _ _ _ _ _ _ _ _ _ _ _ _ _ _ _ G), (go_dy _ _ _ _ _ _ _ _ _ _ _ _ _ _ _ G).
  pose proof (go_py _ _ _ _ _ _ _ _ _ _ _ _ _ _ _ G) as Py. pose proof (go_px _ _ _ _ _ _ _ _ _ _ _ _ _ _ _ G) as Px.
  set (x := sx (e_nx g + 2 * e_padX g) dx xc ii). set (y := sx (t_npix o + 2 * e_padY g) dy yc j).
  assert (L : exists I : nat -> R, forall k, (k < t_npix o)%nat ->
    at3 (e_I g) k j ii = Fin (I k) /\ 0 < I k /\
    (exists r z, at3 (e_r g) k j ii = Fin r /\ at3 (e_zint g) k j ii = Fin z) /\
    fmul (fmul (vel_arctan [Fin va; Fin rt] (at3 (e_r g) k j ii) (at3 (e_zint g) k j ii))
           (if feqb (at3 (e_r g) k j ii) (Fin 0) then Fin 0 else fdiv (at3 (e_yint g) k j ii) (at3 (e_r g) k j ii)))
         (Fin (sin i)) = Fin (speed va rt a i x y (sx (t_npix o) dy 0 k))).
  { exists (fun k => val (at3 (e_I g) k j ii)). intros k Hk.
    destruct (go_pt _ _ _ _ _ _ _ _ _ _ _ _ _ _ _ G k j ii Hk Hj Hi) as (R1 & R2 & R3 & R4). fold x y in R1, R2, R3.
    destruct (local_speed va rt a i x y (sx (t_npix o) dy 0 k) Hrt) as ((r & Er) & (z & Ez) & V). cbv zeta in V.
    rewrite <- R1, <- R2, <- R3 in V. rewrite <- R1 in Er. rewrite <- R3 in Ez.
    rewrite R4. destruct (HI r z) as (v & Ev & Pv).
    split; [now rewrite Er, Ez, Ev|]. split; [rewrite Er, Ez, Ev; exact Pv|]. split; [eauto|]. exact V. }
  destruct L as [I L].
  exists (rsumn (t_npix o) (fun k => ((speed va rt a i x y (sx (t_npix o) dy 0 k) + f y) ^ 2 + sg ^ 2) * I k) * dy),
         (rsumn (t_npix o) I * dy).
  rewrite (fsumn_pos _ _ (fun k => ((speed va rt a i x y (sx (t_npix o) dy 0 k) + f y) ^ 2 + sg ^ 2) * I k)).
  2:{ intros k Hk. destruct (L k Hk) as (E & _ & (r & z & Er & Ez) & V). cbv zeta. rewrite V, E, (Hl j Hj). fold y.
      rewrite Er, Ez. unfold fsq. cbn [disp_const fmul fadd]. f_equal. ring. }
  rewrite (fsumn_pos _ _ I) by (intros k Hk; apply (L k Hk)).
  split; [reflexivity|]. split; [reflexivity|].
  assert (PI' : 0 < rsumn (t_npix o) I).
  { apply rsumn_pos; [intros k Hk; left; apply (L k Hk)|]. exists 0%nat. split; auto. apply (L 0%nat Hn). }
  split; [nra|].
  assert (B : forall k, (k < t_npix o)%nat -> lo <= (speed va rt a i x y (sx (t_npix o) dy 0 k) + f y) ^ 2 + sg ^ 2 <= hi).
  { intros k Hk. apply HB.
    - eapply Rle_trans; [apply sx_bound; [lra|auto]|]. apply (go_bx _ _ _ _ _ _ _ _ _ _ _ _ _ _ _ G).
    - eapply Rle_trans; [apply sx_bound; [lra|auto]|]. apply (go_by _ _ _ _ _ _ _ _ _ _ _ _ _ _ _ G).
    - replace (sx (t_npix o) dy 0 k) with (sx (t_npix o) dy 0 k + 0) by ring.
      eapply Rle_trans; [apply sx_bound; [lra|auto]|].
      rewrite (go_dyv _ _ _ _ _ _ _ _ _ _ _ _ _ _ _ G) in *.
      assert (0 < INR (t_npix o)) by (apply lt_0_INR; lia).
      replace (H / 2) with (INR (t_npix o) / 2 * (H / INR (t_npix o))) by (field; lra). nra. }
  split.
  - rewrite <- Rmult_assoc. apply Rmult_le_compat_r; [lra|]. rewrite <- rsumn_scal. apply rsumn_le.
    intros k Hk. destruct (L k Hk) as (_ & P & _). specialize (B k Hk). nra.
  - rewrite <- Rmult_assoc. apply Rmult_le_compat_r; [lra|]. rewrite <- rsumn_scal. apply rsumn_le.
    intros k Hk. destruct (L k Hk) as (_ & P & _). specialize (B k Hk). nra.
Qed.

Lemma rot_aperture_shift o ins q q0 a W xc yc pad F H g i dx dy va rt sg f l M st :
  (forall j, (j < t_npix o + 2 * e_padY g)%nat -> lnth l j = Fin (f (sx (t_npix o + 2 * e_padY g) dy yc j))) -> (forall y, Rabs (f y) <= M) ->
  grid_of o ins q q0 a W xc yc pad F H g i dx dy -> 0 < rt -> (0 < t_npix o)%nat -> 0 < H ->
  (forall r z, exists v, t_int o (Fin r) (Fin z) = Fin v /\ 0 < v) ->
  psf_fwhm (j_psf ins) = Some (Fin F) -> sees F st -> t_method o <> OtherMethod -> 
  exists s, rot_aperture o ins g st (fst (kin_cube g [Fin va; Fin rt] [Fin sg] (Some l)))
              (snd (kin_cube g [Fin va; Fin rt] [Fin sg] (Some l))) = Ok (Fin s) /\
    shift_average va rt sg a i W H xc yc (pad * F) f s.
Proof.
  intros Hl HM G Hrt Hn PH HI EF Se Mm.
  assert (RUN : forall lo hi, 0 <= lo ->
    (forall x y z, Rabs (x + xc) <= W / 2 + pad * F -> Rabs (y + yc) <= H / 2 + pad * F -> Rabs z <= H / 2 ->
       lo <= (speed va rt a i x y z + f y) ^ 2 + sg ^ 2 <= hi) ->
    exists s, rot_aperture o ins g st (fst (kin_cube g [Fin va; Fin rt] [Fin sg] (Some l)))
              (snd (kin_cube g [Fin va; Fin rt] [Fin sg] (Some l))) = Ok (Fin s) /\ 0 <= s /\ lo <= s * s <= hi).
  { intros lo hi L0 LB.
    destruct (kin_cube_shift _ _ _ _ _ _ _ _ _ _ _ _ _ _ _ va rt sg f l lo hi Hl G ltac:(lra) Hn HI LB) as (D & R0 & C0).
    set (sI := fst (kin_cube g [Fin va; Fin rt] [Fin sg] (Some l))) in *. set (I := snd (kin_cube g [Fin va; Fin rt] [Fin sg] (Some l))) in *.
    pose proof (go_nx _ _ _ _ _ _ _ _ _ _ _ _ _ _ _ G) as Nx.
    destruct (see_dom lo hi sI I F st D) as (A' & B' & EA & EB & D' & R' & C' & _); [lia|lia|auto|].
    unfold rot_aperture. rewrite EF. cbn [need bind]. rewrite EA, EB. cbn [bind sub2o].
    rewrite (go_ny _ _ _ _ _ _ _ _ _ _ _ _ _ _ _ G).
    destruct (sub_dims B' (e_padY g) (t_npix o) (e_padX g) (e_nx g)) as [d0 d1]; [congruence|congruence|].
    rewrite (go_ew _ _ _ _ _ _ _ _ _ _ _ _ _ _ _ G), (go_dx _ _ _ _ _ _ _ _ _ _ _ _ _ _ _ G), (go_dy _ _ _ _ _ _ _ _ _ _ _ _ _ _ _ G).
    destruct (aperture_average (t_method o) H dx dy
      (sub2z A' (Z.of_nat (e_padY g)) (Z.of_nat (t_npix o + e_padY g)) (Z.of_nat (e_padX g)) (Z.of_nat (e_nx g + e_padX g)))
      (sub2z B' (Z.of_nat (e_padY g)) (Z.of_nat (t_npix o + e_padY g)) (Z.of_nat (e_padX g)) (Z.of_nat (e_nx g + e_padX g)))
      lo hi) as (s & E & S0 & S1 & _); auto.
    - apply (go_px _ _ _ _ _ _ _ _ _ _ _ _ _ _ _ G).
    - apply (go_py _ _ _ _ _ _ _ _ _ _ _ _ _ _ _ G).
    - rewrite d0. lia.
    - rewrite d1. lia.
    - now apply sub_dom.
    - exists s. auto. }
  (* A crude bound shows the value exists. *)
  assert (SB : forall x y z, 0 <= speed va rt a i x y z ^ 2 <= va ^ 2).
  { intros x y z. unfold speed, rotation.
    set (X := cos i * _ + _). set (Y := _ - x * _). set (r := sqrt _).
    assert (Hr : 0 <= r) by apply sqrt_pos.
    assert (K1 : (2 / PI * atan (r / rt)) ^ 2 <= 1).
    { pose proof (atan_bound (r / rt)) as [A1 A2]. pose proof PI_RGT_0.
      assert (K : -1 <= 2 / PI * atan (r / rt) <= 1).
      { split; apply Rmult_le_reg_l with PI; auto.
        - replace (PI * (2 / PI * atan (r / rt))) with (2 * atan (r / rt)) by (field; lra). lra.
        - replace (PI * (2 / PI * atan (r / rt))) with (2 * atan (r / rt)) by (field; lra). lra. }
      nra. }
    assert (K2 : (Y / r) ^ 2 <= 1).
    { destruct (Req_dec r 0) as [E|N].
      - assert (Y = 0).
        { unfold r in E. apply sqrt_eq_0 in E; [|pose proof (Rle_0_sqr X); pose proof (Rle_0_sqr Y); unfold Rsqr in *; nra].
          pose proof (Rle_0_sqr X). pose proof (Rle_0_sqr Y). unfold Rsqr in *. nra. }
        rewrite H0. unfold Rdiv. rewrite Rmult_0_l. lra.
      - assert (E : r * r = X ^ 2 + Y ^ 2).
        { unfold r. apply sqrt_sqrt. pose proof (Rle_0_sqr X); pose proof (Rle_0_sqr Y); unfold Rsqr in *; nra. }
        replace ((Y / r) ^ 2) with (Y ^ 2 / (r * r)) by (field; auto).
        assert (0 < r * r) by nra.
        apply Rmult_le_reg_r with (r * r); auto. unfold Rdiv. rewrite Rmult_assoc, Rinv_l by lra.
        pose proof (Rle_0_sqr X). unfold Rsqr in *. nra. }
    assert (K3 : sin i ^ 2 <= 1) by (pose proof (SIN_bound i); nra).
    split; [replace ((2 / PI * va * atan (r / rt) * (Y / r) * sin i) ^ 2) with (Rsqr (2 / PI * va * atan (r / rt) * (Y / r) * sin i)) by (unfold Rsqr; ring); apply Rle_0_sqr|].
    replace ((2 / PI * va * atan (r / rt) * (Y / r) * sin i) ^ 2)
      with (va ^ 2 * ((2 / PI * atan (r / rt)) ^ 2 * (Y / r) ^ 2 * sin i ^ 2)) by ring.
    set (k1 := (2 / PI * atan (r / rt)) ^ 2) in *. set (k2 := (Y / r) ^ 2) in *. set (k3 := sin i ^ 2) in *.
    assert (0 <= k1) by (unfold k1; nra). assert (0 <= k2) by (unfold k2; nra). assert (0 <= k3) by (unfold k3; nra).
    assert (k1 * k2 * k3 <= 1). { assert (k1 * k2 <= 1) by nra. assert (0 <= k1 * k2) by nra. nra. }
    assert (0 <= va ^ 2) by nra. nra. }
  destruct (RUN (sg ^ 2) ((Rabs va + M) ^ 2 + sg ^ 2)) as (s & E & S0 & _).
  - nra.
  - intros x y z _ _ _. specialize (SB x y z). specialize (HM y).
    assert (A : Rabs (speed va rt a i x y z) <= Rabs va).
    { apply Rsqr_le_abs_0. unfold Rsqr. lra. }
    pose proof (Rabs_triang (speed va rt a i x y z) (f y)) as T.
    assert (B : Rabs (speed va rt a i x y z + f y) <= Rabs va + M) by lra.
    pose proof (Rabs_pos (speed va rt a i x y z + f y)).
    replace ((speed va rt a i x y z + f y) ^ 2) with (Rabs (speed va rt a i x y z + f y) ^ 2) by (rewrite <- !Rsqr_pow2, <- Rsqr_abs; reflexivity).
    split; nra.
  - exists s. split; auto. split; auto. intros lo hi L0 LB.
    assert (H0 : 0 <= hi).
    { specialize (LB (- xc) (- yc) 0).
      assert (PF : 0 <= W / 2 + pad * F).
      { pose proof (go_bx _ _ _ _ _ _ _ _ _ _ _ _ _ _ _ G) as K. pose proof (go_px _ _ _ _ _ _ _ _ _ _ _ _ _ _ _ G).
        pose proof (go_nx _ _ _ _ _ _ _ _ _ _ _ _ _ _ _ G) as Nx.
        assert (1 <= INR (e_nx g + 2 * e_padX g)) by (change 1 with (INR 1); apply le_INR; lia). nra. }
      assert (PG : 0 <= H / 2 + pad * F).
      { pose proof (go_by _ _ _ _ _ _ _ _ _ _ _ _ _ _ _ G) as K. pose proof (go_py _ _ _ _ _ _ _ _ _ _ _ _ _ _ _ G).
        assert (1 <= INR (t_npix o + 2 * e_padY g)) by (change 1 with (INR 1); apply le_INR; lia). nra. }
      assert (lo <= sqrt ((speed va rt a i (- xc) (- yc) 0 + f (- yc)) ^ 2 + sg ^ 2) <= hi).
      { apply LB; [replace (- xc + xc) with 0 by ring|replace (- yc + yc) with 0 by ring|]; rewrite Rabs_R0; lra. }
      lra. }
    destruct (RUN (lo * lo) (hi * hi)) as (s' & E' & S0' & B').
    + nra.
    + intros x y z Hx Hy Hz. specialize (LB x y z Hx Hy Hz).
      assert (P : 0 <= (speed va rt a i x y z + f y) ^ 2 + sg ^ 2) by (pose proof (pow2_ge_0 (speed va rt a i x y z + f y)); pose proof (pow2_ge_0 sg); lra).
      rewrite <- (sqrt_sqrt _ P). set (t := sqrt _) in *. nra.
    + rewrite E in E'. injection E' as <-. apply sq_root; auto.
Qed.

Lemma rot_run_shift f shift o ins gal re q q0 a W xc yc pad F H va rt R0 v0 sg :
  shift_along f shift ->
  physical_rot o ins gal re q q0 a W xc yc pad F H va rt -> ref_radius o re R0 ->
  update_kinProfile o (Fin R0) = ([Fin v0; Fin rt], [Fin sg]) ->
  exists st i s, rot_new shift (shifted o) ins gal = Ok st /\ inclined q q0 i /\
    shift_average v0 rt sg a i W H xc yc (pad * F) f s /\
    h_out st = Some (mkout1 (Fin s) (Fin (sqrt (rotation v0 rt R0 ^ 2 + sg ^ 2)))
                      (fdiv (Fin s) (Fin (sqrt (rotation v0 rt R0 ^ 2 + sg ^ 2))))).
Proof.
  intros [(M & HM) SF] P RR U. destruct (grid_1R_ok _ _ _ _ _ _ _ _ _ _ _ _ _ _ _ P) as (g & i & dx & dy & EG & G).
  destruct P as ((Er & Eq & Eq0 & Ea) & (EW & Ex & Ey & Ep & Ev & Et) & (Pre & Pq & Pq0 & PW & Pp & Pt) & PP & HF & Mm & S1 & S2 & HE & Nn & HH & HI).
  pose proof PP as (EF & _).
  assert (PH : 0 < H).
  { destruct HE as [[_ ->]|[_ P]]; auto. apply width_value; lra. }
  destruct (stamp_1R_ok _ _ _ _ _ _ _ _ _ _ _ _ _ _ _ G PP HF Nn HH) as (st & Est & Se).
  destruct (rot_aperture_shift _ _ _ _ _ _ _ _ _ _ _ _ _ _ _ v0 rt sg f (map (fun y => Fin (f y)) (map (sx (t_npix o + 2 * e_padY g) dy yc) (seq 0 (t_npix o + 2 * e_padY g)))) M st (sl _ _ _ _) HM G Pt Nn PH HI EF Se Mm) as (s & ES & AV).
  assert (ER : (match t_rad o with Some r => r | None => l_re gal end) = Fin R0).
  { unfold ref_radius in RR. destruct (t_rad o); [auto|]. rewrite Er, RR. reflexivity. }
  unfold rot_new. change (t_rad (shifted o)) with (t_rad o). change (grid_1R (shifted o)) with (grid_1R o). rewrite EG. cbn [bind]. rewrite Est. cbn [bind]. rewrite ER.
  unfold calc_aper_correction, bindS, getS, liftR, ret, modS. cbn [h_g h_st h_rad h_dv h_out]. change (t_shift (shifted o)) with true.
  change (update_kinProfile (shifted o)) with (update_kinProfile o). rewrite U. cbn [orb fst snd].
  rewrite (SF _ _ _ (go_ly _ _ _ _ _ _ _ _ _ _ _ _ _ _ _ G)). unfold putS. cbn [h_g h_st h_rad h_dv h_out].
  change (rot_aperture (shifted o)) with (rot_aperture o). rewrite ES. cbn [h_g h_st h_rad h_dv h_out].
  eexists. exists i, s. split; [reflexivity|]. split; [apply (go_incl _ _ _ _ _ _ _ _ _ _ _ _ _ _ _ G)|]. split; [exact AV|].
  cbn [h_out]. rewrite vel_Fin by lra. unfold fsq. cbn [disp_const fmul fadd fsqrt].
  set (k := 2 / PI * v0 * atan (R0 / rt)). assert (K : 0 <= k * k + (0 * R0 + sg) * (0 * R0 + sg)).
  { pose proof (Rle_0_sqr k). pose proof (Rle_0_sqr (0 * R0 + sg)). unfold Rsqr in *. lra. }
  rewrite (proj2 (Rltb_false _ _)) by lra.
  replace (rotation v0 rt R0 ^ 2 + sg ^ 2) with (k * k + (0 * R0 + sg) * (0 * R0 + sg)) by (unfold rotation; fold k; ring).
  reflexivity.
Qed.

(** A uniform shift: with nothing rotating it adds to the dispersion in quadrature. *)
Lemma shift_uniform d shift o ins gal re q q0 a W xc yc pad F H va rt R0 :
  shift_along (fun _ => d) shift -> physical_rot o ins gal re q q0 a W xc yc pad F H va rt -> ref_radius o re R0 ->
  t_ratio o = Some (Fin 0) -> 0 < va ->
  exists st, rot_new shift (shifted o) ins gal = Ok st /\
    h_out st = Some (mkout1 (Fin (sqrt (d ^ 2 + va ^ 2))) (Fin va) (Fin (sqrt (d ^ 2 + va ^ 2) / va))).
Proof.
  intros SA P RR ER Hva.
  assert (EV : t_va o = Fin va /\ t_rt o = Fin rt /\ 0 < rt) by (destruct P as (_ & (_ & _ & _ & _ & ? & ?) & (_ & _ & _ & _ & _ & ?) & _); auto).
  destruct EV as (Ev & Et & Pt).
  destruct (rot_run_shift _ shift o ins gal re q q0 a W xc yc pad F H va rt R0 0 va SA P RR) as (st & i & s & E & INC & (S0 & AV) & O).
  { apply realised; auto; lra. }
  exists st. split; auto. rewrite O.
  assert (V0 : forall x y z, speed 0 rt a i x y z = 0) by (intros; unfold speed, rotation; ring).
  assert (SQ : sqrt (0 ^ 2 + va ^ 2) = va) by (replace (0 ^ 2 + va ^ 2) with (va * va) by ring; apply sqrt_square; lra).
  set (m := sqrt (d ^ 2 + va ^ 2)) in *.
  assert (Es : m <= s <= m).
  { apply AV; [apply sqrt_pos|]. intros. rewrite V0, Rplus_0_l. fold m. lra. }
  assert (s = m) by lra. subst s.
  assert (R00 : rotation 0 rt R0 = 0) by (unfold rotation; ring).
  rewrite R00, SQ. rewrite fdiv_Fin by lra. reflexivity.
Qed.

Lemma ex_shift : exists st, rot_new (fun g _ => Ok (map (fun _ => Fin 30) (e_y g))) (shifted (ex_ropt (Some (Fin 0)) false)) ex_ins1 ex_galr = Ok st /\
  h_out st = Some (mkout1 (Fin (sqrt (30 ^ 2 + 100 ^ 2))) (Fin 100) (Fin (sqrt (30 ^ 2 + 100 ^ 2) / 100))).
Proof.
  assert (SA : shift_along (fun _ => 30) (fun g _ => Ok (map (fun _ => Fin 30) (e_y g)))).
  { split; [exists 30; intros _; rewrite Rabs_pos_eq; lra|]. intros g st ys ->. now rewrite map_map. }
  apply (shift_uniform 30 _ _ _ _ _ _ _ _ _ _ _ _ _ _ _ _ 1 SA (ex_physical_rot (Some (Fin 0)))); [reflexivity|reflexivity|lra].
Qed.
