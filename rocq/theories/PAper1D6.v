(* The 1-D rotation model: averaging, requested ratio, recalculation; angle conventions. *)
From Coq Require Import Reals List Bool Arith ZArith Lia Lra Psatz.
From Verif Require Import PyFloat PyBase Arr PyNum MKernels MAper2D MProf MAper1D SKernels SAper1D SProf
  PKernels PKernels2 PProf PProf2 PAper1D PAper1D2 PAper1D3 PAper1D4 PAper1D5.
From Verif Require PLine.
Import ListNotations.
Local Open Scope R_scope.

Lemma kin_cube_dom o ins q q0 a W xc yc pad F H g i dx dy va rt sg lo hi :
  grid_of o ins q q0 a W xc yc pad F H g i dx dy -> rt <> 0 -> (0 < t_npix o)%nat ->
  (forall r z, exists v, t_int o (Fin r) (Fin z) = Fin v /\ 0 < v) ->
  (forall x y z, Rabs (x + xc) <= W / 2 + pad * F -> Rabs (y + yc) <= H / 2 + pad * F -> Rabs z <= H / 2 ->
       lo <= speed va rt a i x y z ^ 2 + sg ^ 2 <= hi) ->
  let c := kin_cube g [Fin va; Fin rt] [Fin sg] None in
  dom lo hi (fst c) (snd c) /\ rows (snd c) = (t_npix o + 2 * e_padY g)%nat /\ cols (snd c) = (e_nx g + 2 * e_padX g)%nat.
Proof.
  intros G Hrt Hn HI HB c. unfold c, kin_cube. cbn [fst snd].
  rewrite (go_d0 _ _ _ _ _ _ _ _ _ _ _ _ _ _ _ G), (go_d1 _ _ _ _ _ _ _ _ _ _ _ _ _ _ _ G), (go_d2 _ _ _ _ _ _ _ _ _ _ _ _ _ _ _ G).
  split; [|split; reflexivity]. split; [reflexivity|]. split; [reflexivity|]. cbn [rows cols at2]. intros j ii Hj Hi.
  rewrite (go_sini _ _ _ _ _ _ _ _ _ _ _ _ _ _ _ G), (go_dy _ _ _ _ _ _ _ _ _ _ _ _ _ _ _ G).
  pose proof (go_py _ _ _ _ _ _ _ _ _ _ _ _ _ _ _ G) as Py. pose proof (go_px _ _ _ _ _ _ _ _ _ _ _ _ _ _ _ G) as Px.
  set (x := sx (e_nx g + 2 * e_padX g) dx xc ii). set (y := sx (t_npix o + 2 * e_padY g) dy yc j).
  assert (L : exists I : nat -> R, forall k, (k < t_npix o)%nat ->
    at3 (e_I g) k j ii = Fin (I k) /\ 0 < I k /\
    (exists r z, at3 (e_r g) k j ii = Fin r /\ at3 (e_zint g) k j ii = Fin z) /\
    fmul (fmul (vel_arctan [Fin va; Fin rt] (at3 (e_r g) k j ii) (at3 (e_zint g) k j ii))
           (if feqb (at3 (e_r g) k j ii) (Fin 0) then Fin 0 else fdiv (at3 (e_yint g) k j ii) (at3 (e_r g) k j ii)))
         (Fin (sin i)) = Fin (speed va rt a i x y (sx (t_npix o) dy 0 k))).
  { exists (fun k => val (at3 (e_I g) k j ii)). intros k Hk.
    destruct (go_pt _ _ _ _ _ _ _ _ _ _ _ _ _ _ _ G k j ii Hk Hj Hi) as (R1 & R2 & R3 & R4). fold x y in R1, R2, R3.
    destruct (local_speed va rt a i x y (sx (t_npix o) dy 0 k) Hrt) as ((r & Er) & (z & Ez) & V). cbv zeta in V.
    rewrite <- R1, <- R2, <- R3 in V. rewrite <- R1 in Er. rewrite <- R3 in Ez.
    rewrite R4. destruct (HI r z) as (v & Ev & Pv).
    split; [now rewrite Er, Ez, Ev|]. split; [rewrite Er, Ez, Ev; exact Pv|]. split; [eauto|]. exact V. }
  destruct L as [I L].
  exists (rsumn (t_npix o) (fun k => (speed va rt a i x y (sx (t_npix o) dy 0 k) ^ 2 + sg ^ 2) * I k) * dy),
         (rsumn (t_npix o) I * dy).
  rewrite (fsumn_pos _ _ (fun k => (speed va rt a i x y (sx (t_npix o) dy 0 k) ^ 2 + sg ^ 2) * I k)).
  2:{ intros k Hk. destruct (L k Hk) as (E & _ & (r & z & Er & Ez) & V). cbv zeta. rewrite V, E.
      rewrite Er, Ez. unfold fsq. cbn [disp_const fmul fadd]. f_equal. ring. }
  rewrite (fsumn_pos _ _ I) by (intros k Hk; apply (L k Hk)).
  split; [reflexivity|]. split; [reflexivity|].
  assert (PI' : 0 < rsumn (t_npix o) I).
  { apply rsumn_pos; [intros k Hk; left; apply (L k Hk)|]. exists 0%nat. split; auto. apply (L 0%nat Hn). }
  split; [nra|].
  assert (B : forall k, (k < t_npix o)%nat -> lo <= speed va rt a i x y (sx (t_npix o) dy 0 k) ^ 2 + sg ^ 2 <= hi).
  { intros k Hk. apply HB.
    - eapply Rle_trans; [apply sx_bound; [lra|auto]|]. apply (go_bx _ _ _ _ _ _ _ _ _ _ _ _ _ _ _ G).
    - eapply Rle_trans; [apply sx_bound; [lra|auto]|]. apply (go_by _ _ _ _ _ _ _ _ _ _ _ _ _ _ _ G).
    - replace (sx (t_npix o) dy 0 k) with (sx (t_npix o) dy 0 k + 0) by ring.
      eapply Rle_trans; [apply sx_bound; [lra|auto]|].
      rewrite (go_dyv _ _ _ _ _ _ _ _ _ _ _ _ _ _ _ G) in *.
      assert (0 < INR (t_npix o)) by (apply lt_0_INR; lia).
      replace (H / 2) with (INR (t_npix o) / 2 * (H / INR (t_npix o))) by (field; lra). nra. }
  split.
  - rewrite <- Rmult_assoc. apply Rmult_le_compat_r; [lra|]. rewrite <- rsumn_scal. apply rsumn_le.
    intros k Hk. destruct (L k Hk) as (_ & P & _). specialize (B k Hk). nra.
  - rewrite <- Rmult_assoc. apply Rmult_le_compat_r; [lra|]. rewrite <- rsumn_scal. apply rsumn_le.
    intros k Hk. destruct (L k Hk) as (_ & P & _). specialize (B k Hk). nra.
Qed.

Lemma stamp_1R_ok o ins q q0 a W xc yc pad F H g i dx dy :
  grid_of o ins q q0 a W xc yc pad F H g i dx dy -> plain_psf (j_psf ins) F -> 0 < F -> (0 < t_npix o)%nat ->
  H <= 2 * F * INR (t_npix o) -> exists st, stamp_1R ins g = Ok st /\ sees F st.
Proof.
  intros G PP HF Hn HH. pose proof PP as (EF & _).
  pose proof (go_py _ _ _ _ _ _ _ _ _ _ _ _ _ _ _ G) as Py. pose proof (go_px _ _ _ _ _ _ _ _ _ _ _ _ _ _ _ G) as Px.
  pose proof (go_le _ _ _ _ _ _ _ _ _ _ _ _ _ _ _ G) as Le.
  assert (D : dy <= 2 * F).
  { rewrite (go_dyv _ _ _ _ _ _ _ _ _ _ _ _ _ _ _ G). assert (0 < INR (t_npix o)) by (apply lt_0_INR; lia).
    apply Rmult_le_reg_r with (INR (t_npix o)); auto. unfold Rdiv. rewrite Rmult_assoc, Rinv_l by lra. lra. }
  pose proof (go_nx _ _ _ _ _ _ _ _ _ _ _ _ _ _ _ G) as Nx.
  unfold stamp_1R. rewrite EF. cbn [need bind].
  rewrite (go_lx _ _ _ _ _ _ _ _ _ _ _ _ _ _ _ G), (go_ly _ _ _ _ _ _ _ _ _ _ _ _ _ _ _ G).
  destruct (trim_axis (e_nx g + 2 * e_padX g) dx xc F) as (lx & Nlx & ->); [lia|lra|lra|].
  destruct (trim_axis (t_npix o + 2 * e_padY g) dy yc F) as (ly & Nly & ->); [lia|lra|lra|].
  destruct (plain_stamp (j_psf ins) F lx ly PP HF Nlx Nly) as (k & E & B).
  rewrite E. cbn [bind]. eexists. split; [reflexivity|]. right. eauto.
Qed.

Lemma rot_aperture_ok o ins q q0 a W xc yc pad F H g i dx dy va rt sg st :
  grid_of o ins q q0 a W xc yc pad F H g i dx dy -> 0 < rt -> (0 < t_npix o)%nat -> 0 < H ->
  (forall r z, exists v, t_int o (Fin r) (Fin z) = Fin v /\ 0 < v) ->
  psf_fwhm (j_psf ins) = Some (Fin F) -> sees F st -> t_method o <> OtherMethod -> 
  exists s, rot_aperture o ins g st (fst (kin_cube g [Fin va; Fin rt] [Fin sg] None))
              (snd (kin_cube g [Fin va; Fin rt] [Fin sg] None)) = Ok (Fin s) /\
    rot_average va rt sg a i W H xc yc (pad * F) s.
Proof.
  intros G Hrt Hn PH HI EF Se Mm.
  assert (RUN : forall lo hi, 0 <= lo ->
    (forall x y z, Rabs (x + xc) <= W / 2 + pad * F -> Rabs (y + yc) <= H / 2 + pad * F -> Rabs z <= H / 2 ->
       lo <= speed va rt a i x y z ^ 2 + sg ^ 2 <= hi) ->
    exists s, rot_aperture o ins g st (fst (kin_cube g [Fin va; Fin rt] [Fin sg] None))
              (snd (kin_cube g [Fin va; Fin rt] [Fin sg] None)) = Ok (Fin s) /\ 0 <= s /\ lo <= s * s <= hi).
  { intros lo hi L0 LB.
    destruct (kin_cube_dom _ _ _ _ _ _ _ _ _ _ _ _ _ _ _ va rt sg lo hi G ltac:(lra) Hn HI LB) as (D & R0 & C0).
    set (sI := fst (kin_cube g [Fin va; Fin rt] [Fin sg] None)) in *. set (I := snd (kin_cube g [Fin va; Fin rt] [Fin sg] None)) in *.
    pose proof (go_nx _ _ _ _ _ _ _ _ _ _ _ _ _ _ _ G) as Nx.
    destruct (see_dom lo hi sI I F st D) as (A' & B' & EA & EB & D' & R' & C' & _); [lia|lia|auto|].
    unfold rot_aperture. rewrite EF. cbn [need bind]. rewrite EA, EB. cbn [bind sub2o].
    rewrite (go_ny _ _ _ _ _ _ _ _ _ _ _ _ _ _ _ G).
    destruct (sub_dims B' (e_padY g) (t_npix o) (e_padX g) (e_nx g)) as [d0 d1]; [congruence|congruence|].
    rewrite (go_ew _ _ _ _ _ _ _ _ _ _ _ _ _ _ _ G), (go_dx _ _ _ _ _ _ _ _ _ _ _ _ _ _ _ G), (go_dy _ _ _ _ _ _ _ _ _ _ _ _ _ _ _ G).
    destruct (aperture_average (t_method o) H dx dy
      (sub2z A' (Z.of_nat (e_padY g)) (Z.of_nat (t_npix o + e_padY g)) (Z.of_nat (e_padX g)) (Z.of_nat (e_nx g + e_padX g)))
      (sub2z B' (Z.of_nat (e_padY g)) (Z.of_nat (t_npix o + e_padY g)) (Z.of_nat (e_padX g)) (Z.of_nat (e_nx g + e_padX g)))
      lo hi) as (s & E & S0 & S1 & _); auto.
    - apply (go_px _ _ _ _ _ _ _ _ _ _ _ _ _ _ _ G).
    - apply (go_py _ _ _ _ _ _ _ _ _ _ _ _ _ _ _ G).
    - rewrite d0. lia.
    - rewrite d1. lia.
    - now apply sub_dom.
    - exists s. auto. }
  (* A crude bound shows the value exists. *)
  assert (SB : forall x y z, 0 <= speed va rt a i x y z ^ 2 <= va ^ 2).
  { intros x y z. unfold speed, rotation.
    set (X := cos i * _ + _). set (Y := _ - x * _). set (r := sqrt _).
    assert (Hr : 0 <= r) by apply sqrt_pos.
    assert (K1 : (2 / PI * atan (r / rt)) ^ 2 <= 1).
    { pose proof (atan_bound (r / rt)) as [A1 A2]. pose proof PI_RGT_0.
      assert (K : -1 <= 2 / PI * atan (r / rt) <= 1).
      { split; apply Rmult_le_reg_l with PI; auto.
        - replace (PI * (2 / PI * atan (r / rt))) with (2 * atan (r / rt)) by (field; lra). lra.
        - replace (PI * (2 / PI * atan (r / rt))) with (2 * atan (r / rt)) by (field; lra). lra. }
      nra. }
    assert (K2 : (Y / r) ^ 2 <= 1).
    { destruct (Req_dec r 0) as [E|N].
      - assert (Y = 0).
        { unfold r in E. apply sqrt_eq_0 in E; [|pose proof (Rle_0_sqr X); pose proof (Rle_0_sqr Y); unfold Rsqr in *; nra].
          pose proof (Rle_0_sqr X). pose proof (Rle_0_sqr Y). unfold Rsqr in *. nra. }
        rewrite H0. unfold Rdiv. rewrite Rmult_0_l. lra.
      - assert (E : r * r = X ^ 2 + Y ^ 2).
        { unfold r. apply sqrt_sqrt. pose proof (Rle_0_sqr X); pose proof (Rle_0_sqr Y); unfold Rsqr in *; nra. }
        replace ((Y / r) ^ 2) with (Y ^ 2 / (r * r)) by (field; auto).
        assert (0 < r * r) by nra.
        apply Rmult_le_reg_r with (r * r); auto. unfold Rdiv. rewrite Rmult_assoc, Rinv_l by lra.
        pose proof (Rle_0_sqr X). unfold Rsqr in *. nra. }
    assert (K3 : sin i ^ 2 <= 1) by (pose proof (SIN_bound i); nra).
    split; [replace ((2 / PI * va * atan (r / rt) * (Y / r) * sin i) ^ 2) with (Rsqr (2 / PI * va * atan (r / rt) * (Y / r) * sin i)) by (unfold Rsqr; ring); apply Rle_0_sqr|].
    replace ((2 / PI * va * atan (r / rt) * (Y / r) * sin i) ^ 2)
      with (va ^ 2 * ((2 / PI * atan (r / rt)) ^ 2 * (Y / r) ^ 2 * sin i ^ 2)) by ring.
    set (k1 := (2 / PI * atan (r / rt)) ^ 2) in *. set (k2 := (Y / r) ^ 2) in *. set (k3 := sin i ^ 2) in *.
    assert (0 <= k1) by (unfold k1; nra). assert (0 <= k2) by (unfold k2; nra). assert (0 <= k3) by (unfold k3; nra).
    assert (k1 * k2 * k3 <= 1). { assert (k1 * k2 <= 1) by nra. assert (0 <= k1 * k2) by nra. nra. }
    assert (0 <= va ^ 2) by nra. nra. }
  destruct (RUN (sg ^ 2) (va ^ 2 + sg ^ 2)) as (s & E & S0 & _).
  - nra.
  - intros x y z _ _ _. specialize (SB x y z). lra.
  - exists s. split; auto. split; auto. intros lo hi L0 LB.
    assert (H0 : 0 <= hi).
    { specialize (LB (- xc) (- yc) 0).
      assert (PF : 0 <= W / 2 + pad * F).
      { pose proof (go_bx _ _ _ _ _ _ _ _ _ _ _ _ _ _ _ G) as K. pose proof (go_px _ _ _ _ _ _ _ _ _ _ _ _ _ _ _ G).
        pose proof (go_nx _ _ _ _ _ _ _ _ _ _ _ _ _ _ _ G) as Nx.
        assert (1 <= INR (e_nx g + 2 * e_padX g)) by (change 1 with (INR 1); apply le_INR; lia). nra. }
      assert (PG : 0 <= H / 2 + pad * F).
      { pose proof (go_by _ _ _ _ _ _ _ _ _ _ _ _ _ _ _ G) as K. pose proof (go_py _ _ _ _ _ _ _ _ _ _ _ _ _ _ _ G).
        assert (1 <= INR (t_npix o + 2 * e_padY g)) by (change 1 with (INR 1); apply le_INR; lia). nra. }
      assert (lo <= sqrt (speed va rt a i (- xc) (- yc) 0 ^ 2 + sg ^ 2) <= hi).
      { apply LB; [replace (- xc + xc) with 0 by ring|replace (- yc + yc) with 0 by ring|]; rewrite Rabs_R0; lra. }
      lra. }
    destruct (RUN (lo * lo) (hi * hi)) as (s' & E' & S0' & B').
    + nra.
    + intros x y z Hx Hy Hz. specialize (LB x y z Hx Hy Hz).
      assert (P : 0 <= speed va rt a i x y z ^ 2 + sg ^ 2) by (specialize (SB x y z); nra).
      rewrite <- (sqrt_sqrt _ P). set (t := sqrt _) in *. nra.
    + rewrite E in E'. injection E' as <-. apply sq_root; auto.
Qed.

(** The parameters realised for a requested ratio. *)
Lemma realised o va rt R0 : t_va o = Fin va -> t_rt o = Fin rt -> rt <> 0 ->
  (forall b, t_ratio o = Some (Fin b) -> b <> 0 ->
     update_kinProfile o (Fin R0) = ([Fin va; Fin rt], [Fin (rotation va rt R0 / b)])) /\
  (t_ratio o = None -> update_kinProfile o (Fin R0) = ([Fin va; Fin rt], [Fin 0])) /\
  (t_ratio o = Some (Fin 0) -> update_kinProfile o (Fin R0) = ([Fin 0; Fin rt], [Fin va])).
Proof.
  intros Ev Et Hrt. unfold update_kinProfile. repeat split.
  - intros b -> Hb. cbn [feqb]. rewrite (proj2 (Reqb_false _ _)) by auto. rewrite Ev, Et.
    rewrite vel_Fin by auto. rewrite fdiv_Fin by auto. reflexivity.
  - intros ->. now rewrite Ev, Et.
  - intros ->. cbn [feqb]. rewrite (proj2 (Reqb_true _ _)) by auto. now rewrite Ev, Et.
Qed.

(** Construction, for velocity and dispersion parameters realised as [v0], [rt] and [sg]. *)
Lemma rot_run shift o ins gal re q q0 a W xc yc pad F H va rt R0 v0 sg :
  physical_rot o ins gal re q q0 a W xc yc pad F H va rt -> ref_radius o re R0 ->
  update_kinProfile o (Fin R0) = ([Fin v0; Fin rt], [Fin sg]) ->
  exists st i s, rot_new shift o ins gal = Ok st /\ inclined q q0 i /\
    rot_average v0 rt sg a i W H xc yc (pad * F) s /\
    h_out st = Some (mkout1 (Fin s) (Fin (sqrt (rotation v0 rt R0 ^ 2 + sg ^ 2)))
                      (fdiv (Fin s) (Fin (sqrt (rotation v0 rt R0 ^ 2 + sg ^ 2))))).
Proof.
  intros P RR U. destruct (grid_1R_ok _ _ _ _ _ _ _ _ _ _ _ _ _ _ _ P) as (g & i & dx & dy & EG & G).
  destruct P as ((Er & Eq & Eq0 & Ea) & (EW & Ex & Ey & Ep & Ev & Et) & (Pre & Pq & Pq0 & PW & Pp & Pt) & PP & HF & Mm & S1 & S2 & HE & Nn & HH & HI).
  pose proof PP as (EF & _).
  assert (PH : 0 < H).
  { destruct HE as [[_ ->]|[_ P]]; auto. apply width_value; lra. }
  destruct (stamp_1R_ok _ _ _ _ _ _ _ _ _ _ _ _ _ _ _ G PP HF Nn HH) as (st & Est & Se).
  destruct (rot_aperture_ok _ _ _ _ _ _ _ _ _ _ _ _ _ _ _ v0 rt sg st G Pt Nn PH HI EF Se Mm) as (s & ES & AV).
  assert (ER : (match t_rad o with Some r => r | None => l_re gal end) = Fin R0).
  { unfold ref_radius in RR. destruct (t_rad o); [auto|]. rewrite Er, RR. reflexivity. }
  unfold rot_new. rewrite EG. cbn [bind]. rewrite Est. cbn [bind]. rewrite ER.
  unfold calc_aper_correction, bindS, getS, liftR, ret, modS. cbn [h_g h_st h_rad h_dv h_out]. rewrite S1, S2, U. cbn [orb fst snd].
  rewrite ES. cbn [h_g h_st h_rad h_dv h_out].
  eexists. exists i, s. split; [reflexivity|]. split; [apply (go_incl _ _ _ _ _ _ _ _ _ _ _ _ _ _ _ G)|]. split; [exact AV|].
  cbn [h_out]. rewrite vel_Fin by lra. unfold fsq. cbn [disp_const fmul fadd fsqrt].
  set (k := 2 / PI * v0 * atan (R0 / rt)). assert (K : 0 <= k * k + (0 * R0 + sg) * (0 * R0 + sg)).
  { pose proof (Rle_0_sqr k). pose proof (Rle_0_sqr (0 * R0 + sg)). unfold Rsqr in *. lra. }
  rewrite (proj2 (Rltb_false _ _)) by lra.
  replace (rotation v0 rt R0 ^ 2 + sg ^ 2) with (k * k + (0 * R0 + sg) * (0 * R0 + sg)) by (unfold rotation; fold k; ring).
  reflexivity.
Qed.

(** No rotation: the correction is one. *)
Lemma no_rotation shift o ins gal re q q0 a W xc yc pad F H va rt R0 :
  physical_rot o ins gal re q q0 a W xc yc pad F H va rt -> ref_radius o re R0 -> t_ratio o = Some (Fin 0) -> 0 < va ->
  exists st, rot_new shift o ins gal = Ok st /\ h_out st = Some (mkout1 (Fin va) (Fin va) (Fin 1)).
Proof.
  intros P RR ER Hva.
  assert (EV : t_va o = Fin va /\ t_rt o = Fin rt /\ 0 < rt) by (destruct P as (_ & (_ & _ & _ & _ & ? & ?) & (_ & _ & _ & _ & _ & ?) & _); auto).
  destruct EV as (Ev & Et & Pt).
  destruct (rot_run shift o ins gal re q q0 a W xc yc pad F H va rt R0 0 va P RR) as (st & i & s & E & INC & (S0 & AV) & O).
  { apply realised; auto; lra. }
  exists st. split; auto. rewrite O.
  assert (V0 : forall x y z, speed 0 rt a i x y z = 0) by (intros; unfold speed, rotation; ring).
  assert (SQ : sqrt (0 ^ 2 + va ^ 2) = va) by (replace (0 ^ 2 + va ^ 2) with (va * va) by ring; apply sqrt_square; lra).
  assert (Es : va <= s <= va) by (apply AV; [lra|]; intros; rewrite V0, SQ; lra).
  assert (s = va) by lra. subst s.
  assert (R00 : rotation 0 rt R0 = 0) by (unfold rotation; ring).
  rewrite R00, SQ. rewrite fdiv_Fin by lra. repeat f_equal. field. lra.
Qed.

(* ---------------- recalculation ---------------- *)

Lemma recalc_same shift o ins s s' : t_shift o = false -> t_eff o = false ->
  calc_aper_correction shift o ins s = (s', Ok tt) -> calc_aper_correction shift o ins s' = (s', Ok tt).
Proof.
  intros S1 S2. unfold calc_aper_correction, bindS, getS, liftR, ret, modS. rewrite S1, S2. cbn [orb].
  destruct (rot_aperture o ins (h_g s) (h_st s) _ _) as [ap|e] eqn:E; [|discriminate].
  intros K. injection K as <-. cbn [h_g h_st h_rad h_dv h_out]. rewrite E. reflexivity.
Qed.

Lemma recalc_fails shift o ins s s' : t_shift o = true \/ t_eff o = true ->
  calc_aper_correction shift o ins s = (s', Ok tt) -> snd (calc_aper_correction shift o ins s') = Err AttributeError.
Proof.
  intros S. unfold calc_aper_correction, bindS, getS, putS, liftR, ret, modS, raise.
  assert (T : t_shift o || t_eff o = true) by (destruct S as [->| ->]; [reflexivity|apply orb_true_r]).
  rewrite T. destruct (h_dv s) as [l|] eqn:D; [discriminate|].
  destruct (shift (h_g s) (h_st s)) as [l|e]; [|discriminate].
  cbn [h_g h_st h_rad h_dv h_out].
  destruct (rot_aperture o ins (h_g s) (h_st s) _ _) as [ap|e] eqn:E; [|discriminate].
  intros K. injection K as <-. reflexivity.
Qed.

(* ---------------- angle conventions ---------------- *)

(** A point of the midplane of a disc at angle [-a] and inclination with cos i = q. *)
Lemma ell_disc x y z a i : 0 < cos i ->
  forall X Y, transform_int_3d (Fin x) (Fin y) (Fin z) (Fin (- a)) (Fin i) = (Fin X, Fin Y, Fin 0) ->
  r_int_ellip (Fin x) (Fin y) (Fin (cos i)) (Fin a) = Fin (sqrt (cos i * (X ^ 2 + Y ^ 2))).
Proof.
  intros Hc X Y E. rewrite tr_Fin in E. cbv zeta in E.
  assert (E1 : cos i * (x * cos (- a * (PI / 180)) + y * sin (- a * (PI / 180))) + sin i * z = X) by congruence.
  assert (E2 : - x * sin (- a * (PI / 180)) + y * cos (- a * (PI / 180)) = Y) by congruence.
  assert (E3 : - sin i * (x * cos (- a * (PI / 180)) + y * sin (- a * (PI / 180))) + cos i * z = 0) by congruence.
  clear E. rewrite r_int_Fin by auto. f_equal. unfold ell.
  replace (- a * (PI / 180)) with (- (a * PI / 180)) in * by field.
  rewrite cos_neg, sin_neg in *. set (t := a * PI / 180) in *.
  pose proof (sin2_cos2 i) as SC. unfold Rsqr in SC.
  set (u := x * cos t + y * - sin t) in *.
  assert (Z : z = sin i * u / cos i) by (apply Rmult_eq_reg_l with (cos i); [|lra]; replace (cos i * (sin i * u / cos i)) with (sin i * u) by (field; lra); lra).
  assert (XV : X * cos i = u).
  { rewrite <- E1, Z. replace ((cos i * u + sin i * (sin i * u / cos i)) * cos i) with ((sin i * sin i + cos i * cos i) * u) by (field; lra).
    rewrite SC. ring. }
  f_equal. replace (cos t * x - sin t * y) with u by (unfold u; ring). rewrite <- XV.
  replace (sin t * x + cos t * y) with Y by (rewrite <- E2; ring). field. lra.
Qed.

(** With the same sign of the angle the radii differ. *)
Lemma ell_disc_refuted : exists x y z a i X Y, 0 < cos i /\
  transform_int_3d (Fin x) (Fin y) (Fin z) (Fin a) (Fin i) = (Fin X, Fin Y, Fin 0) /\
  r_int_ellip (Fin x) (Fin y) (Fin (cos i)) (Fin a) <> Fin (sqrt (cos i * (X ^ 2 + Y ^ 2))).
Proof.
  (* the point one unit along the major axis at 45 degrees, disc inclined by 60 degrees *)
  exists (- (1 * sin (45 * (PI / 180)))), (1 * cos (45 * (PI / 180))), 0, 45, (PI / 3), 0, 1.
  assert (C : cos (PI / 3) = 1 / 2) by apply cos_PI3.
  split; [rewrite C; lra|]. split.
  - replace (- (1 * sin (45 * (PI / 180)))) with (- 1 * sin (45 * (PI / 180))) by ring. apply (tr_major 45 (PI / 3) 1).
  - rewrite C, r_int_Fin by lra. intros K.
    assert (K' : ell (- (1 * sin (45 * (PI / 180)))) (1 * cos (45 * (PI / 180))) (1 / 2) 45 = sqrt (1 / 2 * (0 ^ 2 + 1 ^ 2))) by congruence.
    clear K. unfold ell in K'. replace (45 * PI / 180) with (PI / 4) in K' by field.
    replace (45 * (PI / 180)) with (PI / 4) in K' by field. rewrite sin_cos_PI4 in K'.
    pose proof (sin2_cos2 (PI / 4)) as S. rewrite sin_cos_PI4 in S. unfold Rsqr in S.
    set (k := cos (PI / 4)) in *.
    apply (f_equal (fun v => v * v)) in K'.
    rewrite !sqrt_sqrt in K'; nra.
Qed.
