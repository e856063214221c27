(* Proofs about the 1-D aperture models: the dispersion models. *)
From Coq Require Import Reals List Bool Arith ZArith Lia Lra Psatz FunctionalExtensionality.
From Verif Require Import PyFloat PyBase Arr PyNum MKernels MAper2D MProf MAper1D SKernels SAper1D SProf
  PKernels PKernels2 PProf PProf2 PAper1D PAper1D2.
Import ListNotations.
Local Open Scope R_scope.

(* ---------------- default width ---------------- *)

Lemma width_value re q a F : 0 < re -> 0 < q ->
  default_width (Fin re) (Fin q) (Fin a) (Fin F) = Fin (wide re q a F) /\ 0 < wide re q a F.
Proof.
  intros Hre Hq. unfold default_width, y_proj_major, fsq. cbn [fmul fadd].
  set (P := 2 * re * (2 * re) + F * F). set (Q := 2 * q * re * (2 * q * re) + F * F).
  assert (HP : 0 < P) by (unfold P; nra).
  assert (HQ : 0 < Q).
  { unfold Q. assert (0 < q * re) by nra. nra. }
  assert (SP : 0 < sqrt P) by (now apply sqrt_lt_R0). assert (SQ : 0 < sqrt Q) by (now apply sqrt_lt_R0).
  cbn [fsqrt]. rewrite !(proj2 (Rltb_false _ 0)) by lra. cbn [fmul fcos fabs].
  rewrite fdiv_Fin by lra. cbn [fmul fltb].
  assert (E : 1 / 2 * sqrt P * (1 / 2 * sqrt Q / (1 / 2 * sqrt P)) = 1 / 2 * sqrt Q) by (field; lra).
  rewrite E.
  assert (C : Rabs (1 / 2 * sqrt P * cos (a * (PI / 180))) = 1/2 * (Rabs (cos (a * PI / 180)) * sqrt P)).
  { rewrite !Rabs_mult. rewrite (Rabs_right (1/2)), (Rabs_right (sqrt P)) by lra.
    replace (a * (PI / 180)) with (a * PI / 180) by field. ring. }
  rewrite C.
  assert (WD : wide re q a F = 2 * Rmax (Rabs (cos (a * PI / 180)) * sqrt P) (sqrt Q)).
  { unfold wide, P, Q. do 2 f_equal; [f_equal; f_equal; ring|f_equal; ring]. }
  rewrite WD. unfold Rmax.
  destruct (Rltb (1/2 * (Rabs (cos (a * PI / 180)) * sqrt P)) (1/2 * sqrt Q)) eqn:L;
    [apply Rltb_true in L|apply Rltb_false in L]; cbn [fmul];
    destruct (Rle_dec (Rabs (cos (a * PI / 180)) * sqrt P) (sqrt Q)) as [K|K]; try lra;
    split; try (f_equal; lra); lra.
Qed.

Lemma width_bounds re q a F : 0 < re -> 0 < q -> 0 <= F ->
  2 * F <= wide re q a F /\ 4 * q * re <= wide re q a F /\
  4 * re * Rabs (cos (a * PI / 180)) <= wide re q a F /\
  wide re q a F <= 2 * Rmax 1 q * sqrt ((2 * re) ^ 2 + F ^ 2).
Proof.
  intros Hre Hq HF. unfold wide.
  set (u := Rabs (cos (a * PI / 180)) * sqrt ((2 * re) ^ 2 + F ^ 2)).
  set (v := sqrt ((2 * q * re) ^ 2 + F ^ 2)).
  assert (V1 : F <= v).
  { unfold v. rewrite <- (sqrt_pow2 F) at 1 by auto. apply sqrt_le_1_alt.
    pose proof (pow2_ge_0 (2 * q * re)). lra. }
  assert (V2 : 2 * q * re <= v).
  { unfold v. assert (0 <= 2 * q * re) by (assert (0 < q * re) by nra; lra).
    rewrite <- (sqrt_pow2 (2 * q * re)) at 1 by auto. apply sqrt_le_1_alt.
    pose proof (pow2_ge_0 F). lra. }
  assert (U1 : 2 * re * Rabs (cos (a * PI / 180)) <= u).
  { unfold u. assert (2 * re <= sqrt ((2 * re) ^ 2 + F ^ 2)).
    { rewrite <- (sqrt_pow2 (2 * re)) at 1 by lra. apply sqrt_le_1_alt. pose proof (pow2_ge_0 F). lra. }
    pose proof (Rabs_pos (cos (a * PI / 180))). nra. }
  pose proof (Rmax_l u v). pose proof (Rmax_r u v).
  split; [lra|]. split; [lra|]. split; [lra|].
  set (S := sqrt ((2 * re) ^ 2 + F ^ 2)) in *.
  assert (HS : 0 <= S) by apply sqrt_pos.
  assert (M1 : 1 <= Rmax 1 q) by apply Rmax_l. assert (M2 : q <= Rmax 1 q) by apply Rmax_r.
  assert (u <= Rmax 1 q * S).
  { unfold u. assert (Rabs (cos (a * PI / 180)) <= 1).
    { apply Rabs_le. pose proof (COS_bound (a * PI / 180)). lra. }
    pose proof (Rabs_pos (cos (a * PI / 180))). nra. }
  assert (v <= Rmax 1 q * S).
  { unfold v. rewrite <- (sqrt_pow2 (Rmax 1 q)) by lra. unfold S. rewrite <- sqrt_mult by nra.
    apply sqrt_le_1_alt. set (M := Rmax 1 q) in *.
    assert (q ^ 2 <= M ^ 2) by nra. assert (1 <= M ^ 2) by nra.
    assert (0 <= (2 * re) ^ 2) by nra. assert (0 <= F ^ 2) by nra.
    replace ((2 * q * re) ^ 2) with (q ^ 2 * (2 * re) ^ 2) by ring. nra. }
  assert (Rmax u v <= Rmax 1 q * S) by (apply Rmax_lub; auto). lra.
Qed.

(* ---------------- the window ---------------- *)

Lemma slice_bound_nat n k : (k <= n)%nat -> slice_bound n (Z.of_nat k) = k.
Proof. intros H. unfold slice_bound. destruct (Z.ltb_spec (Z.of_nat k) 0); lia. Qed.

Lemma window_sub (A : arr2 fl) n : rows A = (4 * n + 3)%nat -> cols A = (4 * n + 3)%nat ->
  let a := (Z.of_nat n + 1)%Z in let b := (3 * Z.of_nat n + 2)%Z in
  rows (sub2z A a b a b) = (2 * n + 1)%nat /\ cols (sub2z A a b a b) = (2 * n + 1)%nat /\
  forall j i, at2 (sub2z A a b a b) j i = at2 A (n + 1 + j) (n + 1 + i).
Proof.
  intros R0 C0 a b. unfold a, b.
  replace (Z.of_nat n + 1)%Z with (Z.of_nat (n + 1)) by lia.
  replace (3 * Z.of_nat n + 2)%Z with (Z.of_nat (3 * n + 2)) by lia.
  unfold sub2z. cbn [rows cols at2]. rewrite R0, C0.
  rewrite !slice_bound_nat by lia. repeat split; lia.
Qed.

(** The common part of the two dispersion models. *)
Definition common (m : method) (g : grid1) (st : stamp) (q a re nn rm c F : fl) : res fl :=
  do I <- I_image g q a re nn c;
  do sIc <- PSF_convolve_flat (mul2 (sig2_image g q a rm c) I) F st;
  do Ic <- PSF_convolve_flat I F st;
  let x := (Z.of_nat (u_n g) + 1)%Z in
  let y := (3 * Z.of_nat (u_n g) + 2)%Z in
  do sIt <- sub2o sIc x y x y;
  do It <- sub2o Ic x y x y;
  aperture_sigma m (u_ew g) (u_dx g) (u_dy g) sIt It.

Lemma sigma_aper_common o ins g st n re rm F : psf_fwhm (j_psf ins) = Some F ->
  sigma_aper o ins g st n re rm = common (d_method o) g st (Fin 1) (Fin 0) re n rm (d_rcore o) F.
Proof. intros H. unfold sigma_aper, common. rewrite H. reflexivity. Qed.

Lemma misalign_common o ins g st gal re rm F n W :
  psf_fwhm (j_psf ins) = Some F -> W <> 0 -> u_n g = n -> u_aper g = Fin W ->
  u_dx g = Fin (1/2 * W / (INR n + 1/2)) -> u_padY g = (n + 1)%nat ->
  sigma_aper_misalign o ins g st gal re rm =
  common (d_method o) g st (l_q gal) (l_dPA gal) re (l_n gal) rm (d_rcore o) F.
Proof.
  intros HF HW Hn Ha Hx Hp. unfold sigma_aper_misalign, common. rewrite HF. cbn [need bind].
  pose proof (half_pos n) as HN.
  destruct (I_image _ _ _ _ _ _) as [I|e]; cbn [bind]; [|reflexivity].
  destruct (PSF_convolve_flat (mul2 _ _) F st) as [sIc|e]; cbn [bind]; [|reflexivity].
  destruct (PSF_convolve_flat I F st) as [Ic|e]; cbn [bind]; [|reflexivity].
  rewrite Ha, Hx, Hp, Hn.
  assert (WX : 1/2 * W / (INR n + 1/2) <> 0).
  { unfold Rdiv. apply Rmult_integral_contrapositive_currified; [lra|]. apply Rinv_neq_0_compat. lra. }
  assert (E : fsub (fdiv (fmul (Fin (1/2)) (Fin W)) (Fin (1/2 * W / (INR n + 1/2)))) (Fin (1/2)) =
              Fin (IZR (Z.of_nat n))).
  { cbn [fmul]. rewrite fdiv_Fin by auto. unfold fsub. cbn [fneg fadd]. f_equal.
    rewrite <- INR_IZR_INZ. field. lra. }
  rewrite E. cbn [int_round bind]. rewrite Rround_IZR.
  rewrite <- INR_IZR_INZ.
  assert (E2 : fdiv (fmul (Fin (1/2)) (Fin W)) (Fin (INR n + 1/2)) = Fin (1/2 * W / (INR n + 1/2))).
  { cbn [fmul]. apply fdiv_Fin. lra. }
  rewrite E2.
  replace (2 * Z.of_nat n + Z.of_nat (n + 1) + 1)%Z with (3 * Z.of_nat n + 2)%Z by lia.
  replace (2 * Z.of_nat n + (Z.of_nat n + 1) + 1)%Z with (3 * Z.of_nat n + 2)%Z by lia.
  replace (Z.of_nat (n + 1)) with (Z.of_nat n + 1)%Z by lia. reflexivity.
Qed.

Lemma vds_decr rm c d r r' : 0 < rm -> 0 < c -> d <= 0 -> 0 <= r <= r' -> vds rm c d r' <= vds rm c d r.
Proof.
  intros Hm Hc Hd Hr. unfold vds, Rpower. assert (0 < c * rm) by nra.
  assert (L : ln ((r + c * rm) / (rm + c * rm)) <= ln ((r' + c * rm) / (rm + c * rm))).
  { destruct (Req_dec r r') as [->|]; [lra|]. left. apply ln_increasing.
    - apply Rdiv_lt_0_compat; lra.
    - unfold Rdiv. apply Rmult_lt_compat_r; [apply Rinv_0_lt_compat; lra|lra]. }
  destruct (Req_dec (d * ln ((r' + c * rm) / (rm + c * rm))) (d * ln ((r + c * rm) / (rm + c * rm)))) as [->|NE]; [lra|].
  left. apply exp_increasing. nra.
Qed.

Lemma rw_gauss s nr j : 0 < s -> rw s nr j = gauss_row s nr j.
Proof.
  intros H. unfold rw, gauss_row.
  assert (0 < sqrt (2 * PI)) by (apply sqrt_lt_R0; pose proof PI_RGT_0; lra).
  replace (- ((INR j - (INR nr - 1) / 2) / s * ((INR j - (INR nr - 1) / 2) / s)) / 2)
    with (- ((INR j - (INR nr - 1) / 2) / s) ^ 2 / 2) by (unfold Rdiv; ring).
  field. split; lra.
Qed.

Lemma common_value m g st n wx wy xc yc H q a re nn rm c F :
  u_n g = n -> u_dx g = Fin wx -> u_dy g = Fin wy -> u_ew g = Fin H ->
  wy = 1/2 * H / (INR n + 1/2) ->
  length (u_x g) = (4 * n + 3)%nat -> length (u_y g) = (4 * n + 3)%nat ->
  (forall i, (i < 4 * n + 3)%nat -> lnth (u_x g) i = Fin (gx n wx xc i)) ->
  (forall i, (i < 4 * n + 3)%nat -> lnth (u_y g) i = Fin (gx n wy yc i)) ->
  0 < wx -> 0 < H -> 0 < q -> 0 < re -> 0 < nn -> 0 < rm -> 0 < c -> m <> OtherMethod -> sees F st ->
  let r j i := ell (gx n wx xc i) (gx n wy yc j) q a in
  exists s, common m g st (Fin q) (Fin a) (Fin re) (Fin nn) (Fin rm) (Fin c) (Fin F) = Ok (Fin s) /\
    0 < s /\
    (forall lo hi, 0 <= lo ->
       (forall j i, (j < 4 * n + 3)%nat -> (i < 4 * n + 3)%nat -> lo <= vds rm c (-89/1000) (r j i) <= hi) ->
       lo <= s <= hi) /\
    (F <= 0 ->
       let I j i := row_weight m n j * sers re nn c (r (n + 1 + j)%nat (n + 1 + i)%nat) in
       s ^ 2 = rsum2 (2 * n + 1) (2 * n + 1) (fun j i => vds rm c (-89/1000) (r (n + 1 + j)%nat (n + 1 + i)%nat) ^ 2 * I j i) /
               rsum2 (2 * n + 1) (2 * n + 1) I).
Proof.
  intros Hn Hdx Hdy Hew Hwy Lx Ly Vx Vy Px PH Pq Pre Pn Pm Pc Mm Se r.
  assert (Py : 0 < wy) by (rewrite Hwy; apply Rdiv_lt_0_compat; [lra|apply half_pos]).
  destruct (images g n wx wy xc yc q a re nn rm c) as (B & EB & B0 & B1 & A0 & A1 & V); auto.
  set (A := mul2 (sig2_image g (Fin q) (Fin a) (Fin rm) (Fin c)) B) in *.
  unfold common. rewrite EB. cbn [bind]. fold A. rewrite Hn, Hdx, Hdy, Hew.
  assert (D : forall lo hi, 0 <= lo ->
    (forall j i, (j < 4 * n + 3)%nat -> (i < 4 * n + 3)%nat -> lo <= vds rm c (-89/1000) (r j i) <= hi) ->
    dom (lo * lo) (hi * hi) A B).
  { intros lo hi L0 L. split; [congruence|]. split; [congruence|]. rewrite B0, B1. intros j i Hj Hi.
    destruct (V j i Hj Hi) as [VB VA]. fold (r j i) in VB, VA. eexists. eexists. split; [exact VA|]. split; [exact VB|].
    pose proof (sers_pos re nn c (r j i)) as SP. split; auto.
    destruct (L j i Hj Hi) as [L1 L2].
    assert (lo * lo <= vds rm c (-89/1000) (r j i) ^ 2 <= hi * hi) by nra.
    split; apply Rmult_le_compat_r; lra. }
  assert (RUN : forall lo hi, dom (lo * lo) (hi * hi) A B ->
    exists s, (do sIc <- PSF_convolve_flat A (Fin F) st;
     do Ic <- PSF_convolve_flat B (Fin F) st;
     do sIt <- sub2o sIc (Z.of_nat n + 1) (3 * Z.of_nat n + 2) (Z.of_nat n + 1) (3 * Z.of_nat n + 2);
     do It <- sub2o Ic (Z.of_nat n + 1) (3 * Z.of_nat n + 2) (Z.of_nat n + 1) (3 * Z.of_nat n + 2);
     aperture_sigma m (Fin H) (Fin wx) (Fin wy) sIt It) = Ok (Fin s) /\ 0 <= s /\
     lo * lo <= s * s <= hi * hi /\
    (F <= 0 ->
       let I j i := row_weight m n j * sers re nn c (r (n + 1 + j)%nat (n + 1 + i)%nat) in
       s ^ 2 = rsum2 (2 * n + 1) (2 * n + 1) (fun j i => vds rm c (-89/1000) (r (n + 1 + j)%nat (n + 1 + i)%nat) ^ 2 * I j i) /
               rsum2 (2 * n + 1) (2 * n + 1) I)).
  { intros lo hi DD.
    destruct (see_dom _ _ A B F st DD) as (A' & B' & EA' & EB' & D' & R' & C' & Same); [lia|lia|auto|].
    rewrite EA', EB'. cbn [bind sub2o].
    assert (RB : rows B' = (4 * n + 3)%nat) by congruence. assert (CB : cols B' = (4 * n + 3)%nat) by congruence.
    pose proof D' as (RA & CA & _). rewrite RB in RA. rewrite CB in CA.
    destruct (window_sub B' n RB CB) as (W0 & W1 & W2).
    destruct (window_sub A' n RA CA) as (U0 & U1 & U2).
    destruct (aperture_average m H wx wy _ _ _ _ PH Px Py Mm ltac:(rewrite W0; lia) ltac:(rewrite W1; lia)
      ltac:(apply Rle_0_sqr) (sub_dom _ _ _ _ (Z.of_nat n + 1) (3 * Z.of_nat n + 2) (Z.of_nat n + 1) (3 * Z.of_nat n + 2) D'))
      as (s & ES & S0 & SB & w & Wp & WB & WO & SV).
    exists s. split; [exact ES|]. split; [auto|]. split; [auto|]. intros HF. destruct (Same HF) as [-> ->].
    replace (s ^ 2) with (s * s) by ring. rewrite SV. rewrite W0, W1 in *.
    assert (PS : 1/2 * H / wy / fwhm_factor = INR (2 * n + 1) / 2 / fwhm_factor).
    { rewrite Hwy. rewrite plus_INR, mult_INR. change (INR 2) with (1 + 1). change (INR 1) with 1.
      pose proof (half_pos n). pose proof fwhm_factor_pos. field. repeat split; lra. }
    assert (WW : forall j, (j < 2 * n + 1)%nat -> w j = row_weight m n j).
    { intros j Hj. destruct m; cbn [row_weight]; [|apply (WB eq_refl)|congruence].
      rewrite (WO eq_refl j Hj). rewrite PS.
      assert (SP : 0 < INR (2 * n + 1) / 2 / fwhm_factor).
      { pose proof fwhm_factor_pos. apply Rdiv_lt_0_compat; [|auto]. apply Rdiv_lt_0_compat; [|lra].
        apply lt_0_INR. lia. }
      unfold opt_row. rewrite rw_gauss by auto. f_equal. apply rsumn_ext. intros. now apply rw_gauss. }
    f_equal; apply rsumn_ext; intros j Hj; apply rsumn_ext; intros i Hi; unfold val2;
      rewrite ?U2, ?W2; destruct (V (n + 1 + j)%nat (n + 1 + i)%nat ltac:(lia) ltac:(lia)) as [VB VA];
      fold (r (n + 1 + j)%nat (n + 1 + i)%nat) in VB, VA; rewrite ?VA, ?VB, (WW j Hj); cbn [val]; ring. }
  assert (BD : forall j i, (j < 4 * n + 3)%nat -> (i < 4 * n + 3)%nat -> 
            vds rm c (-89/1000) (r j i) <= vds rm c (-89/1000) 0).
  { intros j i _ _. apply vds_decr; auto; try lra. split; [lra|apply ell_nonneg]. }
  destruct (RUN 0 (vds rm c (-89/1000) 0)) as (s & ES & S0 & _ & SV).
  { apply D; [lra|]. intros j i Hj Hi. split; [left; apply vds_pos|now apply BD]. }
  assert (BND : forall lo hi, 0 <= lo ->
       (forall j i, (j < 4 * n + 3)%nat -> (i < 4 * n + 3)%nat -> lo <= vds rm c (-89/1000) (r j i) <= hi) ->
       lo <= s <= hi).
  { intros lo hi L0 L. destruct (RUN lo hi (D lo hi L0 L)) as (s' & ES' & S0' & SB & _).
    rewrite ES in ES'. apply ok_inj in ES'. assert (s = s') by congruence. subst s'.
    assert (0 <= hi).
    { pose proof (L 0%nat 0%nat ltac:(lia) ltac:(lia)). lra. }
    nra. }
  exists s. split; [exact ES|]. split; [|split; [exact BND|exact SV]].
  (* positive: the smallest local value is positive *)
  assert (exists lo, 0 < lo /\ forall j i, (j < 4 * n + 3)%nat -> (i < 4 * n + 3)%nat -> lo <= vds rm c (-89/1000) (r j i)) as (lo & Hlo & LB).
  { assert (MX : forall N (f : nat -> nat -> R), exists M, 0 <= M /\ forall j i, (j < N)%nat -> (i < N)%nat -> f j i <= M).
    { intros N f. assert (M1 : forall j k, exists M, 0 <= M /\ forall i, (i < k)%nat -> f j i <= M).
      { intros j k. induction k as [|k (M & M0 & IH)]; [exists 0; split; [lra|intros; lia]|].
        exists (Rmax M (f j k)). split; [eapply Rle_trans; [exact M0|apply Rmax_l]|].
        intros i Hi. destruct (Nat.eq_dec i k) as [->|]; [apply Rmax_r|].
        eapply Rle_trans; [apply IH; lia|apply Rmax_l]. }
      assert (M2 : forall k, exists M, 0 <= M /\ forall j i, (j < k)%nat -> (i < N)%nat -> f j i <= M).
      { induction k as [|k (M & M0 & IH)]; [exists 0; split; [lra|intros; lia]|].
        destruct (M1 k N) as (M' & M0' & H'). exists (Rmax M M').
        split; [eapply Rle_trans; [exact M0|apply Rmax_l]|].
        intros j i Hj Hi. destruct (Nat.eq_dec j k) as [->|].
        - eapply Rle_trans; [apply H'; auto|apply Rmax_r].
        - eapply Rle_trans; [apply IH; auto; lia|apply Rmax_l]. }
      apply M2. }
    destruct (MX (4 * n + 3)%nat r) as (M & M0 & HM). exists (vds rm c (-89/1000) M).
    split; [apply vds_pos|]. intros j i Hj Hi. apply vds_decr; auto; try lra.
    split; [apply ell_nonneg|auto]. }
  destruct (BND lo (vds rm c (-89/1000) 0)) as [K _]; [lra| |lra].
  intros j i Hj Hi. split; auto.
Qed.
