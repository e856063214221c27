(* Proofs about projections, angle signs, rotations, position angles and mocks. *)
From Coq Require Import Reals List Bool Arith ZArith Lia Lra Psatz.
From Verif Require Import PyFloat PyBase Arr PyNum MParams MAper1D MFit1D MTrim MGeom SGeom PKernels PTrim PGeom.
Import ListNotations.
Local Open Scope R_scope.

Lemma rad_mul a : a * (PI / 180) = rad a.
Proof. unfold rad. field. Qed.

(** C70 *)
Lemma inslit_spec re a w : 0 <= w -> exists v, y_proj_major_inslit (Fin re) (Fin a) (Some (Fin w)) = Ok (Fin v) /\
  (exists t, Rabs t <= Rabs re /\ Rabs (t * sin (rad a)) <= w / 2 /\ v = Rabs (t * cos (rad a))) /\
  (forall t, Rabs t <= Rabs re -> Rabs (t * sin (rad a)) <= w / 2 -> Rabs (t * cos (rad a)) <= v).
Proof.
  intros W. unfold y_proj_major_inslit, d2r. cbn [MTrim.need bind fmul fsin fcos fabs fleb]. rewrite !rad_mul.
  set (s := sin (rad a)). set (c := cos (rad a)).
  destruct (Rleb (Rabs (re * s)) (1 / 2 * w)) eqn:E.
  - apply Rleb_true in E. exists (Rabs (re * c)). split; [reflexivity|]. split.
    + exists re. split; [lra|]. split; [lra|reflexivity].
    + intros t T _. rewrite !Rabs_mult. apply Rmult_le_compat_r; [apply Rabs_pos|exact T].
  - apply Rleb_false in E.
    assert (S : s <> 0). { intros Z. rewrite Z, Rmult_0_r, Rabs_R0 in E. lra. }
    pose proof (Rabs_pos_lt s S) as S'.
    rewrite fdiv_Fin by exact S. cbn [fabs fmul]. exists (Rabs (Rabs (1 / 2 * w / s) * c)). split; [reflexivity|].
    assert (A : Rabs (1 / 2 * w / s) = w / 2 / Rabs s).
    { unfold Rdiv at 1. rewrite Rabs_mult, Rabs_inv, Rabs_pos_eq by lra. unfold Rdiv. lra. }
    rewrite A. assert (Q : 0 <= w / 2 / Rabs s) by (unfold Rdiv; apply Rmult_le_pos; [lra|left; apply Rinv_0_lt_compat, S']).
    split.
    + exists (w / 2 / Rabs s). rewrite (Rabs_pos_eq (w / 2 / Rabs s)) by exact Q. split; [|split; [|reflexivity]].
      * rewrite Rabs_mult in E. apply Rmult_le_reg_r with (Rabs s); [exact S'|].
        replace (w / 2 / Rabs s * Rabs s) with (w / 2) by (field; lra). lra.
      * rewrite Rabs_mult, (Rabs_pos_eq (w / 2 / Rabs s)) by exact Q.
        replace (w / 2 / Rabs s * Rabs s) with (w / 2) by (field; lra). lra.
    + intros t _ T. rewrite !Rabs_mult, (Rabs_pos_eq (w / 2 / Rabs s)) by exact Q.
      apply Rmult_le_compat_r; [apply Rabs_pos|]. rewrite Rabs_mult in T.
      apply Rmult_le_reg_r with (Rabs s); [exact S'|].
      replace (w / 2 / Rabs s * Rabs s) with (w / 2) by (field; lra). exact T.
Qed.

Lemma inslit_full re a w v : 0 <= w -> y_proj_major_inslit (Fin re) (Fin a) (Some (Fin w)) = Ok (Fin v) ->
  exists full, y_proj_major (Fin re) (Fin a) = Fin full /\ 0 <= v <= full /\
  (Rabs (re * sin (rad a)) <= w / 2 -> v = full).
Proof.
  intros W H. destruct (inslit_spec re a w W) as (v' & E & (t & T1 & T2 & T3) & M). assert (EV : v' = v) by congruence. rewrite EV in *. clear EV E.
  unfold y_proj_major. cbn [fmul fcos fabs]. rewrite rad_mul. eexists. split; [reflexivity|].
  assert (L : v <= Rabs (re * cos (rad a))).
  { rewrite T3, !Rabs_mult. apply Rmult_le_compat_r; [apply Rabs_pos|exact T1]. }
  split; [split; [rewrite T3; apply Rabs_pos|exact L]|]. intros F. apply Rle_antisym; [exact L|]. apply M; [lra|exact F].
Qed.

(** Changing radius and slit width changes the extent by no more than their change. *)
Lemma inslit_monotone re1 re2 a w1 w2 v1 v2 : 0 <= w1 <= w2 -> Rabs re1 <= Rabs re2 ->
  y_proj_major_inslit (Fin re1) (Fin a) (Some (Fin w1)) = Ok (Fin v1) ->
  y_proj_major_inslit (Fin re2) (Fin a) (Some (Fin w2)) = Ok (Fin v2) -> v1 <= v2.
Proof.
  intros W R H1 H2. destruct (inslit_spec re1 a w1 ltac:(lra)) as (v' & E & (t & T1 & T2 & T3) & _). assert (EVv1 : v' = v1) by congruence; rewrite EVv1 in *; clear EVv1 E v'.
  destruct (inslit_spec re2 a w2 ltac:(lra)) as (v' & E' & _ & M). assert (EVv2 : v' = v2) by congruence; rewrite EVv2 in *; clear EVv2 E' v'.
  rewrite T3. apply M; lra.
Qed.

Lemma inslit_shrink re1 re2 a w v1 v2 : 0 <= w -> Rabs re1 <= Rabs re2 ->
  y_proj_major_inslit (Fin re1) (Fin a) (Some (Fin w)) = Ok (Fin v1) ->
  y_proj_major_inslit (Fin re2) (Fin a) (Some (Fin w)) = Ok (Fin v2) -> v2 - v1 <= Rabs re2 - Rabs re1.
Proof.
  intros W R H1 H2. destruct (inslit_spec re2 a w W) as (v' & E & (t & T1 & T2 & T3) & _). assert (EVv2 : v' = v2) by congruence; rewrite EVv2 in *; clear EVv2 E v'.
  destruct (inslit_spec re1 a w W) as (v' & E' & _ & M). assert (EVv1 : v' = v1) by congruence; rewrite EVv1 in *; clear EVv1 E' v'.
  destruct (Rle_dec (Rabs t) (Rabs re1)) as [L|L].
  - specialize (M t L T2). rewrite <- T3 in M. lra.
  - set (s := sin (rad a)) in *. set (c := cos (rad a)) in *.
    assert (N : Rabs (Rabs re1) <= Rabs re1) by (rewrite Rabs_Rabsolu; lra).
    assert (B : Rabs (Rabs re1 * s) <= w / 2).
    { rewrite Rabs_mult, Rabs_Rabsolu. rewrite Rabs_mult in T2. pose proof (Rabs_pos s).
      apply Rle_trans with (Rabs t * Rabs s); [apply Rmult_le_compat_r; lra|exact T2]. }
    specialize (M (Rabs re1) N B). rewrite Rabs_mult, Rabs_Rabsolu in M. rewrite T3, Rabs_mult.
    assert (C : Rabs c <= 1). { apply Rabs_le. apply COS_bound. } pose proof (Rabs_pos c). pose proof (Rabs_pos re1). nra.
Qed.

Lemma inslit_continuous re1 re2 a w v1 v2 : 0 <= w ->
  y_proj_major_inslit (Fin re1) (Fin a) (Some (Fin w)) = Ok (Fin v1) ->
  y_proj_major_inslit (Fin re2) (Fin a) (Some (Fin w)) = Ok (Fin v2) -> Rabs (v1 - v2) <= Rabs (re1 - re2).
Proof.
  intros W H1 H2. pose proof (Rabs_triang_inv re1 re2) as T1. pose proof (Rabs_triang_inv re2 re1) as T2.
  rewrite (Rabs_minus_sym re2 re1) in T2.
  destruct (Rle_dec (Rabs re1) (Rabs re2)) as [L|L].
  - pose proof (inslit_shrink re1 re2 a w v1 v2 W L H1 H2) as S.
    pose proof (inslit_monotone re1 re2 a w w v1 v2 ltac:(lra) L H1 H2). rewrite Rabs_left1 by lra. lra.
  - apply Rnot_le_lt, Rlt_le in L. pose proof (inslit_shrink re2 re1 a w v2 v1 W L H2 H1) as S.
    pose proof (inslit_monotone re2 re1 a w w v2 v1 ltac:(lra) L H2 H1). rewrite Rabs_pos_eq by lra. lra.
Qed.

(** C95: the projected sizes. *)
Lemma y_proj_phys_spec re a q : 0 < re -> 0 < q -> exists y, y_proj_phys (Fin re) (Fin a) (Fin q) = Fin y /\ 0 < y /\
  (y * cos (rad a) / re) ^ 2 + (y * sin (rad a) / (q * re)) ^ 2 = 1 /\ Rmin 1 q * re <= y <= Rmax 1 q * re.
Proof.
  intros R Q. unfold y_proj_phys, d2r, fsq. cbn [fmul fcos fsin fadd fsqrt]. rewrite !rad_mul.
  set (c := cos (rad a)). set (s := sin (rad a)).
  assert (SC : s * s + c * c = 1) by (pose proof (sin2_cos2 (rad a)) as E; unfold Rsqr in E; exact E).
  set (D := q * c * (q * c) + s * s).
  assert (DP : 0 < D) by (unfold D; nra).
  rewrite (proj2 (Rltb_false D 0)) by lra. pose proof (sqrt_lt_R0 D DP) as SP. rewrite fdiv_Fin by lra.
  pose proof (sqrt_sqrt D ltac:(lra)) as SS. eexists. split; [reflexivity|].
  assert (Y : 0 < q * re / sqrt D) by (apply Rdiv_lt_0_compat; nra). split; [exact Y|].
  assert (YD : q * re / sqrt D * (q * re / sqrt D) * D = (q * re) * (q * re)) by (rewrite <- SS at 3; field; lra).
  split.
  - replace ((q * re / sqrt D * c / re) ^ 2 + (q * re / sqrt D * s / (q * re)) ^ 2) with ((q * c * (q * c) + s * s) / (sqrt D * sqrt D)) by (field; lra).
    rewrite SS. fold D. field. lra.
  - set (y := q * re / sqrt D) in *. assert (QR : 0 < q * re) by nra.
    assert (C2 : 0 <= c * c) by nra. assert (S2 : 0 <= s * s) by nra.
    assert (D1 : D - 1 = (q * q - 1) * (c * c)) by (unfold D; replace (s * s) with (1 - c * c) by lra; ring).
    assert (D2 : q * q - D = (q * q - 1) * (s * s)) by (unfold D; replace (q * c * (q * c)) with (q * q * (c * c)) by ring; replace (c * c) with (1 - s * s) by lra; ring).
    assert (SQ : forall u v, 0 < u -> 0 < v -> u * u <= v * v -> u <= v) by (intros; nra).
    unfold Rmin, Rmax. destruct (Rle_dec 1 q) as [L|L].
    + assert (Q2 : 0 <= q * q - 1) by nra. pose proof (Rmult_le_pos _ _ Q2 C2). pose proof (Rmult_le_pos _ _ Q2 S2).
      split; apply SQ; try lra; try nra.
    + assert (Q2 : 0 <= 1 - q * q) by nra. pose proof (Rmult_le_pos _ _ Q2 C2). pose proof (Rmult_le_pos _ _ Q2 S2).
      split; apply SQ; try lra; try nra.
Qed.

Lemma x_proj_phys_spec re a q : x_proj_phys (Fin re) (Fin a) (Fin q) = y_proj_phys (Fin re) (Fin (90 - a)) (Fin q).
Proof. unfold x_proj_phys, y_proj_phys, fsub. cbn [fneg fadd]. reflexivity. Qed.

Lemma unproject re a y : y_proj_major (Fin re) (Fin a) = y ->
  (cos (rad a) <> 0 -> r_unproj_major y (Fin a) = Fin (Rabs re)).
Proof.
  intros <- C. unfold y_proj_major, r_unproj_major, d2r. cbn [fmul fcos fabs]. rewrite rad_mul, fdiv_Fin by exact C. cbn [fabs]. f_equal.
  rewrite Rabs_mult. unfold Rdiv. rewrite !Rabs_mult, !Rabs_Rabsolu, Rabs_inv. field. apply Rabs_no_R0, C.
Qed.

Lemma pythagoras re a x y : x_proj_major (Fin re) (Fin a) = Fin x -> y_proj_major (Fin re) (Fin a) = Fin y -> x ^ 2 + y ^ 2 = re ^ 2.
Proof.
  unfold x_proj_major, y_proj_major, d2r. cbn [fmul fcos fsin fabs]. rewrite rad_mul. intros X Y.
  assert (EX : x = Rabs (re * sin (rad a))) by congruence. assert (EY : y = Rabs (re * cos (rad a))) by congruence.
  rewrite EX, EY, !pow2_abs. pose proof (sin2_cos2 (rad a)) as E. unfold Rsqr in E. nra.
Qed.

(** C69: rotations. *)
Lemma rot_spec x y th x0 y0 : exists x' y', rot_coord_angle (Fin x, Fin y) (Fin th) (Fin x0) (Fin y0) = (Fin x', Fin y') /\
  x' - x0 = (x - x0) * cos th - (y - y0) * sin th /\ y' - y0 = (x - x0) * sin th + (y - y0) * cos th /\
  dist2 x' y' x0 y0 = dist2 x y x0 y0 /\
  rot_coord_angle (Fin x', Fin y') (Fin (- th)) (Fin x0) (Fin y0) = (Fin x, Fin y).
Proof.
  unfold rot_coord_angle, fsub. cbn [fst snd fneg fadd fmul fcos fsin].
  pose proof (sin2_cos2 th) as E. unfold Rsqr in E.
  do 2 eexists. split; [reflexivity|]. split; [ring|]. split; [ring|]. split.
  - unfold dist2. transitivity (((x - x0) ^ 2 + (y - y0) ^ 2) * (sin th * sin th + cos th * cos th)); [ring|rewrite E; ring].
  - rewrite cos_neg, sin_neg. f_equal; f_equal.
    + transitivity ((x - x0) * (sin th * sin th + cos th * cos th) + x0); [ring|rewrite E; ring].
    + transitivity ((y - y0) * (sin th * sin th + cos th * cos th) + y0); [ring|rewrite E; ring].
Qed.

Lemma rot_compose p a b x0 y0 : (exists x y, p = (Fin x, Fin y)) ->
  rot_coord_angle (rot_coord_angle p (Fin a) (Fin x0) (Fin y0)) (Fin b) (Fin x0) (Fin y0) = rot_coord_angle p (Fin (a + b)) (Fin x0) (Fin y0).
Proof.
  intros (x & y & ->). unfold rot_coord_angle, fsub. cbn [fst snd fneg fadd fmul fcos fsin]. rewrite cos_plus, sin_plus.
  f_equal; f_equal; ring.
Qed.

Lemma rot_corners cs th x0 y0 : (2 <= length cs)%nat ->
  rot_corner_coords cs th x0 y0 = Ok (CArrays (map (fun c => fst (rot_coord_angle c th x0 y0)) cs) (map (fun c => snd (rot_coord_angle c th x0 y0)) cs)).
Proof. intros L. unfold rot_corner_coords. destruct cs as [|a [|b cs]]; cbn in L; try lia. cbn [map]. rewrite !map_map. reflexivity. Qed.

Lemma rot_center x0 y0 c th : rot_object_center x0 y0 c th =
  Ok (CNumbers (fst (rot_coord_angle (x0, y0) th (fst c) (snd c))) (snd (rot_coord_angle (x0, y0) th (fst c) (snd c)))).
Proof. reflexivity. Qed.

(** C69: signs. *)

Lemma sign_half a : 0 <= a <= 180 -> is_sign (cos (rad a)) (if Rltb 90 a then -1 else if Rltb a 90 then 1 else 0) /\
  (if fgtb (Fin a) (Fin 90) then Some (Fin (-1)) else if fltb (Fin a) (Fin 90) then Some (Fin 1) else if feqb (Fin a) (Fin 90) then Some (Fin 0) else None)
  = Some (Fin (if Rltb 90 a then -1 else if Rltb a 90 then 1 else 0)).
Proof.
  intros H. pose proof PI_RGT_0 as P. unfold fgtb. cbn [fltb feqb].
  destruct (Rltb 90 a) eqn:E.
  - apply Rltb_true in E. split; [|reflexivity].
    assert (cos (rad a) < 0) by (apply cos_lt_0; unfold rad; nra). unfold is_sign. repeat split; lra.
  - apply Rltb_false in E. destruct (Rltb a 90) eqn:E2.
    + apply Rltb_true in E2. split; [|reflexivity].
      assert (0 < cos (rad a)) by (apply cos_gt_0; unfold rad; nra). unfold is_sign. repeat split; lra.
    + apply Rltb_false in E2. assert (a = 90) by lra. subst a. split.
      * replace (rad 90) with (PI / 2) by (unfold rad; field). rewrite cos_PI2. unfold is_sign. repeat split; lra.
      * rewrite (proj2 (Reqb_true 90 90)) by reflexivity. reflexivity.
Qed.

Lemma cos_360 a : cos (rad (a + 360)) = cos (rad a).
Proof. replace (rad (a + 360)) with (rad a + 2 * PI) by (unfold rad; field). apply cos_2PI_plus || rewrite cos_plus, cos_2PI, sin_2PI; ring. Qed.

Lemma cos_360m a : cos (rad (360 - a)) = cos (rad a).
Proof. replace (rad (360 - a)) with (- rad a + 2 * PI) by (unfold rad; field). rewrite cos_plus, cos_2PI, sin_2PI, cos_neg. ring. Qed.

Lemma sign_spec a : -360 <= a <= 360 -> exists s, is_sign (cos (rad a)) s /\
  y_sign_pos_angle true (Fin a) = Ok (Some (Fin s)) /\
  y_sign_pos_angle false (Fin a) = (if Rlt_dec 180 (if Rlt_dec a 0 then a + 360 else a) then Err AttributeError else Ok (Some (Fin s))).
Proof.
  intros H. unfold y_sign_pos_angle, sign_from_pos_angle. cbn [fltb].
  set (b := if Rlt_dec a 0 then a + 360 else a).
  assert (B : (if Rltb a 0 then fadd (Fin a) (Fin 360) else Fin a) = Fin b).
  { unfold b, Rltb. destruct (Rlt_dec a 0); reflexivity. }
  assert (BR : 0 <= b <= 360) by (unfold b; destruct (Rlt_dec a 0); lra).
  assert (BC : cos (rad b) = cos (rad a)) by (unfold b; destruct (Rlt_dec a 0); [apply cos_360|reflexivity]).
  rewrite B. unfold fgtb at 1 3. cbn [fltb]. destruct (Rlt_dec 180 b) as [L|L].
  - rewrite (proj2 (Rltb_true 180 b)) by lra. unfold fsub. cbn [fneg fadd bind].
    destruct (sign_half (360 + - b)) as [S E]; [lra|]. eexists. split; [|split; [rewrite E; reflexivity|reflexivity]].
    replace (360 + - b) with (360 - b) in S |- * by ring. rewrite cos_360m, BC in S. exact S.
  - rewrite (proj2 (Rltb_false 180 b)) by lra. cbn [bind].
    destruct (sign_half b) as [S E]; [lra|]. eexists. split; [|split; rewrite E; reflexivity]. rewrite BC in S. exact S.
Qed.

Lemma x_sign_spec a : -270 <= a <= 450 -> exists s, is_sign (sin (rad a)) s /\ x_sign_pos_angle true (Fin a) = Ok (Some (Fin s)).
Proof.
  intros H. destruct (sign_spec (a - 90)) as (s & S & E & _); [lra|]. exists s. split.
  - replace (sin (rad a)) with (cos (rad (a - 90))); [exact S|].
    replace (rad (a - 90)) with (- (PI / 2 - rad a)) by (unfold rad; field). rewrite cos_neg, cos_shift. reflexivity.
  - unfold x_sign_pos_angle, fsub. cbn [fneg fadd]. exact E.
Qed.

Lemma sign_refuted : y_sign_pos_angle true (Fin 540) = Ok (Some (Fin 1)) /\ cos (rad 540) = -1.
Proof.
  split.
  - unfold y_sign_pos_angle, sign_from_pos_angle, fgtb. cbn [fltb].
    rewrite (proj2 (Rltb_false 540 0)) by lra. cbn [fltb]. rewrite (proj2 (Rltb_true 180 540)) by lra.
    unfold fsub. cbn [fneg fadd bind fltb]. rewrite (proj2 (Rltb_false 90 (360 + Ropp 540))) by lra.
    rewrite (proj2 (Rltb_true (360 + Ropp 540) 90)) by lra. reflexivity.
  - replace (rad 540) with (PI + 2 * PI) by (unfold rad; field). rewrite cos_plus, cos_2PI, sin_2PI, cos_PI, sin_PI. ring.
Qed.
