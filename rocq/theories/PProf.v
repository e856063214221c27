(* Proofs about the profiles of MProf. *)
From Coq Require Import Reals List Bool Arith ZArith Lra Lia.
From Verif Require Import PyFloat PyBase Arr PyNum MKernels PKernels2 MAper2D PAper2DGeo MProf.
Import ListNotations.
Local Open Scope R_scope.

Lemma deg_add a b : (a + b) * (PI / 180) = a * (PI / 180) + b * (PI / 180).
Proof. ring. Qed.

(** The transform on finite input. *)
Lemma tr_Fin x y z a i :
  transform_int_3d (Fin x) (Fin y) (Fin z) (Fin a) (Fin i) =
  let t := a * (PI / 180) in
  (Fin (cos i * (x * cos t + y * sin t) + sin i * z),
   Fin (- x * sin t + y * cos t),
   Fin (- sin i * (x * cos t + y * sin t) + cos i * z)).
Proof. reflexivity. Qed.

Definition dot (p q : R * R * R) : R :=
  fst (fst p) * fst (fst q) + snd (fst p) * snd (fst q) + snd p * snd q.

Lemma sc t : sin t * sin t = 1 - cos t * cos t.
Proof. pose proof (sin2_cos2 t) as H. unfold Rsqr in H. lra. Qed.

Lemma tr_dot x y z x' y' z' a i X Y Z X' Y' Z' :
  transform_int_3d (Fin x) (Fin y) (Fin z) (Fin a) (Fin i) = (Fin X, Fin Y, Fin Z) ->
  transform_int_3d (Fin x') (Fin y') (Fin z') (Fin a) (Fin i) = (Fin X', Fin Y', Fin Z') ->
  X * X' + Y * Y' + Z * Z' = x * x' + y * y' + z * z'.
Proof.
  rewrite !tr_Fin; cbn zeta. intros E E'.
  injection E as <- <- <-. injection E' as <- <- <-.
  set (t := a * (PI / 180)). pose proof (sc t) as Ht. pose proof (sc i) as Hi.
  set (c := cos t) in *. set (s := sin t) in *. set (ci := cos i) in *. set (si := sin i) in *.
  transitivity ((ci * ci + si * si) * ((x * c + y * s) * (x' * c + y' * s))
    + (- x * s + y * c) * (- x' * s + y' * c) + (ci*ci + si*si) * (z * z')); [ring|].
  rewrite Hi. ring_simplify.
  replace (s ^ 2) with (1 - c * c) by (rewrite <- Ht; ring). ring.
Qed.

(** Right-handed: the image of the cross product is the cross product of the images. *)
Lemma tr_cross x y z x' y' z' a i X Y Z X' Y' Z' :
  transform_int_3d (Fin x) (Fin y) (Fin z) (Fin a) (Fin i) = (Fin X, Fin Y, Fin Z) ->
  transform_int_3d (Fin x') (Fin y') (Fin z') (Fin a) (Fin i) = (Fin X', Fin Y', Fin Z') ->
  transform_int_3d (Fin (y * z' - z * y')) (Fin (z * x' - x * z')) (Fin (x * y' - y * x'))
    (Fin a) (Fin i) =
  (Fin (Y * Z' - Z * Y'), Fin (Z * X' - X * Z'), Fin (X * Y' - Y * X')).
Proof.
  rewrite !tr_Fin; cbn zeta. intros E E'.
  injection E as <- <- <-. injection E' as <- <- <-.
  set (t := a * (PI / 180)). pose proof (sc t) as Ht. pose proof (sc i) as Hi.
  set (c := cos t) in *. set (s := sin t) in *. set (ci := cos i) in *. set (si := sin i) in *.
  assert (Ht2 : s ^ 2 = 1 - c * c) by (rewrite <- Ht; ring).
  assert (Hi2 : si ^ 2 = 1 - ci * ci) by (rewrite <- Hi; ring).
  assert (forall u v w u' v' w' : R, u = u' -> v = v' -> w = w' ->
           (Fin u, Fin v, Fin w) = (Fin u', Fin v', Fin w')) as K by congruence.
  apply K; ring_simplify; rewrite ?Ht2, ?Hi2; ring.
Qed.

Lemma tr_inverse X Y Z a i :
  exists x y z, transform_int_3d (Fin x) (Fin y) (Fin z) (Fin a) (Fin i) = (Fin X, Fin Y, Fin Z)
  /\ forall x' y' z', transform_int_3d (Fin x') (Fin y') (Fin z') (Fin a) (Fin i)
       = (Fin X, Fin Y, Fin Z) -> x' = x /\ y' = y /\ z' = z.
Proof.
  set (t := a * (PI / 180)).
  set (xp := cos i * X - sin i * Z).
  exists (xp * cos t - Y * sin t), (xp * sin t + Y * cos t), (sin i * X + cos i * Z).
  pose proof (sc t) as Ht. pose proof (sc i) as Hi.
  rewrite tr_Fin; cbn zeta. fold t.
  split.
  - unfold xp.
    set (c := cos t) in *. set (s := sin t) in *. set (ci := cos i) in *. set (si := sin i) in *.
    assert (Ht2 : s ^ 2 = 1 - c * c) by (rewrite <- Ht; ring).
    assert (Hi2 : si ^ 2 = 1 - ci * ci) by (rewrite <- Hi; ring).
    assert (forall u v w u' v' w' : R, u = u' -> v = v' -> w = w' ->
           (Fin u, Fin v, Fin w) = (Fin u', Fin v', Fin w')) as K by congruence.
    apply K; ring_simplify; rewrite ?Ht2, ?Hi2; ring_simplify; rewrite ?Ht2, ?Hi2; ring.
  - intros x' y' z'. rewrite tr_Fin; cbn zeta. fold t. intros E.
    injection E as E1 E2 E3. unfold xp. rewrite <- E1, <- E2, <- E3.
    set (c := cos t) in *. set (s := sin t) in *. set (ci := cos i) in *. set (si := sin i) in *.
    assert (Ht2 : s ^ 2 = 1 - c * c) by (rewrite <- Ht; ring).
    assert (Hi2 : si ^ 2 = 1 - ci * ci) by (rewrite <- Hi; ring).
    repeat split; ring_simplify; rewrite ?Ht2, ?Hi2; ring_simplify; rewrite ?Ht2, ?Hi2; ring.
Qed.

Lemma trip (u v w u' v' w' : R) : u = u' -> v = v' -> w = w' ->
  (Fin u, Fin v, Fin w) = (Fin u', Fin v', Fin w').
Proof. congruence. Qed.

Lemma tr_id x y z :
  transform_int_3d (Fin x) (Fin y) (Fin z) (Fin 0) (Fin 0) = (Fin x, Fin y, Fin z).
Proof.
  rewrite tr_Fin; cbn zeta. rewrite Rmult_0_l, cos_0, sin_0.
  repeat f_equal; ring.
Qed.

Lemma tr_compose x y z a b X Y Z :
  transform_int_3d (Fin x) (Fin y) (Fin z) (Fin a) (Fin 0) = (Fin X, Fin Y, Fin Z) ->
  transform_int_3d (Fin X) (Fin Y) (Fin Z) (Fin b) (Fin 0) =
  transform_int_3d (Fin x) (Fin y) (Fin z) (Fin (a + b)) (Fin 0).
Proof.
  rewrite !tr_Fin; cbn zeta. intros E. injection E as <- <- <-.
  rewrite deg_add, cos_plus, sin_plus, cos_0, sin_0.
  apply trip; ring.
Qed.

(** The direction at position angle [a] (counter-clockwise from the y axis) is the disc's
    major axis, and turning by 180 degrees reverses both in-plane coordinates. *)
Lemma tr_major a i r :
  let t := a * (PI / 180) in
  transform_int_3d (Fin (- r * sin t)) (Fin (r * cos t)) (Fin 0) (Fin a) (Fin i) =
  (Fin 0, Fin r, Fin 0).
Proof.
  cbn zeta. rewrite tr_Fin; cbn zeta. set (t := a * (PI / 180)).
  pose proof (sc t) as Ht.
  set (c := cos t) in *. set (s := sin t) in *.
  assert (Ht2 : s ^ 2 = 1 - c * c) by (rewrite <- Ht; ring).
  assert (forall u v w u' v' w' : R, u = u' -> v = v' -> w = w' ->
           (Fin u, Fin v, Fin w) = (Fin u', Fin v', Fin w')) as K by congruence.
  apply K; ring_simplify; rewrite ?Ht2; ring.
Qed.

(** A point in the disc plane at azimuth [p] from the major axis is seen, at inclination
    [i], with its minor-axis offset foreshortened by cos i; the line of sight coordinate is
    the rest. *)
Lemma tr_disc i r p z :
  transform_int_3d (Fin (r * sin p * cos i - z * sin i)) (Fin (r * cos p))
                   (Fin (r * sin p * sin i + z * cos i)) (Fin 0) (Fin i) =
  (Fin (r * sin p), Fin (r * cos p), Fin z).
Proof.
  rewrite tr_Fin; cbn zeta. rewrite Rmult_0_l, cos_0, sin_0.
  pose proof (sc i) as Hi.
  set (ci := cos i) in *. set (si := sin i) in *.
  assert (Hi2 : si ^ 2 = 1 - ci * ci) by (rewrite <- Hi; ring).
  assert (forall u v w u' v' w' : R, u = u' -> v = v' -> w = w' ->
           (Fin u, Fin v, Fin w) = (Fin u', Fin v', Fin w')) as K by congruence.
  apply K; ring_simplify; rewrite ?Hi2; ring.
Qed.

(* ---------------- inclination ---------------- *)

Lemma sq_lt1 q0 : 0 <= q0 -> q0 < 1 -> 0 < 1 - q0 * q0.
Proof. intros; nra. Qed.

Lemma sqrt_le1 x : 0 <= x <= 1 -> sqrt x <= 1.
Proof. intros H. pose proof (sqrt_le_1 x 1) as K. rewrite sqrt_1 in K. apply K; lra. Qed.
Lemma sqrt_lt1 x : 0 <= x < 1 -> sqrt x < 1.
Proof. intros H. pose proof (sqrt_lt_1 x 1) as K. rewrite sqrt_1 in K. apply K; lra. Qed.

Lemma sin_i_Fin q q0 : 0 <= q0 -> q0 < 1 -> 0 <= q -> q <= 1 ->
  sin_i (Fin q) (Fin q0) =
  Fin (if Rltb q q0 then 1 else sqrt ((1 - q * q) / (1 - q0 * q0))).
Proof.
  intros H0 H1 Hq Hq1. unfold sin_i, fltb.
  destruct (Rltb q q0) eqn:E; [reflexivity|].
  unfold fsub, fsq. cbn [fmul fneg fadd]. unfold fdiv.
  pose proof (sq_lt1 q0 H0 H1).
  destruct (Reqb (1 + - (q0 * q0)) 0) eqn:E2; [apply Reqb_true in E2; lra|].
  cbn [fsqrt].
  assert (0 <= (1 + - (q * q)) / (1 + - (q0 * q0))).
  { apply Rmult_le_pos; [nra|]. apply Rlt_le, Rinv_0_lt_compat; lra. }
  destruct (Rltb ((1 + - (q * q)) / (1 + - (q0 * q0))) 0) eqn:E3; [apply Rltb_true in E3; lra|].
  reflexivity.
Qed.

Lemma ratio_le1 q q0 : 0 <= q0 -> q0 < 1 -> q0 <= q -> q <= 1 ->
  0 <= (1 - q * q) / (1 - q0 * q0) <= 1.
Proof.
  intros. pose proof (sq_lt1 q0 H H0). split.
  - apply Rmult_le_pos; [nra|]. apply Rlt_le, Rinv_0_lt_compat; lra.
  - apply Rmult_le_reg_r with (1 - q0 * q0); [lra|].
    unfold Rdiv. rewrite Rmult_assoc, Rinv_l, Rmult_1_r, Rmult_1_l by lra. nra.
Qed.

Lemma sin_i_range q q0 : 0 <= q0 -> q0 < 1 -> 0 <= q -> q <= 1 ->
  exists s, sin_i (Fin q) (Fin q0) = Fin s /\ 0 <= s <= 1 /\
            (q <= q0 -> s = 1) /\ (q = 1 -> s = 0) /\
            (q0 <= q -> s * s * (1 - q0 * q0) = 1 - q * q).
Proof.
  intros H0 H1 Hq Hq1. rewrite sin_i_Fin by assumption.
  pose proof (sq_lt1 q0 H0 H1) as P.
  eexists. split; [reflexivity|].
  destruct (Rltb q q0) eqn:E; [apply Rltb_true in E | apply Rltb_false in E].
  - split; [lra|]. split; [intros; reflexivity|]. split; intros; lra.
  - destruct (ratio_le1 q q0 H0 H1 E Hq1) as [A B].
    split; [split|split; [|split]].
    + apply sqrt_pos.
    + apply sqrt_le1; lra.
    + intros. replace q with q0 by lra. unfold Rdiv. rewrite Rinv_r by lra. apply sqrt_1.
    + intros ->. replace ((1 - 1 * 1) / (1 - q0 * q0)) with 0 by (field; lra). apply sqrt_0.
    + intros _. rewrite sqrt_sqrt by assumption. field. lra.
Qed.

Lemma sin_i_decreasing q q' q0 s s' : 0 <= q0 -> q0 < 1 -> 0 <= q -> q <= 1 -> q' <= 1 ->
  q < q' -> q0 < q' ->
  sin_i (Fin q) (Fin q0) = Fin s -> sin_i (Fin q') (Fin q0) = Fin s' -> s' < s.
Proof.
  intros H0 H1 Hq Hq1 Hq1' L L0.
  rewrite !sin_i_Fin by lra. intros E E'. injection E as <-. injection E' as <-.
  pose proof (sq_lt1 q0 H0 H1) as P.
  destruct (Rltb q' q0) eqn:E'; [apply Rltb_true in E'; lra|].
  destruct (ratio_le1 q' q0 H0 H1) as [A B]; [lra|lra|].
  destruct (Rltb q q0) eqn:E; [apply Rltb_true in E | apply Rltb_false in E].
  - apply sqrt_lt1. split; [lra|].
    apply Rmult_lt_reg_r with (1 - q0 * q0); [lra|].
    unfold Rdiv. rewrite Rmult_assoc, Rinv_l, Rmult_1_r, Rmult_1_l by lra. nra.
  - destruct (ratio_le1 q q0 H0 H1) as [A2 B2]; [lra|lra|].
    apply sqrt_lt_1; try lra. unfold Rdiv. apply Rmult_lt_compat_r.
    + apply Rinv_0_lt_compat; lra.
    + nra.
Qed.

Lemma incl_consistent q q0 : 0 <= q0 -> q0 < 1 -> q0 <= q -> q <= 1 ->
  exists i, inclination_angle (Fin q) (Fin q0) = Fin i /\ 0 <= i <= PI / 2 /\
            sin_i (Fin q) (Fin q0) = Fin (sin i).
Proof.
  intros H0 H1 Hq Hq1. pose proof (sq_lt1 q0 H0 H1) as P.
  set (c2 := (q * q - q0 * q0) / (1 - q0 * q0)).
  assert (Hc : 0 <= c2 <= 1).
  { unfold c2. split.
    - apply Rmult_le_pos; [nra|]. apply Rlt_le, Rinv_0_lt_compat; lra.
    - apply Rmult_le_reg_r with (1 - q0 * q0); [lra|].
      unfold Rdiv. rewrite Rmult_assoc, Rinv_l, Rmult_1_r, Rmult_1_l by lra. nra. }
  assert (Hs : 0 <= sqrt c2 <= 1).
  { split; [apply sqrt_pos|]. apply sqrt_le1; lra. }
  exists (acos (sqrt c2)). split; [|split].
  - unfold inclination_angle, fsub, fsq. cbn [fmul fneg fadd]. unfold fdiv.
    destruct (Reqb (1 + - (q0 * q0)) 0) eqn:E2; [apply Reqb_true in E2; lra|].
    change ((q * q + - (q0 * q0)) / (1 + - (q0 * q0))) with c2. cbn [fsqrt].
    destruct (Rltb c2 0) eqn:E3; [apply Rltb_true in E3; lra|]. cbn [facos].
    replace (Rleb (-1) (sqrt c2)) with true by (symmetry; apply Rleb_true; lra).
    replace (Rleb (sqrt c2) 1) with true by (symmetry; apply Rleb_true; lra).
    reflexivity.
  - split; [apply acos_bound|].
    destruct (Rle_lt_dec (acos (sqrt c2)) (PI / 2)) as [L|L]; [exact L|].
    exfalso. assert (cos (acos (sqrt c2)) < cos (PI / 2)).
    { apply cos_decreasing_1; try lra; pose proof (acos_bound (sqrt c2)); pose proof PI_RGT_0; lra. }
    rewrite cos_PI2, cos_acos in H by lra. lra.
  - rewrite sin_acos by lra. rewrite sin_i_Fin by lra.
    destruct (Rltb q q0) eqn:E; [apply Rltb_true in E; lra|].
    do 2 f_equal. unfold Rsqr. rewrite sqrt_sqrt by lra. unfold c2. field. lra.
Qed.

Lemma incl_thin_nan q q0 : 0 <= q -> q < q0 -> q0 < 1 ->
  inclination_angle (Fin q) (Fin q0) = NaN /\ sin_i (Fin q) (Fin q0) = Fin 1.
Proof.
  intros Hq L H1. assert (P : 0 < 1 - q0 * q0) by (apply sq_lt1; lra). split.
  - unfold inclination_angle, fsub, fsq. cbn [fmul fneg fadd]. unfold fdiv.
    destruct (Reqb (1 + - (q0 * q0)) 0) eqn:E2; [apply Reqb_true in E2; lra|].
    cbn [fsqrt].
    replace (Rltb ((q * q + - (q0 * q0)) / (1 + - (q0 * q0))) 0) with true; [reflexivity|].
    symmetry. apply Rltb_true. unfold Rdiv.
    assert (0 < / (1 + - (q0 * q0))) by (apply Rinv_0_lt_compat; lra).
    assert (q * q + - (q0 * q0) < 0) by nra. nra.
  - rewrite sin_i_Fin by lra. replace (Rltb q q0) with true; [reflexivity|].
    symmetry; now apply Rltb_true.
Qed.

Lemma incl_invalid q q0 : 0 <= q0 -> q0 < 1 -> 1 < q -> inclination_angle (Fin q) (Fin q0) = NaN.
Proof.
  intros H0 H1 L. pose proof (sq_lt1 q0 H0 H1) as P.
  unfold inclination_angle, fsub, fsq. cbn [fmul fneg fadd]. unfold fdiv.
  destruct (Reqb (1 + - (q0 * q0)) 0) eqn:E2; [apply Reqb_true in E2; lra|].
  assert (V : 1 < (q * q + - (q0 * q0)) / (1 + - (q0 * q0))).
  { apply Rmult_lt_reg_r with (1 + - (q0 * q0)); [lra|]. unfold Rdiv.
    rewrite Rmult_assoc, Rinv_l by lra. nra. }
  cbn [fsqrt]. destruct (Rltb _ 0) eqn:E; [reflexivity|]. cbn [facos].
  assert (1 < sqrt ((q * q + - (q0 * q0)) / (1 + - (q0 * q0)))).
  { rewrite <- sqrt_1 at 1. apply sqrt_lt_1; lra. }
  destruct (Rleb (sqrt ((q * q + - (q0 * q0)) / (1 + - (q0 * q0)))) 1) eqn:E3;
    [apply Rleb_true in E3; lra|]. rewrite andb_false_r. reflexivity.
Qed.

Lemma sin_i_invalid q q0 : 0 <= q0 -> q0 < 1 -> 1 < q -> sin_i (Fin q) (Fin q0) = NaN.
Proof.
  intros H0 H1 L. pose proof (sq_lt1 q0 H0 H1) as P. unfold sin_i, fltb.
  destruct (Rltb q q0) eqn:E; [apply Rltb_true in E; lra|].
  unfold fsub, fsq. cbn [fmul fneg fadd]. unfold fdiv.
  destruct (Reqb (1 + - (q0 * q0)) 0) eqn:E2; [apply Reqb_true in E2; lra|].
  cbn [fsqrt].
  replace (Rltb ((1 + - (q * q)) / (1 + - (q0 * q0))) 0) with true; [reflexivity|].
  symmetry. apply Rltb_true. unfold Rdiv.
  assert (0 < / (1 + - (q0 * q0))) by (apply Rinv_0_lt_compat; lra).
  assert (1 + - (q * q) < 0) by nra. nra.
Qed.

(* ---------------- rotation curve ---------------- *)

Lemma vel_Fin va rt r z l : rt <> 0 ->
  vel_arctan (Fin va :: Fin rt :: l) (Fin r) z = Fin (2 / PI * va * atan (r / rt)).
Proof.
  intros H. unfold vel_arctan, fdiv.
  destruct (Reqb rt 0) eqn:E; [apply Reqb_true in E; contradiction|]. reflexivity.
Qed.

Lemma vel_odd va rt r z l v : 0 < rt ->
  vel_arctan (Fin va :: Fin rt :: l) (Fin r) z = Fin v ->
  vel_arctan (Fin va :: Fin rt :: l) (Fin (- r)) z = Fin (- v).
Proof.
  intros H. rewrite !vel_Fin by lra. intros E. injection E as <-. f_equal.
  replace (- r / rt) with (- (r / rt)) by (field; lra). rewrite atan_opp. ring.
Qed.

Lemma atan_abs x : Rabs (atan x) < PI / 2.
Proof. pose proof (atan_bound x). apply Rabs_def1; lra. Qed.

Lemma vel_bound va rt r z l : 0 < rt -> va <> 0 ->
  exists v, vel_arctan (Fin va :: Fin rt :: l) (Fin r) z = Fin v /\ Rabs v < Rabs va.
Proof.
  intros H Hv. rewrite vel_Fin by lra. eexists. split; [reflexivity|].
  pose proof PI_RGT_0 as HP.
  rewrite !Rabs_mult. rewrite (Rabs_right (2 / PI)) by (apply Rle_ge, Rlt_le, Rdiv_lt_0_compat; lra).
  pose proof (atan_abs (r / rt)). pose proof (Rabs_pos_lt va Hv).
  apply Rlt_le_trans with (2 / PI * Rabs va * (PI / 2)).
  - apply Rmult_lt_compat_l; [|assumption].
    apply Rmult_lt_0_compat; [apply Rdiv_lt_0_compat; lra|assumption].
  - right. field. lra.
Qed.

Lemma vel_increasing va rt r r' z l v v' : 0 < rt -> 0 < va -> r < r' ->
  vel_arctan (Fin va :: Fin rt :: l) (Fin r) z = Fin v ->
  vel_arctan (Fin va :: Fin rt :: l) (Fin r') z = Fin v' -> v < v'.
Proof.
  intros H Hv L. rewrite !vel_Fin by lra. intros E E'. injection E as <-. injection E' as <-.
  pose proof PI_RGT_0 as HP. apply Rmult_lt_compat_l.
  - apply Rmult_lt_0_compat; [apply Rdiv_lt_0_compat; lra|assumption].
  - apply atan_increasing. apply Rmult_lt_compat_r; [apply Rinv_0_lt_compat|]; lra.
Qed.

Lemma vel_turnover va rt z l : 0 < rt ->
  vel_arctan (Fin va :: Fin rt :: l) (Fin rt) z = Fin (va / 2).
Proof.
  intros H. rewrite vel_Fin by lra. f_equal. pose proof PI_RGT_0.
  replace (rt / rt) with 1 by (field; lra). rewrite atan_1. field. lra.
Qed.

Lemma vel_scales va rt r z l k v : 0 < rt ->
  vel_arctan (Fin va :: Fin rt :: l) (Fin r) z = Fin v ->
  vel_arctan (Fin (k * va) :: Fin rt :: l) (Fin r) z = Fin (k * v).
Proof. intros H. rewrite !vel_Fin by lra. intros E; injection E as <-. f_equal; ring. Qed.

Lemma vel_asymptote va rt z l eps : 0 < rt -> 0 < eps ->
  exists R0, forall r, R0 <= r -> exists v,
    vel_arctan (Fin va :: Fin rt :: l) (Fin r) z = Fin v /\ Rabs (v - va) <= eps.
Proof.
  intros H He. pose proof PI_RGT_0 as HP.
  (* choose the angle d below PI/2 *)
  set (d := Rmin (PI / 4) (eps * PI / (2 * (Rabs va + 1)))).
  assert (Ha : 0 <= Rabs va) by apply Rabs_pos.
  assert (Hd : 0 < d).
  { apply Rmin_pos; [lra|]. apply Rdiv_lt_0_compat; [nra|lra]. }
  assert (Hd4 : d <= PI / 4) by apply Rmin_l.
  exists (rt * tan (PI / 2 - d)). intros r Hr. rewrite vel_Fin by lra.
  eexists. split; [reflexivity|].
  assert (tan (PI / 2 - d) <= r / rt).
  { apply Rmult_le_reg_r with rt; [assumption|]. unfold Rdiv. rewrite Rmult_assoc, Rinv_l; lra. }
  assert (PI / 2 - d <= atan (r / rt)).
  { rewrite <- (atan_tan (PI / 2 - d)) by lra.
    destruct H0 as [H0| <-]; [left; now apply atan_increasing|right; reflexivity]. }
  pose proof (atan_bound (r / rt)).
  replace (2 / PI * va * atan (r / rt) - va) with (va * (2 / PI * (atan (r / rt) - PI / 2)))
    by (field; lra).
  rewrite Rabs_mult, Rabs_mult. rewrite (Rabs_right (2 / PI)) by (apply Rle_ge, Rlt_le, Rdiv_lt_0_compat; lra).
  rewrite (Rabs_left1 (atan (r / rt) - PI / 2)) by lra.
  assert (- (atan (r / rt) - PI / 2) <= d) by lra.
  apply Rle_trans with (Rabs va * (2 / PI * d)).
  { apply Rmult_le_compat_l; [assumption|]. apply Rmult_le_compat_l; [|assumption].
    apply Rlt_le, Rdiv_lt_0_compat; lra. }
  apply Rle_trans with (Rabs va * (2 / PI * (eps * PI / (2 * (Rabs va + 1))))).
  { apply Rmult_le_compat_l; [assumption|]. apply Rmult_le_compat_l.
    - apply Rlt_le, Rdiv_lt_0_compat; lra.
    - apply Rmin_r. }
  replace (Rabs va * (2 / PI * (eps * PI / (2 * (Rabs va + 1))))) with (eps * (Rabs va / (Rabs va + 1)))
    by (field; lra).
  rewrite <- (Rmult_1_r eps) at 2. apply Rmult_le_compat_l; [lra|].
  apply Rmult_le_reg_r with (Rabs va + 1); [lra|]. unfold Rdiv. rewrite Rmult_assoc, Rinv_l; lra.
Qed.

(** Turnover radius zero: a step of size V_a, undefined at the centre. *)
Lemma vel_rt_zero va z l :
  vel_arctan (Fin va :: Fin 0 :: l) (Fin 0) z = NaN /\
  (forall r, 0 < r -> vel_arctan (Fin va :: Fin 0 :: l) (Fin r) z = Fin va).
Proof.
  split.
  - unfold vel_arctan, fdiv. rewrite Reqb_refl. reflexivity.
  - intros r H. unfold vel_arctan, fdiv. rewrite Reqb_refl.
    destruct (Reqb r 0) eqn:E; [apply Reqb_true in E; lra|].
    replace (Rltb 0 r) with true by (symmetry; now apply Rltb_true).
    cbn [fatan fmul]. f_equal. pose proof PI_RGT_0. field. lra.
Qed.

(** Changing the sign of both parameters changes nothing. *)
Lemma vel_degenerate va rt r z l : rt <> 0 ->
  vel_arctan (Fin (- va) :: Fin (- rt) :: l) (Fin r) z =
  vel_arctan (Fin va :: Fin rt :: l) (Fin r) z.
Proof.
  intros H. rewrite !vel_Fin by lra. f_equal.
  replace (r / - rt) with (- (r / rt)) by (field; lra). rewrite atan_opp. ring.
Qed.

(* ---------------- intensity ---------------- *)

Lemma fpow_pos a b : 0 < a -> fpow (Fin a) (Fin b) = Fin (Rpower a b).
Proof. intros H. unfold fpow. replace (Rltb 0 a) with true; [reflexivity|]. symmetry. now apply Rltb_true. Qed.
Lemma fpow_0 b : 0 < b -> fpow (Fin 0) (Fin b) = Fin 0.
Proof.
  intros H. unfold fpow. replace (Rltb 0 0) with false by (symmetry; apply Rltb_false; lra).
  rewrite Reqb_refl. replace (Rltb 0 b) with true; [reflexivity|]. symmetry. now apply Rltb_true.
Qed.
Lemma py_inv_Fin n : n <> 0 -> py_inv (Fin n) = Ok (Fin (1 / n)).
Proof. intros H. unfold py_inv. destruct (Reqb n 0) eqn:E; [apply Reqb_true in E; contradiction|reflexivity]. Qed.
Lemma fdiv_Fin a b : b <> 0 -> fdiv (Fin a) (Fin b) = Fin (a / b).
Proof. intros H. unfold fdiv. destruct (Reqb b 0) eqn:E; [apply Reqb_true in E; contradiction|reflexivity]. Qed.

(** u^(1/n) for u >= 0, with 0^(1/n) = 0 *)
Definition rootp (n u : R) : R := if Rltb 0 u then Rpower u (1 / n) else 0.

Lemma rootp_fpow n u : 0 < n -> 0 <= u -> fpow (Fin u) (Fin (1 / n)) = Fin (rootp n u).
Proof.
  intros Hn Hu. unfold rootp. destruct (Rltb 0 u) eqn:E.
  - apply Rltb_true in E. now apply fpow_pos.
  - apply Rltb_false in E. replace u with 0 by lra. apply fpow_0. apply Rdiv_lt_0_compat; lra.
Qed.
Lemma rootp_lt n u v : 0 < n -> 0 <= u -> u < v -> rootp n u < rootp n v.
Proof.
  intros Hn Hu L. unfold rootp.
  replace (Rltb 0 v) with true by (symmetry; apply Rltb_true; lra).
  destruct (Rltb 0 u) eqn:E.
  - apply Rltb_true in E. unfold Rpower. apply exp_increasing.
    apply Rmult_lt_compat_l; [apply Rdiv_lt_0_compat; lra|]. now apply ln_increasing.
  - unfold Rpower. apply exp_pos.
Qed.
Lemma rootp_1 n : rootp n 1 = 1.
Proof.
  unfold rootp. replace (Rltb 0 1) with true by (symmetry; apply Rltb_true; lra).
  unfold Rpower. rewrite ln_1, Rmult_0_r, exp_0. reflexivity.
Qed.

Lemma sersic_Fin Ie n re r : 0 < n -> 0 < re -> 0 <= r ->
  sersic_int (Fin Ie) (Fin n) (Fin re) (Fin r) =
  Ok (Fin (Ie * exp (- (2 * n - 324 / 1000) * (rootp n (r / re) - 1)))).
Proof.
  intros Hn Hre Hr. unfold sersic_int. rewrite py_inv_Fin by lra. cbn [bind].
  rewrite fdiv_Fin by lra.
  rewrite rootp_fpow; [|assumption|apply Rmult_le_pos; [lra|apply Rlt_le, Rinv_0_lt_compat; lra]].
  reflexivity.
Qed.

Lemma sersic_props Ie n re : 0 < Ie -> 162 / 1000 < n -> 0 < re ->
  (forall r, 0 <= r -> exists v, sersic_int (Fin Ie) (Fin n) (Fin re) (Fin r) = Ok (Fin v) /\ 0 < v) /\
  sersic_int (Fin Ie) (Fin n) (Fin re) (Fin re) = Ok (Fin Ie) /\
  (forall r r' v v', 0 <= r -> r < r' ->
     sersic_int (Fin Ie) (Fin n) (Fin re) (Fin r) = Ok (Fin v) ->
     sersic_int (Fin Ie) (Fin n) (Fin re) (Fin r') = Ok (Fin v') -> v' < v).
Proof.
  intros HI Hn Hre. split; [|split].
  - intros r Hr. rewrite sersic_Fin by lra. eexists. split; [reflexivity|].
    apply Rmult_lt_0_compat; [assumption|apply exp_pos].
  - rewrite sersic_Fin by lra. replace (re / re) with 1 by (field; lra).
    rewrite rootp_1. do 2 f_equal. replace (- (2 * n - 324 / 1000) * (1 - 1)) with 0 by ring.
    rewrite exp_0. ring.
  - intros r r' v v' Hr L. rewrite !sersic_Fin by lra. intros E E'.
    injection E as <-. injection E' as <-.
    apply Rmult_lt_compat_l; [assumption|]. apply exp_increasing.
    assert (rootp n (r / re) < rootp n (r' / re)).
    { apply rootp_lt; [lra| |].
      - apply Rmult_le_pos; [lra|apply Rlt_le, Rinv_0_lt_compat; lra].
      - apply Rmult_lt_compat_r; [apply Rinv_0_lt_compat|]; lra. }
    nra.
Qed.

(** Below n = 0.162 the approximation to b_n is negative and the profile brightens outwards. *)
Lemma sersic_small_n Ie n re r r' v v' : 0 < Ie -> 0 < n -> n < 162 / 1000 -> 0 < re ->
  0 <= r -> r < r' ->
  sersic_int (Fin Ie) (Fin n) (Fin re) (Fin r) = Ok (Fin v) ->
  sersic_int (Fin Ie) (Fin n) (Fin re) (Fin r') = Ok (Fin v') -> v < v'.
Proof.
  intros HI Hn Hs Hre Hr L. rewrite !sersic_Fin by lra. intros E E'.
  injection E as <-. injection E' as <-.
  apply Rmult_lt_compat_l; [assumption|]. apply exp_increasing.
  assert (rootp n (r / re) < rootp n (r' / re)).
  { apply rootp_lt; [lra| |].
    - apply Rmult_le_pos; [lra|apply Rlt_le, Rinv_0_lt_compat; lra].
    - apply Rmult_lt_compat_r; [apply Rinv_0_lt_compat|]; lra. }
  nra.
Qed.

Lemma expz_Fin z0 z : 0 < z0 -> expz_int (Fin z0) (Fin z) = Fin (exp (- Rabs z / z0)).
Proof. intros H. unfold expz_int. cbn [fabs fneg]. rewrite fdiv_Fin by lra. reflexivity. Qed.

Lemma expz_props z0 : 0 < z0 ->
  expz_int (Fin z0) (Fin 0) = Fin 1 /\
  expz_int (Fin z0) (Fin z0) = Fin (exp (-1)) /\
  (forall z, expz_int (Fin z0) (Fin (- z)) = expz_int (Fin z0) (Fin z)) /\
  (forall z z' v v', Rabs z < Rabs z' -> expz_int (Fin z0) (Fin z) = Fin v ->
     expz_int (Fin z0) (Fin z') = Fin v' -> 0 < v' /\ v' < v).
Proof.
  intros H. split; [|split; [|split]].
  - rewrite expz_Fin by assumption. rewrite Rabs_R0.
    replace (- 0 / z0) with 0 by (field; lra). now rewrite exp_0.
  - rewrite expz_Fin by assumption. rewrite Rabs_right by lra.
    do 2 f_equal. field. lra.
  - intros z. rewrite !expz_Fin by assumption. now rewrite Rabs_Ropp.
  - intros z z' v v' L. rewrite !expz_Fin by assumption. intros E E'.
    injection E as <-. injection E' as <-. split; [apply exp_pos|].
    apply exp_increasing. unfold Rdiv. apply Rmult_lt_compat_r; [apply Rinv_0_lt_compat|]; lra.
Qed.

Lemma int_fiducial_props Ie n re q0 : 0 < Ie -> 162 / 1000 < n -> 0 < re -> 0 < q0 ->
  int_fiducial (Fin Ie) (Fin n) (Fin re) (Fin q0) (Fin re) (Fin 0) = Ok (Fin Ie) /\
  int_fiducial (Fin Ie) (Fin n) (Fin re) (Fin q0) (Fin re) (Fin (q0 * re)) = Ok (Fin (Ie * exp (-1))) /\
  int_expscale (Fin Ie) (Fin n) (Fin re) (Fin q0) (Fin re) (Fin (q0 * (re / (1676/1000)))) = Ok (Fin (Ie * exp (-1))).
Proof.
  intros HI Hn Hre Hq.
  destruct (sersic_props Ie n re HI Hn Hre) as (_ & E & _).
  assert (Hz : 0 < q0 * re) by nra.
  assert (Hz2 : 0 < q0 * (re / (1676/1000))) by (apply Rmult_lt_0_compat; [lra|apply Rdiv_lt_0_compat; lra]).
  destruct (expz_props _ Hz) as (A & B & _).
  destruct (expz_props _ Hz2) as (_ & B2 & _).
  unfold int_fiducial, int_expscale. rewrite E. cbn [bind].
  unfold expz_z0, expzscale_z0. rewrite fdiv_Fin by lra. cbn [fmul].
  rewrite A, B, B2. cbn [fmul]. repeat split; do 2 f_equal; ring.
Qed.

Lemma I_sersic_Fin r re n Ie rc : 0 < n -> 0 < re -> 0 <= r + rc * re ->
  I_sersic (Fin r) (Fin re) (Fin n) (Fin Ie) (Fin rc) =
  Ok (Fin (Ie * exp (- (2 * n - 324 / 1000) * (rootp n ((r + rc * re) / re) - 1)))).
Proof.
  intros Hn Hre Hr. unfold I_sersic. rewrite py_inv_Fin by lra. cbn [bind fadd fmul].
  rewrite fdiv_Fin by lra.
  rewrite rootp_fpow; [|assumption|apply Rmult_le_pos; [lra|apply Rlt_le, Rinv_0_lt_compat; lra]].
  reflexivity.
Qed.

Lemma I_sersic_props re n rc : 162 / 1000 < n -> 0 < re -> 0 <= rc ->
  (forall r Ie k v, 0 <= r -> I_sersic (Fin r) (Fin re) (Fin n) (Fin Ie) (Fin rc) = Ok (Fin v) ->
     I_sersic (Fin r) (Fin re) (Fin n) (Fin (k * Ie)) (Fin rc) = Ok (Fin (k * v))) /\
  (forall r Ie, 0 <= r -> 0 < Ie -> exists v,
     I_sersic (Fin r) (Fin re) (Fin n) (Fin Ie) (Fin rc) = Ok (Fin v) /\ 0 < v) /\
  (forall r r' Ie v v', 0 <= r -> r < r' -> 0 < Ie ->
     I_sersic (Fin r) (Fin re) (Fin n) (Fin Ie) (Fin rc) = Ok (Fin v) ->
     I_sersic (Fin r') (Fin re) (Fin n) (Fin Ie) (Fin rc) = Ok (Fin v') -> v' < v) /\
  (forall r Ie, rc * re <= r ->
     I_sersic (Fin (r - rc * re)) (Fin re) (Fin n) (Fin Ie) (Fin rc) =
     sersic_int (Fin Ie) (Fin n) (Fin re) (Fin r)).
Proof.
  intros Hn Hre Hrc. assert (Hp : 0 <= rc * re) by nra. split; [|split; [|split]].
  - intros r Ie k v Hr. rewrite !I_sersic_Fin by lra. intros E. injection E as <-.
    do 2 f_equal. ring.
  - intros r Ie Hr HI. rewrite I_sersic_Fin by lra. eexists. split; [reflexivity|].
    apply Rmult_lt_0_compat; [assumption|apply exp_pos].
  - intros r r' Ie v v' Hr L HI. rewrite !I_sersic_Fin by lra. intros E E'.
    injection E as <-. injection E' as <-.
    apply Rmult_lt_compat_l; [assumption|]. apply exp_increasing.
    assert (rootp n ((r + rc * re) / re) < rootp n ((r' + rc * re) / re)).
    { apply rootp_lt; [lra| |].
      - apply Rmult_le_pos; [lra|apply Rlt_le, Rinv_0_lt_compat; lra].
      - apply Rmult_lt_compat_r; [apply Rinv_0_lt_compat|]; lra. }
    nra.
  - intros r Ie Hr. rewrite I_sersic_Fin by lra. rewrite sersic_Fin by lra.
    replace (r - rc * re + rc * re) with r by ring. reflexivity.
Qed.

(* ---------------- PSF ---------------- *)

Lemma np_repeat_length l k : length (np_repeat l k) = (length l * k)%nat.
Proof.
  unfold np_repeat. induction l as [|a l IH]; cbn [flat_map length]; [reflexivity|].
  rewrite app_length, repeat_length, IH. reflexivity.
Qed.

Lemma np_repeat_nth l k i j : (j < k)%nat -> lnth (np_repeat l k) (i * k + j) = lnth l i.
Proof.
  intros Hj. unfold lnth. revert i. induction l as [|a l IH]; intros i.
  - simpl. destruct (i * k + j)%nat, i; reflexivity.
  - cbn [np_repeat flat_map]. destruct i.
    + rewrite app_nth1 by (rewrite repeat_length; simpl; lia). simpl.
      clear -Hj. revert k Hj. induction j; intros [|k] Hj; simpl; try lia; auto.
      apply IHj. lia.
    + rewrite app_nth2 by (rewrite repeat_length; simpl; lia).
      rewrite repeat_length. replace (S i * k + j - k)%nat with (i * k + j)%nat by (simpl; lia).
      apply IH.
Qed.

Lemma xarr_at x y j i : (j < length y)%nat -> at2 (xarr_flat x y) j i = lnth x i.
Proof. intros H. unfold xarr_flat, transpose, reshape2. cbn [at2]. now apply np_repeat_nth. Qed.
Lemma yarr_at x y j i : (i < length x)%nat -> at2 (yarr_flat x y) j i = lnth y j.
Proof. intros H. unfold yarr_flat, reshape2. cbn [at2]. now apply np_repeat_nth. Qed.

Lemma gauss_pt_Fin sig x y s : sig <> 0 ->
  gauss_pt (Fin sig) (Fin x) (Fin y) (Fin s) =
  Fin (exp (- (x * x + (y + s) * (y + s)) / (2 * (sig * sig)))).
Proof.
  intros H. unfold gauss_pt, fsq. cbn [fmul fadd fneg]. rewrite fdiv_Fin by nra. reflexivity.
Qed.

Lemma sig_pos fwhm : 0 < fwhm -> fdiv (Fin fwhm) (Fin fwhm_factor) = Fin (fwhm / fwhm_factor)
  /\ 0 < fwhm / fwhm_factor.
Proof.
  intros H. pose proof fwhm_factor_pos as P. split; [apply fdiv_Fin; lra|].
  now apply Rdiv_lt_0_compat.
Qed.

Lemma gauss_exponent fwhm d : 0 < fwhm ->
  - d / (2 * (fwhm / fwhm_factor * (fwhm / fwhm_factor))) = - (4 * ln 2) * (d / (fwhm * fwhm)).
Proof.
  intros H. pose proof fwhm_factor_pos as P.
  assert (E : fwhm_factor * fwhm_factor = 8 * ln 2).
  { unfold fwhm_factor.
    replace (2 * sqrt (2 * ln 2) * (2 * sqrt (2 * ln 2))) with
      (4 * (sqrt (2 * ln 2) * sqrt (2 * ln 2))) by ring.
    rewrite sqrt_sqrt; [ring|]. assert (0 < ln 2) by (rewrite <- ln_1; apply ln_increasing; lra). lra. }
  replace (- d / (2 * (fwhm / fwhm_factor * (fwhm / fwhm_factor)))) with
    (- d * (fwhm_factor * fwhm_factor) / (2 * (fwhm * fwhm))) by (field; lra).
  rewrite E. field. lra.
Qed.

(** The Gaussian profile as a function of the squared distance. *)
Definition gprof (fwhm d2 : R) : R := exp (- (4 * ln 2) * (d2 / (fwhm * fwhm))).

Lemma ln2_pos : 0 < ln 2.
Proof. rewrite <- ln_1; apply ln_increasing; lra. Qed.

Lemma gauss_pt_prof fwhm x y s : 0 < fwhm ->
  gauss_pt (fdiv (Fin fwhm) (Fin fwhm_factor)) (Fin x) (Fin y) (Fin s) =
  Fin (gprof fwhm (x * x + (y + s) * (y + s))).
Proof.
  intros H. destruct (sig_pos fwhm H) as [E P]. rewrite E, gauss_pt_Fin by lra.
  unfold gprof. now rewrite gauss_exponent.
Qed.

Lemma gprof_half fwhm d2 : 0 < fwhm -> d2 = fwhm * fwhm / 4 -> gprof fwhm d2 = 1 / 2.
Proof.
  intros H ->. unfold gprof.
  replace (- (4 * ln 2) * (fwhm * fwhm / 4 / (fwhm * fwhm))) with (- ln 2) by (field; lra).
  rewrite exp_Ropp, exp_ln by lra. field.
Qed.
Lemma gprof_0 fwhm : gprof fwhm 0 = 1.
Proof. unfold gprof. replace (- (4 * ln 2) * (0 / (fwhm * fwhm))) with 0 by (unfold Rdiv; ring). apply exp_0. Qed.
Lemma gprof_lt fwhm d d' : 0 < fwhm -> d < d' -> gprof fwhm d' < gprof fwhm d.
Proof.
  intros H L. unfold gprof. apply exp_increasing. pose proof ln2_pos.
  assert (d / (fwhm * fwhm) < d' / (fwhm * fwhm)).
  { apply Rmult_lt_compat_r; [apply Rinv_0_lt_compat; nra|assumption]. }
  nra.
Qed.

Lemma lnth_map_Fin l i : (i < length l)%nat -> lnth (map Fin l) i = Fin (nth i l 0).
Proof.
  intros H. unfold lnth. rewrite (nth_indep _ NaN (Fin 0)) by (rewrite map_length; assumption).
  apply map_nth.
Qed.

Lemma gauss_stamp_layout x y fwhm dith :
  rows (psf_stamp_gauss x y fwhm dith) = length y /\
  cols (psf_stamp_gauss x y fwhm dith) = length x /\
  forall j i, (j < length y)%nat -> (i < length x)%nat ->
    at2 (psf_stamp_gauss x y fwhm dith) j i =
    at2 (psf_stamp_gauss [lnth x i] [lnth y j] fwhm dith) 0 0.
Proof.
  split; [reflexivity|split; [reflexivity|]]. intros j i Hj Hi.
  unfold psf_stamp_gauss. cbn [at2].
  rewrite xarr_at, yarr_at by assumption.
  rewrite (xarr_at [lnth x i] [lnth y j] 0 0), (yarr_at [lnth x i] [lnth y j] 0 0) by (simpl; lia).
  reflexivity.
Qed.
Lemma moffat_stamp_layout x y alpha beta dith :
  rows (psf_stamp_moffat x y alpha beta dith) = length y /\
  cols (psf_stamp_moffat x y alpha beta dith) = length x /\
  forall j i, (j < length y)%nat -> (i < length x)%nat ->
    at2 (psf_stamp_moffat x y alpha beta dith) j i =
    at2 (psf_stamp_moffat [lnth x i] [lnth y j] alpha beta dith) 0 0.
Proof.
  split; [reflexivity|split; [reflexivity|]]. intros j i Hj Hi.
  unfold psf_stamp_moffat. cbn [at2].
  rewrite xarr_at, yarr_at by assumption.
  rewrite (xarr_at [lnth x i] [lnth y j] 0 0), (yarr_at [lnth x i] [lnth y j] 0 0) by (simpl; lia).
  reflexivity.
Qed.

Definition gauss_of (fwhm : R) (dith : option R) (x y : R) : R :=
  match dith with
  | None => gprof fwhm (x * x + y * y)
  | Some d => gprof fwhm (x * x + y * y)
      - (gprof fwhm (x * x + (y + d) * (y + d)) + gprof fwhm (x * x + (y - d) * (y - d))) / 2
  end.

Lemma gauss_stamp_value (x y : list R) fwhm dith j i : 0 < fwhm ->
  (j < length y)%nat -> (i < length x)%nat ->
  at2 (psf_stamp_gauss (map Fin x) (map Fin y) (Fin fwhm) (option_map Fin dith)) j i =
  Fin (gauss_of fwhm dith (nth i x 0) (nth j y 0)).
Proof.
  intros H Hj Hi. unfold psf_stamp_gauss. cbn [at2].
  rewrite xarr_at, yarr_at by (rewrite map_length; assumption).
  rewrite !lnth_map_Fin by assumption.
  destruct dith as [d|]; cbn [option_map].
  - cbn [fneg]. rewrite !gauss_pt_prof by assumption.
    unfold fsub. cbn [fadd fmul fneg]. f_equal. unfold gauss_of.
    rewrite Rplus_0_r. unfold Rminus. lra.
  - rewrite gauss_pt_prof by assumption. now rewrite Rplus_0_r.
Qed.

(* Moffat *)
Definition mprof (alpha beta d2 : R) : R :=
  (beta - 1) / (PI * (alpha * alpha)) * Rpower (1 + d2 / (alpha * alpha)) (- beta).

Lemma moffat_pt_prof alpha beta x y s : alpha <> 0 ->
  moffat_pt (Fin alpha) (Fin beta) (Fin x) (Fin y) (Fin s) =
  Fin (mprof alpha beta (x * x + (y + s) * (y + s))).
Proof.
  intros H. pose proof PI_RGT_0 as HP. unfold moffat_pt, fsq, fsub. cbn [fmul fadd fneg].
  assert (0 < alpha * alpha) by nra.
  rewrite !fdiv_Fin by nra. cbn [fadd].
  rewrite fpow_pos.
  - cbn [fmul]. reflexivity.
  - assert (0 <= (x * x + (y + s) * (y + s)) / (alpha * alpha)).
    { apply Rmult_le_pos; [apply Rplus_le_le_0_compat; apply Rle_0_sqr|]. apply Rlt_le, Rinv_0_lt_compat; assumption. }
    lra.
Qed.

Lemma pow2_beta beta : 0 < beta -> 1 < Rpower 2 (1 / beta).
Proof.
  intros H. rewrite <- (Rpower_O 2) at 1 by lra. apply Rpower_lt; [lra|].
  apply Rdiv_lt_0_compat; lra.
Qed.

Definition moffat_alpha (fwhm beta : R) : R := fwhm / (2 * sqrt (Rpower 2 (1 / beta) - 1)).

Lemma moffat_alpha_pos fwhm beta : 0 < fwhm -> 0 < beta -> 0 < moffat_alpha fwhm beta.
Proof.
  intros H Hb. pose proof (pow2_beta beta Hb). unfold moffat_alpha.
  apply Rdiv_lt_0_compat; [assumption|]. assert (0 < sqrt (Rpower 2 (1 / beta) - 1)) by (apply sqrt_lt_R0; lra). lra.
Qed.

Lemma moffat_generate p x y fwhm beta arg : psf_fam p = PsfMoffat (Some (Fin beta)) ->
  (match arg with Some v => Some v | None => psf_fwhm p end) = Some (Fin fwhm) ->
  0 < fwhm -> 0 < beta ->
  generate_conv_stamp p x y arg =
  Ok (Some (psf_stamp_moffat x y (Fin (moffat_alpha fwhm beta)) (Fin beta) None)).
Proof.
  intros Hf Ha H Hb. unfold generate_conv_stamp. rewrite Hf, Ha.
  rewrite py_inv_Fin by lra. cbn [bind]. rewrite fpow_pos by lra.
  pose proof (pow2_beta beta Hb).
  unfold fsub. cbn [fadd fneg fsqrt].
  replace (Rltb (Rpower 2 (1 / beta) + - (1)) 0) with false by (symmetry; apply Rltb_false; lra).
  cbn [fmul]. assert (0 < sqrt (Rpower 2 (1 / beta) + - (1))) by (apply sqrt_lt_R0; lra).
  rewrite fdiv_Fin by lra. reflexivity.
Qed.

Lemma mprof_half fwhm beta : 0 < fwhm -> 0 < beta ->
  mprof (moffat_alpha fwhm beta) beta (fwhm * fwhm / 4) =
  mprof (moffat_alpha fwhm beta) beta 0 / 2.
Proof.
  intros H Hb. pose proof (moffat_alpha_pos fwhm beta H Hb) as Ha.
  pose proof (pow2_beta beta Hb) as Hp.
  assert (Hsq : sqrt (Rpower 2 (1 / beta) - 1) * sqrt (Rpower 2 (1 / beta) - 1) = Rpower 2 (1 / beta) - 1)
    by (apply sqrt_sqrt; lra).
  assert (Hs0 : 0 < sqrt (Rpower 2 (1 / beta) - 1)) by (apply sqrt_lt_R0; lra).
  assert (E : fwhm * fwhm / 4 / (moffat_alpha fwhm beta * moffat_alpha fwhm beta) = Rpower 2 (1 / beta) - 1).
  { rewrite <- Hsq. unfold moffat_alpha. field. lra. }
  unfold mprof. rewrite E.
  replace (1 + (Rpower 2 (1 / beta) - 1)) with (Rpower 2 (1 / beta)) by ring.
  rewrite Rpower_mult. replace (1 / beta * - beta) with (- (1)) by (field; lra).
  rewrite Rpower_Ropp, Rpower_1 by lra.
  replace (1 + 0 / (moffat_alpha fwhm beta * moffat_alpha fwhm beta)) with 1 by (unfold Rdiv; ring).
  replace (Rpower 1 (- beta)) with 1; [field; pose proof PI_RGT_0; lra|].
  unfold Rpower. rewrite ln_1, Rmult_0_r, exp_0. reflexivity.
Qed.

Lemma mprof_pos alpha beta d2 : alpha <> 0 -> 1 < beta -> 0 < mprof alpha beta d2.
Proof.
  intros Ha Hb. pose proof PI_RGT_0. unfold mprof. apply Rmult_lt_0_compat.
  - apply Rdiv_lt_0_compat; [lra|]. apply Rmult_lt_0_compat; [lra|nra].
  - unfold Rpower; apply exp_pos.
Qed.
Lemma mprof_lt alpha beta d d' : alpha <> 0 -> 1 < beta -> 0 <= d -> d < d' ->
  mprof alpha beta d' < mprof alpha beta d.
Proof.
  intros Ha Hb Hd L. pose proof PI_RGT_0. assert (Hq : 0 < alpha * alpha) by nra.
  unfold mprof. apply Rmult_lt_compat_l.
  - apply Rdiv_lt_0_compat; [lra|]. nra.
  - assert (d / (alpha * alpha) < d' / (alpha * alpha))
      by (apply Rmult_lt_compat_r; [now apply Rinv_0_lt_compat|assumption]).
    assert (0 <= d / (alpha * alpha)) by (apply Rmult_le_pos; [lra|apply Rlt_le, Rinv_0_lt_compat; lra]).
    unfold Rpower. apply exp_increasing.
    assert (ln (1 + d / (alpha * alpha)) < ln (1 + d' / (alpha * alpha))) by (apply ln_increasing; lra).
    nra.
Qed.
Lemma mprof_low_beta alpha beta d2 : alpha <> 0 ->
  (beta < 1 -> mprof alpha beta d2 < 0) /\ (beta = 1 -> mprof alpha beta d2 = 0).
Proof.
  intros Ha. pose proof PI_RGT_0. assert (Hq : 0 < PI * (alpha * alpha)) by (apply Rmult_lt_0_compat; [lra|nra]).
  assert (Hp : 0 < Rpower (1 + d2 / (alpha * alpha)) (- beta)) by (unfold Rpower; apply exp_pos).
  unfold mprof. split; intros.
  - assert ((beta - 1) / (PI * (alpha * alpha)) < 0).
    { unfold Rdiv. assert (0 < / (PI * (alpha * alpha))) by now apply Rinv_0_lt_compat. nra. }
    nra.
  - subst beta. unfold Rdiv. ring.
Qed.

Lemma moffat_stamp_value (x y : list R) alpha beta j i : alpha <> 0 ->
  (j < length y)%nat -> (i < length x)%nat ->
  at2 (psf_stamp_moffat (map Fin x) (map Fin y) (Fin alpha) (Fin beta) None) j i =
  Fin (mprof alpha beta (nth i x 0 * nth i x 0 + nth j y 0 * nth j y 0)).
Proof.
  intros H Hj Hi. unfold psf_stamp_moffat. cbn [at2].
  rewrite xarr_at, yarr_at by (rewrite map_length; assumption).
  rewrite !lnth_map_Fin by assumption. rewrite moffat_pt_prof by assumption. now rewrite Rplus_0_r.
Qed.
