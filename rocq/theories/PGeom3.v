(* Proofs about position angles and mocks. *)
From Coq Require Import Reals List Bool Arith ZArith Lia Lra Psatz.
From Verif Require Import PyFloat PyBase Arr PyNum MParams MAper1D MFit1D MTrim MGeom SGeom PKernels PTrim PGeom PGeom2.
Import ListNotations.
Local Open Scope R_scope.

Lemma atan_direction x y : 0 < x -> - (PI / 2) < atan (y / x) < PI / 2 /\
  exists r, 0 < r /\ x = r * cos (atan (y / x)) /\ y = r * sin (atan (y / x)).
Proof.
  intros X. split; [pose proof (atan_bound (y / x)); lra|]. rewrite cos_atan, sin_atan. set (q := sqrt (1 + (y / x)²)).
  assert (Q : 0 < q) by (apply sqrt_lt_R0; pose proof (Rle_0_sqr (y / x)); lra).
  exists (x * q). split; [apply Rmult_lt_0_compat; assumption|]. split; field; lra.
Qed.

Lemma arctan2_direction nz x y : x <> 0 \/ y <> 0 -> direction (arctan2 nz y x) x y.
Proof.
  intros N. pose proof PI_RGT_0 as P. unfold arctan2, direction. destruct (Rlt_dec 0 x) as [X|X].
  - destruct (atan_direction x y X) as [A B]. split; [lra|exact B].
  - destruct (Rlt_dec x 0) as [X'|X'].
    + assert (M : 0 < - x) by lra. destruct (atan_direction (- x) (- y) M) as [A (r & R & C & S)].
      replace (- y / - x) with (y / x) in A, C, S by (field; lra).
      destruct (Rlt_dec 0 y) as [Y|Y]; [|destruct (Rlt_dec y 0) as [Y'|Y']].
      * assert (L : atan (y / x) < 0).
        { rewrite <- atan_0. apply atan_increasing. unfold Rdiv. pose proof (Rinv_lt_0_compat x X'). nra. }
        split; [lra|]. exists r. rewrite neg_cos, neg_sin. repeat split; lra.
      * assert (L : 0 < atan (y / x)).
        { rewrite <- atan_0. apply atan_increasing. unfold Rdiv. pose proof (Rinv_lt_0_compat x X'). nra. }
        split; [lra|]. exists r. replace (atan (y / x) - PI) with (- (PI - atan (y / x))) by ring.
        rewrite cos_neg, sin_neg, (Rtrigo_facts.cos_pi_minus (atan (y / x))), sin_PI_x. repeat split; lra.
      * assert (Y0 : y = 0) by lra. split; [destruct nz; lra|]. exists (- x).
        destruct nz; rewrite ?cos_neg, ?sin_neg, cos_PI, sin_PI; repeat split; lra.
    + assert (X0 : x = 0) by lra. destruct (Rlt_dec 0 y) as [Y|Y]; [|destruct (Rlt_dec y 0) as [Y'|Y']].
      * split; [lra|]. exists y. rewrite cos_PI2, sin_PI2. repeat split; lra.
      * split; [lra|]. exists (- y). rewrite cos_neg, sin_neg, cos_PI2, sin_PI2. repeat split; lra.
      * exfalso. destruct N; lra.
Qed.

Lemma deg_rad t : rad (t * 180 / PI) = t.
Proof. pose proof PI_RGT_0. unfold rad. field. lra. Qed.

(** C96 *)
Lemma pstamp_angle nz a b : b <> 0 \/ 0 < a -> direction (rad (pstamp_position_angle nz (Some a) (Some b))) b a.
Proof.
  intros H. unfold pstamp_position_angle. destruct (Reqb b 0) eqn:B.
  - apply Reqb_true in B. destruct H as [H|H]; [contradiction|]. rewrite (proj2 (Reqb_false a 0)) by lra. cbn [andb].
    replace (rad 90) with (PI / 2) by (unfold rad; field). pose proof PI_RGT_0. split; [lra|].
    exists a. rewrite cos_PI2, sin_PI2. repeat split; lra.
  - apply Reqb_false in B. cbn [andb]. rewrite deg_rad. apply arctan2_direction. left. exact B.
Qed.

Lemma pstamp_none nz : pstamp_position_angle nz None None = 0 /\ pstamp_position_angle nz (Some 0) (Some 0) = 0.
Proof. unfold pstamp_position_angle. rewrite (proj2 (Reqb_true 0 0)) by reflexivity. split; reflexivity. Qed.

Lemma pstamp_refuted nz : pstamp_position_angle nz (Some (-1)) (Some 0) = 90 /\ ~ direction (rad 90) 0 (-1).
Proof.
  split.
  - unfold pstamp_position_angle. rewrite (proj2 (Reqb_true 0 0)) by reflexivity. rewrite (proj2 (Reqb_false (-1) 0)) by lra. reflexivity.
  - replace (rad 90) with (PI / 2) by (unfold rad; field). intros (_ & r & R & _ & S). rewrite sin_PI2 in S. lra.
Qed.

(** C97 *)
Lemma pos_angle_direction nz ra1 d1 ra2 d2 : 0 < cos d2 ->
  let e := cos d2 * sin (ra2 - ra1) in
  let n := cos d1 * sin d2 - sin d1 * cos d2 * cos (ra2 - ra1) in
  n <> 0 \/ e <> 0 ->
  exists t, pos_angle nz ra1 d1 ra2 d2 Radians = Ok t /\ direction t n e /\
    pos_angle nz ra1 d1 ra2 d2 Degrees = Ok (t * 180 / PI) /\ pos_angle nz ra1 d1 ra2 d2 OtherUnit = Err ValueError.
Proof.
  intros C e n N. unfold pos_angle. set (x := cos d1 * tan d2 - sin d1 * cos (ra1 - ra2)). set (y := - sin (ra1 - ra2)).
  assert (E1 : n = cos d2 * x).
  { unfold n, x, tan. replace (ra1 - ra2) with (- (ra2 - ra1)) by ring. rewrite cos_neg. field. lra. }
  assert (E2 : e = cos d2 * y). { unfold e, y. replace (ra1 - ra2) with (- (ra2 - ra1)) by ring. rewrite sin_neg. ring. }
  exists (arctan2 nz y x). split; [reflexivity|]. split; [|split; reflexivity].
  assert (XY : x <> 0 \/ y <> 0).
  { destruct (Req_EM_T x 0) as [X|X]; [|left; exact X]. right. intros Y. rewrite E1, E2, X, Y in N. destruct N; lra. }
  destruct (arctan2_direction nz x y XY) as [B (r & R & RX & RY)]. split; [exact B|].
  exists (cos d2 * r). split; [apply Rmult_lt_0_compat; assumption|]. rewrite E1, E2. split; [rewrite RX at 1|rewrite RY at 1]; ring.
Qed.

Lemma pos_angle_shift nz ra1 d1 ra2 d2 c u : pos_angle nz (ra1 + c) d1 (ra2 + c) d2 u = pos_angle nz ra1 d1 ra2 d2 u.
Proof. unfold pos_angle. replace (ra1 + c - (ra2 + c)) with (ra1 - ra2) by ring. reflexivity. Qed.

Lemma direction_unique t1 t2 x y : direction t1 x y -> direction t2 x y -> - PI < t1 -> - PI < t2 -> t1 = t2.
Proof.
  intros [B1 (r1 & R1 & X1 & Y1)] [B2 (r2 & R2 & X2 & Y2)] L1 L2. pose proof PI_RGT_0 as P.
  assert (C : r1 = r2).
  { pose proof (sin2_cos2 t1) as S1. pose proof (sin2_cos2 t2) as S2. unfold Rsqr in *.
    assert (r1 * r1 = r2 * r2).
    { transitivity (x * x + y * y); [rewrite X1, Y1|rewrite X2, Y2].
      - transitivity (r1 * r1 * (sin t1 * sin t1 + cos t1 * cos t1)); [rewrite S1; ring|ring].
      - transitivity (r2 * r2 * (sin t2 * sin t2 + cos t2 * cos t2)); [ring|rewrite S2; ring]. }
    nra. }
  subst r2. assert (EC : cos t1 = cos t2) by nra. assert (ES : sin t1 = sin t2) by nra.
  assert (Z : cos (t1 - t2) = 1) by (rewrite cos_minus, EC, ES; pose proof (sin2_cos2 t2) as S2; unfold Rsqr in S2; lra).
  assert (Z2 : sin (t1 - t2) = 0) by (rewrite sin_minus, EC, ES; ring).
  destruct (Rtotal_order t1 t2) as [L|[L|L]]; [|exact L|].
  - exfalso. destruct (Rlt_dec (t2 - t1) PI) as [A|A].
    + pose proof (sin_gt_0 (t2 - t1)). replace (t1 - t2) with (- (t2 - t1)) in Z2 by ring. rewrite sin_neg in Z2. lra.
    + destruct (Req_EM_T (t2 - t1) PI) as [E|E].
      * replace (t1 - t2) with (- (t2 - t1)) in Z by ring. rewrite cos_neg, E, cos_PI in Z. lra.
      * pose proof (sin_lt_0 (t2 - t1)). replace (t1 - t2) with (- (t2 - t1)) in Z2 by ring. rewrite sin_neg in Z2. lra.
  - exfalso. destruct (Rlt_dec (t1 - t2) PI) as [A|A].
    + pose proof (sin_gt_0 (t1 - t2)). lra.
    + destruct (Req_EM_T (t1 - t2) PI) as [E|E]; [rewrite E, cos_PI in Z; lra|]. pose proof (sin_lt_0 (t1 - t2)). lra.
Qed.

(** C71 *)
Lemma Rceil_spec x : IZR (Rceil x) - 1 < x <= IZR (Rceil x).
Proof. unfold Rceil. destruct (base_Int_part (- x)). rewrite opp_IZR. lra. Qed.

Lemma mock_spec z va rt s0 ys dither nw pix slit nymin : 0 < pix -> exists m,
  generate_mock (Fin z) (Fin va) (Fin rt) (Fin s0) (Fin ys) dither nw (Fin pix) (Fin slit) nymin = Ok m /\
  (nymin <= k_rows m)%Z /\ k_cols m = nw /\
  (exists L, k_slit m = Fin L /\ slit <= L /\ IZR nymin * pix <= L /\ (IZR (k_rows m) - 1) * pix < L <= IZR (k_rows m) * pix) /\
  (IZR nymin * pix <= slit -> k_slit m = Fin slit) /\
  k_m0 m = Fin ((IZR (k_rows m) - 1) / 2) /\ k_ypos m = k_m0 m /\ k_dither m = false /\
  mock_theta m = ([Fin va; Fin rt; Fin s0; Fin ys; Fin z], Ok tt).
Proof.
  intros P. unfold generate_mock. cbn [fmul fltb].
  set (L := if Rlt_dec slit (IZR nymin * pix) then IZR nymin * pix else slit).
  assert (E : (if Rltb slit (IZR nymin * pix) then Fin (IZR nymin * pix) else Fin slit) = Fin L).
  { unfold L, Rltb. destruct (Rlt_dec _ _); reflexivity. }
  rewrite E, fdiv_Fin by lra. cbn [int_ceil bind fceil]. eexists. split; [reflexivity|].
  cbn [k_rows k_cols k_slit k_m0 k_ypos k_dither].
  assert (B1 : slit <= L) by (unfold L; destruct (Rlt_dec _ _); lra).
  assert (B2 : IZR nymin * pix <= L) by (unfold L; destruct (Rlt_dec _ _); lra).
  pose proof (Rceil_spec (L / pix)) as [C1 C2]. set (n := Rceil (L / pix)) in *.
  assert (LP : L = L / pix * pix) by (field; lra).
  split; [|split; [reflexivity|split; [|split; [|split; [|split; [reflexivity|split; reflexivity]]]]]].
  - apply le_IZR. apply Rle_trans with (L / pix); [|exact C2]. apply Rmult_le_reg_r with pix; [exact P|]. lra.
  - exists L. split; [reflexivity|]. split; [exact B1|]. split; [exact B2|]. split.
    + rewrite LP at 1. apply Rmult_lt_compat_r; assumption.
    + rewrite LP at 1. apply Rmult_le_compat_r; [lra|assumption].
  - intros H. unfold L. destruct (Rlt_dec _ _); [lra|reflexivity].
  - rewrite fdiv_Fin by lra. unfold fsub. cbn [fneg fadd]. f_equal. field.
Qed.
