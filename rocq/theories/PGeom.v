(* Proofs about slit angles, projections and rotations. *)
From Coq Require Import Reals List Bool Arith ZArith Lia Lra Psatz.
From Verif Require Import PyFloat PyBase Arr PyNum MParams MAper1D MFit1D MTrim MGeom SGeom PKernels PTrim.
Import ListNotations.
Local Open Scope R_scope.

Lemma rad_lt a : Rabs a < 90 -> - (PI / 2) < rad a < PI / 2.
Proof. intros H. pose proof PI_RGT_0. apply Rabs_def2 in H. unfold rad. split; nra. Qed.

(** Every angle differs by half turns from one in (-90, 90]. *)
Lemma reduce_angle t : exists k : Z, - (PI / 2) < t - IZR k * PI <= PI / 2.
Proof.
  pose proof PI_RGT_0 as P. set (u := t / PI - / 2). exists (- Int_part (- u))%Z.
  destruct (base_Int_part (- u)) as [A B]. rewrite opp_IZR. set (z := IZR (Int_part (- u))) in *.
  assert (E : t = (u + / 2) * PI) by (unfold u; field; lra). rewrite E. split; nra.
Qed.

Lemma cos_sub_pi x (k : Z) : exists s, (s = 1 \/ s = -1) /\ cos (x - IZR k * PI) = s * cos x /\ sin (x - IZR k * PI) = s * sin x.
Proof.
  assert (N : forall n, exists s, (s = 1 \/ s = -1) /\ cos (INR n * PI) = s /\ sin (INR n * PI) = 0).
  { induction n as [|n (s & S & C & Z)].
    - exists 1. cbn. rewrite Rmult_0_l, cos_0, sin_0. auto.
    - exists (- s). rewrite S_INR. replace ((INR n + 1) * PI) with (INR n * PI + PI) by ring.
      rewrite neg_cos, neg_sin, C, Z. repeat split; [destruct S; [right|left]; lra|ring]. }
  assert (K : exists s, (s = 1 \/ s = -1) /\ cos (IZR k * PI) = s /\ sin (IZR k * PI) = 0).
  { destruct (Z.abs_or_opp_abs k) as [E|E]; rewrite E; set (m := Z.abs k).
    - destruct (N (Z.to_nat m)) as (s & S & C & Z0). exists s.
      rewrite INR_IZR_INZ, Z2Nat.id in C, Z0 by (unfold m; lia). auto.
    - destruct (N (Z.to_nat m)) as (s & S & C & Z0). exists s.
      rewrite INR_IZR_INZ, Z2Nat.id in C, Z0 by (unfold m; lia).
      rewrite opp_IZR, Ropp_mult_distr_l_reverse, cos_neg, sin_neg, C, Z0. split; [exact S|]. split; [reflexivity|ring]. }
  destruct K as (s & S & C & Z0). exists s. split; [exact S|]. rewrite cos_minus, sin_minus, C, Z0. split; ring.
Qed.

Lemma tan_sub_pi x k : tan (x - IZR k * PI) = tan x.
Proof.
  destruct (cos_sub_pi x k) as (s & S & C & Z). unfold tan. rewrite C, Z.
  destruct S as [-> | ->]; [now rewrite !Rmult_1_l|].
  destruct (Req_EM_T (cos x) 0) as [E|N]; [|field; lra].
  rewrite E. replace (-1 * 0) with 0 by ring. unfold Rdiv. rewrite Rinv_0. ring.
Qed.

Lemma cos_sub_pi0 x k : cos (x - IZR k * PI) = 0 <-> cos x = 0.
Proof. destruct (cos_sub_pi x k) as (s & S & C & _). rewrite C. destruct S as [-> | ->]; split; lra. Qed.

(** arctan(tan t) away from the poles, and at them. *)
Lemma arctan_tan t k : - (PI / 2) < t - IZR k * PI <= PI / 2 -> cos t <> 0 -> atan (tan t) = t - IZR k * PI.
Proof.
  intros H C. rewrite <- (tan_sub_pi t k). apply atan_tan.
  split; [lra|]. destruct H as [_ [H|H]]; [exact H|]. exfalso. apply C, (cos_sub_pi0 t k). rewrite H. apply cos_PI2.
Qed.

Lemma cos0_reduced x : - (PI / 2) < x <= PI / 2 -> cos x = 0 -> x = PI / 2.
Proof. intros [A [B|B]] C; [|exact B]. pose proof (cos_gt_0 x A B). lra. Qed.

Definition slit_angle (pole : R -> bool) (t : R) : R :=
  (if Req_EM_T (cos t) 0 then (if pole t then PI / 2 else - (PI / 2)) else atan (tan t)) * 180 / PI.

Lemma slit_run pole g p s i : angles g p s i ->
  let d := slit_angle pole (rad (p - (s - i))) in
  slit_offset pole g = (mkSlitgal (a_gen g) (a_spec g) (a_stamp g) (a_sersic g) (Some (Fin d)) (Some (Fin (Rabs d))), Ok tt).
Proof.
  intros (A & B & C & D) d. unfold slit_offset. rewrite bind_get, A.
  erewrite bind_ok.
  2:{ rewrite (bind_lift _ (Some (Fin s))) by (rewrite B; reflexivity).
      rewrite (bind_lift _ (Some (Fin i))) by (rewrite C; reflexivity).
      rewrite (bind_lift _ (Fin s)) by reflexivity. rewrite (bind_lift _ (Fin i)) by reflexivity.
      rewrite (bind_lift _ (Fin p)) by (rewrite D; reflexivity). cbv zeta. reflexivity. }
  rewrite bind_get. cbn [a_dPA].
  assert (E : fdiv (fmul (fatan (ftan pole (fdiv (fmul (fsub (Fin p) (fsub (Fin s) (Fin i))) (Fin PI)) (Fin 180)))) (Fin 180)) (Fin PI) = Fin d).
  { pose proof PI_RGT_0. unfold fsub. cbn [fneg fadd fmul]. rewrite fdiv_Fin by lra.
    replace ((p + - (s + - i)) * PI / 180) with (rad (p - (s - i))) by (unfold rad, Rminus; reflexivity).
    unfold d, slit_angle, ftan. destruct (Req_EM_T _ 0).
    - destruct (pole _); cbn [fatan fmul]; rewrite fdiv_Fin by lra; f_equal; field; lra.
    - cbn [fatan fmul]. rewrite fdiv_Fin by lra. reflexivity. }
  rewrite E. rewrite (bind_lift _ (Fin d)) by reflexivity. unfold modS. cbn [a_gen a_spec a_stamp a_sersic a_dPA fabs]. rewrite A. reflexivity.
Qed.

Lemma slit_angle_reduced pole t : exists k, Rabs (slit_angle pole t) <= 90 /\
  slit_angle pole t * PI / 180 = t - IZR k * PI /\ (cos t <> 0 -> Rabs (slit_angle pole t) < 90) /\
  (cos t = 0 -> Rabs (slit_angle pole t) = 90).
Proof.
  pose proof PI_RGT_0 as P. destruct (reduce_angle t) as (k & H). unfold slit_angle.
  assert (B : forall a, - (PI / 2) < a < PI / 2 -> Rabs (a * 180 / PI) < 90).
  { intros a [A1 A2]. apply Rabs_def1; apply Rmult_lt_reg_r with PI; try assumption.
    - replace (a * 180 / PI * PI) with (a * 180) by (field; lra). lra.
    - replace (a * 180 / PI * PI) with (a * 180) by (field; lra). lra. }
  destruct (Req_EM_T (cos t) 0) as [C|C].
  - assert (E : t - IZR k * PI = PI / 2) by (apply cos0_reduced; [exact H|apply cos_sub_pi0, C]).
    destruct (pole t).
    + exists k. rewrite E. replace (PI / 2 * 180 / PI) with 90 by (field; lra).
      rewrite Rabs_pos_eq by lra. split; [lra|]. split; [field|]. split; [contradiction|reflexivity].
    + exists (k + 1)%Z. rewrite plus_IZR. replace (- (PI / 2) * 180 / PI) with (-90) by (field; lra).
      rewrite Rabs_left by lra. split; [lra|]. split; [|split; [contradiction|lra]].
      replace (t - (IZR k + 1) * PI) with (t - IZR k * PI - PI) by ring. rewrite E. field.
  - exists k. rewrite (arctan_tan t k H C).
    assert (L : - (PI / 2) < t - IZR k * PI < PI / 2).
    { split; [lra|]. destruct H as [_ [H|H]]; [exact H|]. exfalso. apply C, (cos_sub_pi0 t k). rewrite H. apply cos_PI2. }
    pose proof (B _ L). split; [lra|]. split; [field; lra|]. split; [auto|contradiction].
Qed.

(** C63 *)
Lemma slit_offset_ok pole g p s i : angles g p s i -> exists g' d, slit_offset pole g = (g', Ok tt) /\
  same_angles g g' /\ a_dPA g' = Some (Fin d) /\ a_abs g' = Some (Fin (Rabs d)) /\
  -90 <= d <= 90 /\ half_turns d (p - (s - i)).
Proof.
  intros H. rewrite (slit_run pole g p s i H). set (d := slit_angle pole (rad (p - (s - i)))).
  eexists. exists d. split; [reflexivity|]. cbn [a_dPA a_abs]. split; [repeat split|]. split; [reflexivity|]. split; [reflexivity|].
  destruct (slit_angle_reduced pole (rad (p - (s - i)))) as (k & A & B & _). fold d in A, B.
  split; [unfold Rabs in A; destruct (Rcase_abs d); lra|].
  exists (- k)%Z. rewrite opp_IZR. pose proof PI_RGT_0. unfold rad in B.
  assert (E : (d - (p - (s - i)) + 180 * IZR k) * PI = 0) by lra.
  apply Rmult_integral in E. lra.
Qed.

Lemma slit_offset_same pole g1 g2 g1' g2' p1 s1 i1 p2 s2 i2 d1 d2 : angles g1 p1 s1 i1 -> angles g2 p2 s2 i2 ->
  half_turns p1 p2 -> half_turns s1 s2 -> half_turns i1 i2 ->
  slit_offset pole g1 = (g1', Ok tt) -> slit_offset pole g2 = (g2', Ok tt) ->
  a_dPA g1' = Some (Fin d1) -> a_dPA g2' = Some (Fin d2) ->
  Rabs d1 = Rabs d2 /\ a_abs g1' = a_abs g2' /\ (Rabs d1 < 90 -> d1 = d2).
Proof.
  intros H1 H2 (kp & Kp) (ks & Ks) (ki & Ki) E1 E2 D1 D2.
  rewrite (slit_run pole _ _ _ _ H1) in E1. rewrite (slit_run pole _ _ _ _ H2) in E2.
  inversion E1; subst g1'; clear E1. inversion E2; subst g2'; clear E2. cbn [a_dPA a_abs] in *.
  inversion D1; clear D1. inversion D2; clear D2.
  set (t1 := rad (p1 - (s1 - i1))) in *. set (t2 := rad (p2 - (s2 - i2))) in *.
  assert (T : t2 = t1 - IZR (kp - ks + ki) * PI).
  { unfold t1, t2, rad. rewrite plus_IZR, minus_IZR.
    replace p1 with (p2 + 180 * IZR kp) by lra. replace s1 with (s2 + 180 * IZR ks) by lra.
    replace i1 with (i2 + 180 * IZR ki) by lra. field. }
  destruct (Req_EM_T (cos t1) 0) as [C|C].
  - assert (C2 : cos t2 = 0) by (rewrite T; apply cos_sub_pi0, C).
    destruct (slit_angle_reduced pole t1) as (k1 & _ & _ & _ & A1).
    destruct (slit_angle_reduced pole t2) as (k2 & _ & _ & _ & A2).
    rewrite A1, A2 by assumption. split; [reflexivity|]. split; [reflexivity|lra].
  - assert (C2 : cos t2 <> 0) by (intros Z; apply C, (cos_sub_pi0 t1 (kp - ks + ki)); rewrite <- T; exact Z).
    assert (S : slit_angle pole t2 = slit_angle pole t1).
    { unfold slit_angle. destruct (Req_EM_T (cos t1) 0); [contradiction|]. destruct (Req_EM_T (cos t2) 0); [contradiction|].
      rewrite T, tan_sub_pi. reflexivity. }
    rewrite S. auto.
Qed.

Lemma slit_perpendicular pole g p s i : angles g p s i -> (Rabs (val match a_dPA (fst (slit_offset pole g)) with Some d => d | None => NaN end) = 90 <->
  exists k : Z, p - (s - i) = 90 + 180 * IZR k).
Proof.
  intros H. rewrite (slit_run pole g p s i H). cbn [fst a_dPA val]. pose proof PI_RGT_0 as P.
  set (t := p - (s - i)). destruct (slit_angle_reduced pole (rad t)) as (k & A & B & C & D).
  split.
  - intros E. destruct (Req_EM_T (cos (rad t)) 0) as [Z|Z]; [|specialize (C Z); lra].
    destruct (reduce_angle (rad t)) as (m & M). exists m.
    assert (X : rad t - IZR m * PI = PI / 2) by (apply cos0_reduced; [exact M|apply cos_sub_pi0, Z]).
    unfold rad in X. assert (Y : (t - 90 - 180 * IZR m) * PI = 0) by lra. apply Rmult_integral in Y. lra.
  - intros (m & M). apply D. apply (cos_sub_pi0 (rad t) m).
    replace (rad t - IZR m * PI) with (PI / 2); [apply cos_PI2|]. unfold rad. rewrite M. field.
Qed.

Lemma slit_generate pole g : a_gen g = true ->
  (forall d, a_dPA g = Some (Fin d) -> exists g', slit_offset pole g = (g', Ok tt) /\ same_angles g g' /\
     a_dPA g' = Some (Fin d) /\ a_abs g' = Some (Fin (Rabs d))) /\
  (a_dPA g = None -> slit_offset pole g = (g, Err TypeError)).
Proof.
  intros G. unfold slit_offset. rewrite bind_get, G, bind_ret, bind_get. split.
  - intros d D. rewrite (bind_lift _ (Fin d)) by (rewrite D; reflexivity). eexists. split; [reflexivity|]. split; [repeat split|].
    cbn [a_dPA a_abs]. rewrite D. auto.
  - intros D. rewrite D. reflexivity.
Qed.
