(* Box integration lemmas in closed form, and concrete cases of the geometry theorems. *)
From Coq Require Import Reals List Bool Arith ZArith Lia Lra Psatz.
From Verif Require Import PyFloat PyBase Arr PyNum MParams MAper1D MFit1D MTrim MGeom SGeom PKernels PGeom PGeom2 PGeom3 PGeom4 PGeom5.
Import ListNotations.
Local Open Scope R_scope.

Lemma box_mean_spec x ys xn x0 d n y u0 D m : regular x x0 d n -> sampled ys y n -> regular xn u0 D m -> d <= D ->
  exists l, box_integrate x ys xn false = Ok l /\ length l = m /\
  forall j, (j < m)%nat -> meets x0 d n (lo_edge u0 D j) (hi_edge u0 D j) -> no_shared_edge x0 d n (lo_edge u0 D j) (hi_edge u0 D j) ->
  nth_error l j = Some (Fin (box_mean x0 d n y (lo_edge u0 D j) (hi_edge u0 D j))).
Proof. exact (fun a b c => box_mean_ok x ys xn x0 d n y u0 D m a b c). Qed.

Lemma box_conserves x ys xn x0 d n y u0 D m : regular x x0 d n -> sampled ys y n -> regular xn u0 D m -> d <= D ->
  (forall j, (j < m)%nat -> meets x0 d n (lo_edge u0 D j) (hi_edge u0 D j) /\ no_shared_edge x0 d n (lo_edge u0 D j) (hi_edge u0 D j)) ->
  lo_edge u0 D 0 <= lo_edge x0 d 0 -> hi_edge x0 d (n - 1) <= hi_edge u0 D (m - 1) ->
  exists v : nat -> R, box_integrate x ys xn false = Ok (map (fun j => Fin (v j)) (seq 0 m)) /\
  rsumn m (fun j => v j * D) = rsumn n (fun k => y k * d).
Proof. exact (fun a b c => box_conserved x ys xn x0 d n y u0 D m a b c). Qed.

Lemma box_same_grid x ys x0 d n y : regular x x0 d n -> sampled ys y n ->
  exists l, box_integrate x ys x false = Ok l /\ length l = n /\ forall j, (j < n)%nat -> nth_error l j = Some (Fin (3 * y j)).
Proof. exact (fun a b => box_same x ys x x0 d n y x0 d n a b a eq_refl eq_refl eq_refl). Qed.

Lemma box_within_pixel x ys xn x0 d n y u0 D m : regular x x0 d n -> sampled ys y n -> regular xn u0 D m ->
  exists l, box_integrate x ys xn false = Ok l /\ length l = m /\
  forall j, (j < m)%nat -> forall k, (k < n)%nat -> lo_edge x0 d k < lo_edge u0 D j -> hi_edge u0 D j < hi_edge x0 d k ->
  nth_error l j = Some (Fin (y k * (1 + d / D))).
Proof. exact (fun a b c => box_within x ys xn x0 d n y u0 D m a b c). Qed.

Lemma box_outside x ys xn x0 d n y u0 D m : regular x x0 d n -> sampled ys y n -> regular xn u0 D m ->
  exists l, box_integrate x ys xn false = Ok l /\ length l = m /\
  (forall j, (j < m)%nat -> hi_edge x0 d (n - 1) <= lo_edge u0 D j ->
   nth_error l j = Some (Fin (- (y (n - 1)%nat * ((lo_edge u0 D j - hi_edge x0 d (n - 1)) / D))))) /\
  (forall j, (j < m)%nat -> hi_edge u0 D j <= lo_edge x0 d 0 ->
   nth_error l j = Some (Fin (- (y 0%nat * ((lo_edge x0 d 0 - hi_edge u0 D j) / D))))).
Proof. exact (fun a b c => box_beyond x ys xn x0 d n y u0 D m a b c). Qed.

(* Concrete cases. *)
Definition ex_gal (p s i : R) : slitgal := mkSlitgal false (Some (Some (Fin s))) (Some (Some (Fin i))) (Some (Fin p)) None None.

Lemma ex_slit : angles (ex_gal 30 10 0) 30 10 0 /\ angles (ex_gal 210 10 0) 210 10 0 /\ half_turns 210 30 /\
  exists d, a_dPA (fst (slit_offset (fun _ => false) (ex_gal 30 10 0))) = Some (Fin d) /\ d = 20.
Proof.
  split; [repeat split|]. split; [repeat split|]. split; [exists 1%Z; lra|].
  destruct (slit_offset_ok (fun _ => false) (ex_gal 30 10 0) 30 10 0) as (g' & d & E & _ & D & _ & B & K & H); [repeat split|].
  exists d. split; [rewrite E; exact D|].
  assert (KK : K = 0%Z) by (assert (Z1 : IZR (-1) < IZR K) by lra; assert (Z2 : IZR K < IZR 1) by lra; apply lt_IZR in Z1, Z2; lia).
  subst K. lra.
Qed.

Lemma ex_slit_generate : let g := mkSlitgal true None None None (Some (Fin (-30))) None in
  a_gen g = true /\ a_dPA g = Some (Fin (-30)).
Proof. split; reflexivity. Qed.

Definition ex_x : list fl := map (fun i => Fin (0 + INR i * 1)) (seq 0 4).
Definition ex_y : list fl := map (fun i => Fin (INR i + 1)) (seq 0 4).
Definition ex_u : list fl := map (fun i => Fin (1/4 + INR i * (9/4))) (seq 0 2).

Lemma ex_edges : (forall j, (j < 2)%nat -> meets 0 1 4 (lo_edge (1/4) (9/4) j) (hi_edge (1/4) (9/4) j) /\
   no_shared_edge 0 1 4 (lo_edge (1/4) (9/4) j) (hi_edge (1/4) (9/4) j)) /\
  lo_edge (1/4) (9/4) 0 <= lo_edge 0 1 0 /\ hi_edge 0 1 (4 - 1) <= hi_edge (1/4) (9/4) (2 - 1).
Proof.
  unfold meets, no_shared_edge, lo_edge, hi_edge. cbn [Nat.sub].
  split; [|cbn [INR]; lra]. intros j J. split.
  - destruct j as [|[|j]]; [| |lia]; cbn [INR]; lra.
  - intros k K. destruct j as [|[|j]]; [| |lia]; destruct k as [|[|[|[|k]]]]; try lia; cbn [INR]; lra.
Qed.

Lemma ex_box : regular ex_x 0 1 4 /\ sampled ex_y (fun i => INR i + 1) 4 /\ regular ex_u (1/4) (9/4) 2 /\ 1 <= 9/4 /\
  exists v0 v1, box_integrate ex_x ex_y ex_u false = Ok [Fin v0; Fin v1] /\ v0 * (9/4) + v1 * (9/4) = 10.
Proof.
  assert (A : regular ex_x 0 1 4) by (split; [reflexivity|split; [lia|lra]]).
  assert (B : sampled ex_y (fun i => INR i + 1) 4) by reflexivity.
  assert (C : regular ex_u (1/4) (9/4) 2) by (split; [reflexivity|split; [lia|lra]]).
  repeat (split; [first [assumption|lra]|]).
  destruct ex_edges as (E1 & E2 & E3).
  destruct (box_conserves _ _ _ _ _ _ _ _ _ _ A B C ltac:(lra) E1 E2 E3) as (v & V & S).
  exists (v 0%nat), (v 1%nat). split; [exact V|]. cbn [rsumn INR] in S. lra.
Qed.

Definition ex_out : list fl := map (fun i => Fin (5 + INR i * 1)) (seq 0 2).
Lemma ex_outside : regular ex_out 5 1 2 /\ exists l, box_integrate ex_x ex_y ex_out false = Ok l /\ nth_error l 0 = Some (Fin (-4)).
Proof.
  assert (C : regular ex_out 5 1 2) by (split; [reflexivity|split; [lia|lra]]). split; [exact C|].
  assert (A : regular ex_x 0 1 4) by (split; [reflexivity|split; [lia|lra]]).
  assert (B : sampled ex_y (fun i => INR i + 1) 4) by reflexivity.
  destruct (box_outside _ _ _ _ _ _ _ _ _ _ A B C) as (l & E & LEN & R1 & _). exists l. split; [exact E|].
  rewrite (R1 0%nat ltac:(lia)); [|unfold hi_edge, lo_edge; cbn [INR Nat.sub]; lra].
  do 2 f_equal. unfold hi_edge, lo_edge. cbn [INR Nat.sub]. field.
Qed.

Definition ex_fine : list fl := map (fun i => Fin (1 + INR i * (1/4))) (seq 0 2).
Lemma ex_within : regular ex_fine 1 (1/4) 2 /\ exists l, box_integrate ex_x ex_y ex_fine false = Ok l /\ nth_error l 0 = Some (Fin 10).
Proof.
  assert (C : regular ex_fine 1 (1/4) 2) by (split; [reflexivity|split; [lia|lra]]). split; [exact C|].
  assert (A : regular ex_x 0 1 4) by (split; [reflexivity|split; [lia|lra]]).
  assert (B : sampled ex_y (fun i => INR i + 1) 4) by reflexivity.
  destruct (box_within_pixel _ _ _ _ _ _ _ _ _ _ A B C) as (l & E & LEN & V). exists l. split; [exact E|].
  rewrite (V 0%nat ltac:(lia) 1%nat ltac:(lia)); [|unfold hi_edge, lo_edge; cbn [INR]; lra|unfold hi_edge, lo_edge; cbn [INR]; lra].
  do 2 f_equal. cbn [INR]. field.
Qed.

Lemma ex_inslit : exists v, y_proj_major_inslit (Fin 2) (Fin 90) (Some (Fin 1)) = Ok (Fin v) /\ v = 0.
Proof.
  destruct (inslit_spec 2 90 1 ltac:(lra)) as (v & E & (t & _ & _ & V) & _). exists v. split; [exact E|].
  rewrite V. replace (rad 90) with (PI / 2) by (unfold rad; lra). rewrite cos_PI2, Rmult_0_r. apply Rabs_R0.
Qed.

Lemma ex_rot : rot_coord_angle (Fin 2, Fin 1) (Fin (PI / 2)) (Fin 1) (Fin 1) = (Fin 1, Fin 2).
Proof.
  destruct (rot_spec 2 1 (PI / 2) 1 1) as (x' & y' & E & X & Y & _). rewrite E. rewrite cos_PI2, sin_PI2 in *. do 2 f_equal; lra.
Qed.

Lemma ex_sign : y_sign_pos_angle true (Fin 200) = Ok (Some (Fin (-1))) /\ y_sign_pos_angle false (Fin 200) = Err AttributeError.
Proof.
  destruct (sign_spec 200 ltac:(lra)) as (s & (_ & _ & S) & E & F).
  assert (C : cos (rad 200) < 0).
  { apply cos_lt_0; unfold rad; pose proof PI_RGT_0; lra. }
  rewrite (S C) in E. split; [exact E|]. rewrite F. destruct (Rlt_dec 200 0); [lra|]. destruct (Rlt_dec 180 200); [reflexivity|lra].
Qed.

Lemma ex_mock : exists m, generate_mock (Fin 2) (Fin 200) (Fin (1/2)) (Fin 50) (Fin 0) true 100 (Fin (1/5)) (Fin 7) 40 = Ok m /\
  k_rows m = 40%Z /\ k_m0 m = Fin (39 / 2) /\ k_dither m = false.
Proof.
  destruct (mock_spec 2 200 (1/2) 50 0 true 100 (1/5) 7 40 ltac:(lra)) as (m & E & R1 & _ & (L & LE & L1 & L2 & L3 & L4) & _ & M0 & _ & DI & _).
  exists m. split; [exact E|].
  assert (K : k_rows m = 40%Z).
  { revert E LE L3 L4. unfold generate_mock. cbn [fmul fltb]. destruct (Rltb 7 (40 * (1/5))) eqn:Q; [|apply Rltb_false in Q; lra].
    rewrite fdiv_Fin by lra. cbn [int_ceil bind]. intros E; inversion E; subst m. cbn [k_slit k_rows]. intros LE L3 L4.
    assert (LL : L = 40 * (1/5)) by congruence. rewrite LL in *.
    apply eq_IZR. apply Rle_antisym; apply IZR_le; apply Z.lt_succ_r; apply lt_IZR; rewrite ?succ_IZR; lra. }
  split; [exact K|]. split; [|exact DI]. rewrite M0, K. do 2 f_equal. lra.
Qed.

Lemma ex_phys : exists y, y_proj_phys (Fin 3) (Fin 0) (Fin (1/2)) = Fin y /\ y = 3.
Proof.
  destruct (y_proj_phys_spec 3 0 (1/2) ltac:(lra) ltac:(lra)) as (y & E & P & Q & _). exists y. split; [exact E|].
  replace (rad 0) with 0 in Q by (unfold rad; lra). rewrite cos_0, sin_0 in Q. nra.
Qed.

Lemma ex_pstamp nz : pstamp_position_angle nz (Some 1) (Some 1) * PI / 180 = PI / 4.
Proof.
  change (pstamp_position_angle nz (Some 1) (Some 1) * PI / 180) with (rad (pstamp_position_angle nz (Some 1) (Some 1))).
  apply (direction_unique _ _ 1 1).
  - apply pstamp_angle. left. lra.
  - split; [pose proof PI_RGT_0; lra|]. exists (sqrt 2). pose proof (sqrt_lt_R0 2 ltac:(lra)) as P. split; [exact P|].
    rewrite cos_PI4, sin_PI4. split; field; lra.
  - destruct (pstamp_angle nz 1 1) as (B & r & R0 & X & Y); [left; lra|]. destruct (Req_dec (rad (pstamp_position_angle nz (Some 1) (Some 1))) (- PI)) as [Q|Q]; [|lra].
    rewrite Q, cos_neg, cos_PI in X. lra.
  - pose proof PI_RGT_0; lra.
Qed.

Lemma ex_bearing nz : exists t, pos_angle nz 0 0 (PI / 4) 0 Radians = Ok t /\ t = PI / 2.
Proof.
  destruct (pos_angle_direction nz 0 0 (PI / 4) 0) as (t & E & DIR & _).
  - rewrite cos_0. lra.
  - right. rewrite cos_0, Rmult_1_l, Rminus_0_r, sin_PI4. pose proof (sqrt_lt_R0 2 ltac:(lra)). apply Rgt_not_eq. apply Rdiv_lt_0_compat; lra.
  - exists t. split; [exact E|]. rewrite cos_0, sin_0, Rmult_1_l, Rminus_0_r, sin_PI4 in DIR.
    pose proof PI_RGT_0. apply (direction_unique _ _ _ _ DIR).
    + split; [lra|]. exists (1 / sqrt 2). pose proof (sqrt_lt_R0 2 ltac:(lra)). rewrite cos_PI2, sin_PI2. split; [apply Rdiv_lt_0_compat; lra|]. split; ring.
    + destruct DIR as (B & r & R0 & X & Y). destruct (Req_dec t (- PI)) as [Q|Q]; [|lra]. rewrite Q, sin_neg, sin_PI in Y.
      pose proof (sqrt_lt_R0 2 ltac:(lra)). assert (0 < 1 / sqrt 2) by (apply Rdiv_lt_0_compat; lra). lra.
    + lra.
Qed.

Definition ex_img : arr2 fl := mk2 4 4 (fun i j => Fin (INR i + INR j)).
Lemma ex_image : exists r, box_integrate_pstamp ex_img ex_x ex_x ex_u ex_u = Ok r /\ rows r = 2%nat /\ cols r = 2%nat /\ exists v, at2 r 0 0 = Fin v.
Proof.
  assert (A : regular ex_x 0 1 4) by (split; [reflexivity|split; [lia|lra]]).
  assert (C : regular ex_u (1/4) (9/4) 2) by (split; [reflexivity|split; [lia|lra]]).
  destruct (box_image ex_img ex_x ex_x ex_u ex_u 0 1 4 0 1 4 (1/4) (9/4) 2 (1/4) (9/4) 2 (fun i j => INR i + INR j) A A C C eq_refl eq_refl
    ltac:(reflexivity) ltac:(lra) ltac:(lra)) as (r & E & R1 & R2 & V).
  exists r. split; [exact E|]. split; [exact R1|]. split; [exact R2|]. destruct (proj1 ex_edges 0%nat ltac:(lia)) as [M N].
  eexists. exact (V 0%nat 0%nat ltac:(lia) ltac:(lia) M N M N).
Qed.

Lemma mock_dither z va rt s0 ys nw pix slit nymin :
  generate_mock z va rt s0 ys true nw pix slit nymin = generate_mock z va rt s0 ys false nw pix slit nymin /\
  forall d m, generate_mock z va rt s0 ys d nw pix slit nymin = Ok m -> k_dither m = false.
Proof.
  split; [reflexivity|]. intros d m. unfold generate_mock. destruct (int_ceil _); cbn [bind]; [|discriminate].
  intros E; inversion E. reflexivity.
Qed.
