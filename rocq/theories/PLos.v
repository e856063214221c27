From Coq Require Import Reals Lra List Bool Arith ZArith Lia.
From Verif Require MProf.
From Verif Require Import PyFloat PyBase Arr PyNum MParams MKernels MAper2D SParams SKernels SAper2D SAper1D SLine SLos PParams PMask PAper2D PAper2DHist PAper2DGrid PAper2DShape PAper2DOk PAper2DVal PAper2DGeo PKernels PKernels2 PProf PAper1D5 PLine.
Import ListNotations.
Local Open Scope R_scope.

(* the axis and the two coordinates the code uses *)
Definition axis (d i : R) : vec := (- sin i * cos (d * (PI / 180)), - sin i * sin (d * (PI / 180)), cos i).

Lemma axis_unit d i : vdot (axis d i) (axis d i) = 1.
Proof.
  unfold vdot, axis; cbn [fst snd].
  pose proof (sin2_cos2 i) as A. pose proof (sin2_cos2 (d * (PI/180))) as B. unfold Rsqr in *.
  set (a := sin i) in *. set (b := cos i) in *. set (x := sin (d * (PI/180))) in *. set (y := cos (d * (PI/180))) in *.
  replace (- a * y * (- a * y) + - a * x * (- a * x) + b * b) with (a * a * (x * x + y * y) + b * b) by ring.
  rewrite B. lra.
Qed.

Lemma axis_turning d i : turning_axis d i (axis d i).
Proof. split; [|repeat split]. unfold vnorm. rewrite axis_unit. apply sqrt_1. Qed.

Lemma height_zi d i x y z : height (axis d i) (x, y, z) = zi_ (d * (PI / 180)) i x y z.
Proof. unfold height, vdot, axis, zi_; cbn [fst snd]. ring. Qed.

Lemma cross_yi d i x y z : snd (vcross (x, y, z) (axis d i)) = sin i * yi_ (d * (PI / 180)) i x y z.
Proof. unfold vcross, axis, yi_; cbn [fst snd]. ring. Qed.

Lemma from_axis_r d i x y z : from_axis (axis d i) (x, y, z) =
  sqrt (xi_ (d * (PI / 180)) i x y z * xi_ (d * (PI / 180)) i x y z + yi_ (d * (PI / 180)) i x y z * yi_ (d * (PI / 180)) i x y z).
Proof.
  unfold from_axis, vnorm. f_equal.
  transitivity (vdot (x, y, z) (x, y, z) - height (axis d i) (x, y, z) * height (axis d i) (x, y, z)).
  - assert (U := axis_unit d i). set (n := axis d i) in *. clearbody n. destruct n as [[a b] c].
    unfold height, vsub, vscal, vdot in *; cbn [fst snd] in *.
    set (h := a * x + b * y + c * z) in *.
    replace ((x - h * a) * (x - h * a) + (y - h * b) * (y - h * b) + (z - h * c) * (z - h * c))
      with (x * x + y * y + z * z - 2 * h * (a * x + b * y + c * z) + h * h * (a * a + b * b + c * c)) by ring.
    rewrite U. fold h. ring.
  - rewrite height_zi. unfold vdot, xi_, yi_, zi_; cbn [fst snd].
    pose proof (sin2_cos2 i) as A. pose proof (sin2_cos2 (d * (PI/180))) as B. unfold Rsqr in *.
    set (a := sin i) in *. set (b := cos i) in *. set (u := sin (d * (PI/180))) in *. set (v := cos (d * (PI/180))) in *.
    assert (Hx : x * x + y * y = (x * v + y * u) * (x * v + y * u) + (- x * u + y * v) * (- x * u + y * v)).
    { replace ((x * v + y * u) * (x * v + y * u) + (- x * u + y * v) * (- x * u + y * v)) with ((x * x + y * y) * (u * u + v * v)) by ring.
      rewrite B. ring. }
    rewrite Hx. set (p := x * v + y * u). set (q := - x * u + y * v).
    replace (p * p + q * q + z * z) with (p * p * (a * a + b * b) + q * q + z * z * (a * a + b * b)) by (rewrite A; ring). ring.
Qed.

(* the code's line-of-sight velocity *)
Definition los (d i : R) (v : R -> R -> R) (x y z : R) : R :=
  let p := (x, y, z) in along_sight (axis d i) (v (from_axis (axis d i) p) (height (axis d i) p)) p.

Lemma los_code d i v x y z (P : fl -> fl -> fl) : (forall r h, P (Fin r) (Fin h) = Fin (v r h)) ->
  let D := d * (PI / 180) in
  let r := sqrt (xi_ D i x y z * xi_ D i x y z + yi_ D i x y z * yi_ D i x y z) in
  fmul (fmul (P (Fin r) (Fin (zi_ D i x y z))) (if feqb (Fin r) (Fin 0) then Fin 0 else fdiv (Fin (yi_ D i x y z)) (Fin r))) (Fin (sin i))
  = Fin (los d i v x y z).
Proof.
  intros HP D r. unfold los, along_sight. rewrite HP, cross_yi, from_axis_r, height_zi. fold D. fold r.
  unfold feqb. destruct (Req_EM_T r 0) as [E|E].
  - rewrite (proj2 (Reqb_true _ _) E). cbn [fmul]. f_equal. ring.
  - rewrite (proj2 (Reqb_false _ _) E). rewrite fdiv_Fin by exact E. cbn [fmul]. f_equal. field. exact E.
Qed.

(* the spectral cube when intensities, velocities and dispersions are finite inside the grid *)
Lemma cube_value_in I V s (IA VA SA : arr3 fl) (I4 W4 : arr4 fl) (x rest ratio : list R) z nZ nY nX dz cube :
  let nW := length x in
  (dim0 SA = nZ /\ dim1 SA = nY /\ dim2 SA = nX) ->
  (forall m j k, (m < nZ)%nat -> (j < nY)%nat -> (k < nX)%nat ->
     at3 VA m j k = Fin (V m j k) /\ at3 SA m j k = Fin (s m j k) /\ s m j k <> 0 /\
     forall w, (w < nW)%nat -> at4 I4 w m j k = Fin (I m j k) /\ at4 W4 w m j k = Fin (nth w x 0)) ->
  (0 < nZ)%nat -> (0 < nY)%nat -> (0 < nX)%nat -> (1 + z) <> 0 -> (forall l, In l rest -> l <> 0) -> rest <> [] ->
  add_sigma_collapse_z IA VA SA (map Fin x) (Fin z) (map Fin rest) (map Fin ratio) nW nZ nY nX (Fin dz) I4 W4 Wave = Ok cube ->
  (length rest <= length ratio)%nat /\
  forall w j k, (w < nW)%nat -> (j < nY)%nat -> (k < nX)%nat ->
    at3 cube w j k = Fin (rsumn (length rest) (fun i => nth i ratio 0 * (dz * rsumn nZ (fun m =>
          I m j k * normal (nth i rest 0 * (1 + z) * (1 + V m j k / c_kms)) (s m j k / c_kms * (nth i rest 0 * (1 + z))) (nth w x 0))))).
Proof.
  intros nW (D0&D1&D2) H HZ HY HX Hz Hr Ne E. pose proof c_kms_pos as Hc.
  unfold add_sigma_collapse_z in E. rewrite map_length in E.
  destruct (Nat.eqb_spec (length rest) 0) as [L0|L0]; [destruct rest; [congruence|discriminate]|].
  destruct (np_max (map fabs (flat_list3 SA))) as [mx|] eqn:Em; [|discriminate]. cbn [bind] in E.
  assert (Ep : fgtb mx (Fin 0) = true).
  { apply (max_abs_pos _ _ Em). split.
    - rewrite in_flat3. intros (i' & j' & k' & A & B & C & Q). rewrite D0 in A. rewrite D1 in B. rewrite D2 in C.
      destruct (H i' j' k' A B C) as (_&E1&_). rewrite E1 in Q. discriminate.
    - exists (at3 SA 0 0 0). split; [apply in_flat3; exists 0%nat, 0%nat, 0%nat; repeat split; lia|].
      destruct (H 0%nat 0%nat 0%nat HZ HY HX) as (_&E1&N&_). rewrite E1. intros Q. injection Q as Q. contradiction. }
  rewrite Ep in E. destruct (_ && _) eqn:Sh in E; [discriminate|]. rewrite map_length in E.
  destruct (Nat.ltb_spec (length ratio) (length rest)) as [|Lr]; [discriminate|]. split; [exact Lr|].
  apply Ok_inj in E; subst cube. intros w j k Hw Hj Hk. rewrite at3_mk. apply fsumn_Fin. intros i Hi. rewrite !lnth_map by lia.
  change (fmul (Fin (nth i rest 0)) (fadd (Fin 1) (Fin z))) with (Fin (nth i rest 0 * (1 + z))).
  assert (Ri : nth i rest 0 <> 0) by (apply Hr, nth_In; lia).
  erewrite (gauss_line_value _ _ _ _ _ _ _ _ _ _ _ w j k (fun m => I m j k)
    (fun m => nth i rest 0 * (1 + z) * (1 + V m j k / c_kms)) (fun m => s m j k / c_kms * (nth i rest 0 * (1 + z))) (nth w x 0)).
  - unfold fmul. f_equal. ring.
  - intros m Hm. apply (H m j k Hm Hj Hk); auto.
  - intros m Hm. apply (H m j k Hm Hj Hk); auto.
  - intros m Hm. destruct (H m j k Hm Hj Hk) as (E1&_). rewrite E1, fdiv_Fin by lra. reflexivity.
  - intros m Hm. destruct (H m j k Hm Hj Hk) as (_&E1&N&_). rewrite E1, fdiv_Fin by lra. split; [reflexivity|].
    apply Rmult_integral_contrapositive_currified; [|now apply Rmult_integral_contrapositive_currified].
    apply Rmult_integral_contrapositive_currified; auto. apply Rinv_neq_0_compat. lra.
Qed.

Lemma tot_rsumn n f : tot n f = rsumn n f.
Proof. induction n; cbn; [reflexivity|]. now rewrite IHn. Qed.

Lemma rsumn_first n f : rsumn (S n) f = f O + rsumn n (fun i => f (S i)).
Proof. induction n; [cbn; ring|]. change (rsumn (S (S n)) f) with (rsumn (S n) f + f (S n)). rewrite IHn. cbn [rsumn]. ring. Qed.

Lemma combine_sum (F : R -> R -> R) : forall rest ratio, (length rest <= length ratio)%nat ->
  fold_right Rplus 0 (map (fun lr => F (fst lr) (snd lr)) (combine rest ratio)) = rsumn (length rest) (fun i => F (nth i rest 0) (nth i ratio 0)).
Proof.
  induction rest as [|a rest IH]; intros [|b ratio] L; cbn [length] in L; try lia; [reflexivity|reflexivity|].
  cbn [combine map fold_right fst snd length]. rewrite IH by lia. rewrite rsumn_first. reflexivity.
Qed.

Lemma spectrum_normal rest ratio z v s x : (length rest <= length ratio)%nat ->
  spectrum rest ratio z v s x = rsumn (length rest) (fun i => nth i ratio 0 *
     normal (nth i rest 0 * (1 + z) * (1 + v / c_kms)) (s / c_kms * (nth i rest 0 * (1 + z))) x).
Proof.
  intros L. unfold spectrum. rewrite (combine_sum (fun l r => r * (exp (- (x - l * (1 + z) * (1 + v / light_speed)) ^ 2 / (2 * (l * (1 + z) * s / light_speed) ^ 2)) / ((l * (1 + z) * s / light_speed) * sqrt (2 * PI))))) by exact L.
  apply rsumn_ext. intros i Hi. unfold normal. change light_speed with c_kms.
  replace (nth i rest 0 * (1 + z) * s / c_kms) with (s / c_kms * (nth i rest 0 * (1 + z))) by (unfold Rdiv; ring). reflexivity.
Qed.

(* the image of an unblurred model *)
Lemma plain_emission_nx c th l d q q0 m0 z (rest ratio : list R) (vr hr sr : R -> R -> R) :
  well_posed c th l -> unblurred c ->
  g_dPA (c_gal c) = Fin d -> g_q (c_gal c) = Fin q -> g_q0 (c_gal c) = Fin q0 -> 0 <= q0 < 1 -> 0 <= q <= 1 ->
  fadd (g_m0 (c_gal c)) (nth (length th - 2) th NaN) = Fin m0 -> nth (length th - 1) th NaN = Fin z -> 1 + z <> 0 ->
  g_rest (c_gal c) = map Fin rest -> g_ratio (c_gal c) = map Fin ratio -> (forall x, In x rest -> x <> 0) ->
  (forall r h, p_vel (c_prof c) (firstn (p_nvel (c_prof c)) th) (Fin r) (Fin h) = Fin (vr r h)) ->
  (forall r h, p_int (c_prof c) (Fin r) (Fin h) = Fin (hr r h)) ->
  (forall r h, p_disp (c_prof c) (firstn 1 (skipn (p_nvel (c_prof c)) th)) (Fin r) (Fin h) = Fin (sr r h) /\ sr r h <> 0) ->
  let ns := o_nsub (c_opt c) in let ny := (g_rows (c_gal c) * ns)%nat in let dy := i_pix (c_ins c) / INR ns in
  exists a0 b m inc n nx dx,
    nx = slit_npix (c_ins c) (c_opt c) (g_rows (c_gal c)) /\ dx = i_slit (c_ins c) / INR nx /\ n = axis d inc /\
    setup_calcs c th = Ok a0 /\ do_model_calcs c a0 = (b, Ok tt) /\ a_model b = Some m /\
    rows m = g_rows (c_gal c) /\ cols m = length l /\
    inclined q q0 inc /\ turning_axis d inc n /\
    INR nx * dx = i_slit (c_ins c) /\ 0 < dx <= dy /\ ((nx > 1)%nat -> dy < 2 * dx) /\
    forall i t, (i < g_rows (c_gal c))%nat -> (t < length l)%nat ->
      at2 m i t = Fin (dx * dy * tot ns (fun s => tot nx (fun k => tot ny (fun o =>
        let j := (i * ns + s)%nat in
        let p := (cell_centre nx dx k - o_xc (c_opt c),
                  subpixel_y ns 0 dy m0 j + INR ns * dy * (1/2 - (if Nat.eqb ny 1 then 0 else INR j / (INR ny - 1))),
                  cell_centre ny dy o) in
        let R := from_axis n p in let H := height n p in
        hr R H * spectrum rest ratio z (along_sight n (vr R H) p) (sr R H) (nth t l 0))))).
Proof.
  intros Hwp Hu Hd Hq Hq0 Bq0 Bq Hm0 Hz Nz Hre Hra Nre Hv Hi Hs ns ny dy.
  destruct (plain_image c th l Hwp Hu) as (a0&b&g&w&cube&m&Hg&Es&Eb&Em&Rm&Cm&P1&P2&Ec&Ev).
  pose proof Hwp as (H1&H2&H3&H4&H5&H6&H7&H8&H9&H10&H11&H12&H13&H14&H15&H16&H17&H18&H19).
  destruct (setup_fields _ _ _ _ Hg) as (F1&F2&F3&F4&F5&F6&F7&F8&F9&F10&F11&F12&F13&F14&F15&F16&F17&F18&(sh&F19&F19')&F20&F21&F22&F23).
  assert (T1 : getz th (-1) = Ok (nth (length th - 1) th NaN)) by (apply (getz_neg th NaN 1); lia).
  assert (T2 : getz th (-2) = Ok (nth (length th - 2) th NaN)) by (apply (getz_neg th NaN 2); lia).
  assert (Gz : gz g = Fin z) by congruence.
  assert (Gm : m0_fit g = Fin m0) by congruence.
  destruct (setup_cubes _ _ _ _ Hg) as (C0&_&C1&C2&C3&C4). rewrite Hq, Hq0 in C0.
  destruct (sin_i_range q q0 ltac:(lra) ltac:(lra) ltac:(lra) ltac:(lra)) as (si&E1&Bs&S1&S2&S3).
  rewrite E1 in C0. destruct (inclined_ok q q0 si Bs S1 S3) as (INC&EA&SS).
  set (inc := asin si) in *.
  destruct (x_grid _ _ _ _ Hg) as [_ X]. destruct (z_grid _ _ _ _ Hg) as [_ ZZ]. destruct (y_grid _ _ _ _ _ Hg Gm) as [_ Y].
  destruct (slit_tiling _ _ _ _ Hg H2 H3) as (TL1&TL2&TL3).
  assert (NX : nX g = n_pix_x g) by (rewrite F12, P1; lia).
  assert (NY : nY g = ny) by (rewrite F13, P2, F4; unfold ny, ns; lia).
  assert (NZ : nZ g = ny) by (rewrite F14, F5, F4; reflexivity).
  assert (DY : delt_y g = dy) by exact F7.
  exists a0, b, m, inc, (axis d inc), (n_pix_x g), (delt_x g).
  split; [exact F6|]. split; [exact F9|]. split; [reflexivity|].
  repeat (split; [assumption|]). split; [apply axis_turning|]. split; [exact TL1|]. rewrite DY in TL2, TL3. split; [exact TL2|]. split; [exact TL3|].
  set (px := fun k => cell_centre (n_pix_x g) (delt_x g) k - o_xc (c_opt c)).
  set (py := fun j => subpixel_y ns 0 dy m0 j + INR ns * dy * (1/2 - (if Nat.eqb ny 1 then 0 else INR j / (INR ny - 1)))).
  set (pz := fun o => cell_centre ny dy o).
  assert (X' : forall k, (k < nX g)%nat -> lnth (x_arr g) k = Fin (px k)).
  { intros k Hk. rewrite X by exact Hk. unfold xat, px, cell_centre. now rewrite NX. }
  assert (Z' : forall k, (k < nZ g)%nat -> lnth (z_arr g) k = Fin (pz k)).
  { intros k Hk. rewrite ZZ by exact Hk. unfold zat, pz, cell_centre. now rewrite NZ, F8, DY. }
  assert (Y' : forall k, (k < nY g)%nat -> lnth (y_arr g) k = Fin (py k)).
  { intros k Hk. rewrite Y by exact Hk. unfold true_y, py, subpixel_y. rewrite NY, DY, P2. reflexivity. }
  clear X ZZ Y.
  set (RR := fun o j k => from_axis (axis d inc) (px k, py j, pz o)).
  set (HH := fun o j k => height (axis d inc) (px k, py j, pz o)).
  assert (CR : forall o j k, (o < nZ g)%nat -> (j < nY g)%nat -> (k < nX g)%nat ->
    at3 (r_cube g) o j k = Fin (RR o j k) /\ at3 (zint g) o j k = Fin (HH o j k) /\
    fmul (fmul (p_vel (c_prof c) (firstn (p_nvel (c_prof c)) th) (at3 (r_cube g) o j k) (at3 (zint g) o j k))
       (if feqb (at3 (r_cube g) o j k) (Fin 0) then Fin 0 else fdiv (at3 (yint g) o j k) (at3 (r_cube g) o j k))) (sini g)
    = Fin (los d inc vr (px k) (py j) (pz o))).
  { intros o j k Ho Hj Hk. rewrite C1, C2, C3, C0, EA, Hd, X', Y', Z', transform_Fin by assumption. cbn [fst snd]. rewrite fsqrt_sumsq.
    unfold RR, HH. rewrite from_axis_r, height_zi. split; [reflexivity|]. split; [reflexivity|]. rewrite <- SS. apply (los_code d inc vr _ _ _ _ Hv). }
  cbv zeta in Ec. rewrite H9, H5, Hre, Hra, Gz, F23 in Ec. cbn [w_I4 w_ref] in Ec.
  assert (Ne : rest <> []) by (intros ->; apply H12; rewrite Hre; reflexivity).
  apply cube_value_in with (I := fun o j k => hr (RR o j k) (HH o j k)) (V := fun o j k => los d inc vr (px k) (py j) (pz o))
     (s := fun o j k => sr (RR o j k) (HH o j k)) in Ec; auto.
  - destruct Ec as [Lr Ec]. intros i t Hi' Ht. rewrite Ev by assumption.
    rewrite (fsumn_Fin ns _ (fun s => rsumn (n_pix_x g) (fun k => rsumn (length rest) (fun n => nth n ratio 0 * (delt_z g * rsumn (nZ g) (fun o =>
       let j := (i * ns + s)%nat in
       hr (RR o j k) (HH o j k) * normal (nth n rest 0 * (1 + z) * (1 + los d inc vr (px k) (py j) (pz o) / c_kms)) (sr (RR o j k) (HH o j k) / c_kms * (nth n rest 0 * (1 + z))) (nth t l 0))))) * delt_x g)).
    + f_equal. change tot with rsumn. rewrite F8, DY, NZ, rsumn_scal_r, Rmult_comm, Rmult_assoc. f_equal. symmetry. rewrite <- rsumn_scal. symmetry. apply rsumn_ext. intros s Hs'.
      symmetry. rewrite <- rsumn_scal. symmetry. apply rsumn_ext. intros k Hk. symmetry. rewrite <- rsumn_scal. symmetry.
      rewrite (rsumn_ext (length rest) _ (fun n => rsumn ny (fun o => dy * (hr (RR o (i * ns + s)%nat k) (HH o (i * ns + s)%nat k) * (nth n ratio 0 * normal (nth n rest 0 * (1 + z) * (1 + los d inc vr (px k) (py (i * ns + s)%nat) (pz o) / c_kms)) (sr (RR o (i * ns + s)%nat k) (HH o (i * ns + s)%nat k) / c_kms * (nth n rest 0 * (1 + z))) (nth t l 0)))))).
      2: { intros n Hn. rewrite <- !rsumn_scal. apply rsumn_ext. intros; cbv zeta; ring. }
      rewrite rsumn_swap. apply rsumn_ext. intros o Ho. cbv zeta. rewrite (spectrum_normal _ _ _ _ _ _ Lr), rsumn_scal, rsumn_scal. reflexivity.
    + intros s Hs'. assert (J : (i * o_nsub (c_opt c) + s < nY g)%nat) by (rewrite NY; unfold ny, ns in *; nia).
      erewrite (fsumn_Fin (n_pix_x g) (fun k => at3 cube t (i * o_nsub (c_opt c) + s) k)); [|intros k Hk; apply Ec; [exact Ht|exact J|lia]]. reflexivity.
  - intros o j k Ho Hj Hk. destruct (CR o j k Ho Hj Hk) as (A1&A2&A3). rewrite at3_mk. split; [exact A3|]. rewrite at3_mk, A1, A2.
    destruct (Hs (RR o j k) (HH o j k)) as [B1 B2]. split; [exact B1|]. split; [exact B2|]. intros t Ht. split.
    + unfold tile_I. cbn [at4]. rewrite C4, A1, A2. apply Hi.
    + unfold repeat_wave. cbn [at4]. rewrite H5. apply lnth_map. exact Ht.
  - rewrite NZ. unfold ny, ns. nia.
  - rewrite NY. unfold ny, ns. nia.
  - rewrite NX. lia.
Qed.
Lemma plain_emission c th l d q q0 m0 z (rest ratio : list R) (vr hr sr : R -> R -> R) :
  well_posed c th l -> unblurred c ->
  g_dPA (c_gal c) = Fin d -> g_q (c_gal c) = Fin q -> g_q0 (c_gal c) = Fin q0 -> 0 <= q0 < 1 -> 0 <= q <= 1 ->
  fadd (g_m0 (c_gal c)) (nth (length th - 2) th NaN) = Fin m0 -> nth (length th - 1) th NaN = Fin z -> 1 + z <> 0 ->
  g_rest (c_gal c) = map Fin rest -> g_ratio (c_gal c) = map Fin ratio -> (forall x, In x rest -> x <> 0) ->
  (forall r h, p_vel (c_prof c) (firstn (p_nvel (c_prof c)) th) (Fin r) (Fin h) = Fin (vr r h)) ->
  (forall r h, p_int (c_prof c) (Fin r) (Fin h) = Fin (hr r h)) ->
  (forall r h, p_disp (c_prof c) (firstn 1 (skipn (p_nvel (c_prof c)) th)) (Fin r) (Fin h) = Fin (sr r h) /\ sr r h <> 0) ->
  let ns := o_nsub (c_opt c) in let ny := (g_rows (c_gal c) * ns)%nat in let dy := i_pix (c_ins c) / INR ns in
  exists a0 b m inc n nx dx,
    setup_calcs c th = Ok a0 /\ do_model_calcs c a0 = (b, Ok tt) /\ a_model b = Some m /\
    rows m = g_rows (c_gal c) /\ cols m = length l /\
    inclined q q0 inc /\ turning_axis d inc n /\
    INR nx * dx = i_slit (c_ins c) /\ 0 < dx <= dy /\ ((nx > 1)%nat -> dy < 2 * dx) /\
    forall i t, (i < g_rows (c_gal c))%nat -> (t < length l)%nat ->
      at2 m i t = Fin (dx * dy * tot ns (fun s => tot nx (fun k => tot ny (fun o =>
        let j := (i * ns + s)%nat in
        let p := (cell_centre nx dx k - o_xc (c_opt c),
                  subpixel_y ns 0 dy m0 j + INR ns * dy * (1/2 - (if Nat.eqb ny 1 then 0 else INR j / (INR ny - 1))),
                  cell_centre ny dy o) in
        let R := from_axis n p in let H := height n p in
        hr R H * spectrum rest ratio z (along_sight n (vr R H) p) (sr R H) (nth t l 0))))).
Proof.
  intros Hwp Hu Hd Hq Hq0 Bq0 Bq Hm0 Hz Nz Hre Hra Nre Hv Hi Hs ns ny dy.
  destruct (plain_emission_nx c th l d q q0 m0 z rest ratio vr hr sr Hwp Hu Hd Hq Hq0 Bq0 Bq Hm0 Hz Nz Hre Hra Nre Hv Hi Hs) as (a0&b&m&inc&n&nx&dx&_&_&_&H).
  now exists a0, b, m, inc, n, nx, dx.
Qed.

(* with the shipped rotation curve and constant dispersion *)
Lemma arctan_emission c l d q q0 m0 z va rt sg dm (rest ratio : list R) (hr : R -> R -> R) :
  let th := [Fin va; Fin rt; Fin sg; Fin dm; Fin z] in
  well_posed c th l -> unblurred c ->
  p_nvel (c_prof c) = 2%nat -> p_vel (c_prof c) = MProf.vel_arctan -> p_disp (c_prof c) = MProf.disp_const ->
  g_dPA (c_gal c) = Fin d -> g_q (c_gal c) = Fin q -> g_q0 (c_gal c) = Fin q0 -> 0 <= q0 < 1 -> 0 <= q <= 1 ->
  g_m0 (c_gal c) = Fin m0 -> 1 + z <> 0 -> rt <> 0 -> sg <> 0 ->
  g_rest (c_gal c) = map Fin rest -> g_ratio (c_gal c) = map Fin ratio -> (forall x, In x rest -> x <> 0) ->
  (forall r h, p_int (c_prof c) (Fin r) (Fin h) = Fin (hr r h)) ->
  let ns := o_nsub (c_opt c) in let ny := (g_rows (c_gal c) * ns)%nat in let dy := i_pix (c_ins c) / INR ns in
  exists a0 b m inc n nx dx,
    setup_calcs c th = Ok a0 /\ do_model_calcs c a0 = (b, Ok tt) /\ a_model b = Some m /\
    rows m = g_rows (c_gal c) /\ cols m = length l /\
    inclined q q0 inc /\ turning_axis d inc n /\
    INR nx * dx = i_slit (c_ins c) /\ 0 < dx <= dy /\ ((nx > 1)%nat -> dy < 2 * dx) /\
    forall i t, (i < g_rows (c_gal c))%nat -> (t < length l)%nat ->
      at2 m i t = Fin (dx * dy * tot ns (fun s => tot nx (fun k => tot ny (fun o =>
        let j := (i * ns + s)%nat in
        let p := (cell_centre nx dx k - o_xc (c_opt c),
                  subpixel_y ns 0 dy (m0 + dm) j + INR ns * dy * (1/2 - (if Nat.eqb ny 1 then 0 else INR j / (INR ny - 1))),
                  cell_centre ny dy o) in
        let R := from_axis n p in
        hr R (height n p) * spectrum rest ratio z (along_sight n (2 / PI * va * atan (R / rt)) p) sg (nth t l 0))))).
Proof.
  intros th Hwp Hu N2 Hv Hs Hd Hq Hq0 B0 B1 Hm Nz Nr Ns Hre Hra Nre Hi ns ny dy.
  apply (plain_emission c th l d q q0 (m0 + dm) z rest ratio (fun r _ => 2 / PI * va * atan (r / rt)) hr (fun _ _ => sg)); auto.
  - rewrite Hm. reflexivity.
  - intros r h. rewrite N2, Hv. now apply PProf.vel_Fin.
  - intros r h. rewrite N2, Hs. split; [|exact Ns]. cbn. f_equal. ring.
Qed.

Definition y_data : data2 := mkdata (fin2 3 2 (fun _ _ => 1)) (fin2 3 2 (fun _ _ => 1)) (fin2 3 2 (fun _ _ => 1)) (fin2 3 2 (fun _ _ => 1)) [0%nat; 1%nat].
Definition y_gal : gal := mkgal (Fin (3/5)) (Fin 0) (Fin 30) 3 (map Fin [13126; 13134]) (Fin 1) [Fin 6565] [Fin 1] y_data.
Definition y_ins : instr := mkinstr 1 (1/5) 0 (Fin 0) false (fun _ _ => Fin 1).
Definition y_opt : opts := mkopts 2 0 true false false 0 Wave false false 1 false.
Definition y_prof : profs := mkprofs 2 1 MProf.vel_arctan MProf.disp_const (fun r _ => fexp (fneg r)) (fun _ _ => (Fin 1, Fin 0, Fin 1)).
Definition y_cfg : cfg := mkcfg y_gal y_ins y_opt y_prof.

Lemma y_example :
  let th := [Fin 200; Fin (1/2); Fin 50; Fin 0; Fin 1] in
  well_posed y_cfg th [13126; 13134] /\ unblurred y_cfg /\
  exists a0 b m inc n, setup_calcs y_cfg th = Ok a0 /\ do_model_calcs y_cfg a0 = (b, Ok tt) /\ a_model b = Some m /\
    rows m = 3%nat /\ sin inc = 4/5 /\ turning_axis 30 inc n /\ exists f, at2 m 0 0 = Fin f.
Proof.
  intros th.
  assert (W : well_posed y_cfg th [13126; 13134]).
  { unfold well_posed. cbn. repeat split; try lia; try lra; try discriminate; auto.
    intros i j H. destruct i as [|[|i]], j as [|[|j]]; cbn in *; try lia; lra. }
  assert (U : unblurred y_cfg) by (repeat split). split; [exact W|]. split; [exact U|].
  destruct (arctan_emission y_cfg [13126; 13134] 30 (3/5) 0 1 1 200 (1/2) 50 0 [6565] [1] (fun r _ => exp (- r)) W U)
    as (a0&b&m&inc&n&nx&dx&E1&E2&E3&E4&E5&(I1&I2&I3)&T&_&_&_&E); try reflexivity; try lra.
  - intros x [<-|[]]. lra.
  - exists a0, b, m, inc, n. repeat (split; [assumption|]). split; [|split; [exact T|]].
    + assert (S : 0 <= sin inc) by (apply sin_ge_0; pose proof PI_RGT_0; lra). specialize (I3 ltac:(lra)). nra.
    + eexists. apply E; cbn; lia.
Qed.
