(* Proofs: which wavelengths the light of a rotating disc can reach. *)
From Coq Require Import Reals Lra List Bool Arith ZArith Lia.
From Verif Require MProf.
From Verif Require Import PyFloat PyBase Arr PyNum MParams MKernels MAper2D SParams SKernels SAper2D SAper1D SLine SLos SReach PParams PMask PAper2D PAper2DHist PAper2DGrid PAper2DShape PAper2DOk PAper2DVal PAper2DGeo PKernels PKernels2 PProf PAper1D5 PLine PLos.
Import ListNotations.
Local Open Scope R_scope.

(** The projected velocity is at most the speed times the sine of the inclination. *)
Lemma turning_is d inc n : turning_axis d inc n -> n = axis d inc.
Proof. intros (_ & H1 & H2 & H3). destruct n as [[a b] c]. cbn [fst snd] in *. unfold axis. now rewrite H1, H2, H3. Qed.
Lemma sight_bound d inc n v p : turning_axis d inc n -> 0 <= sin inc -> Rabs (along_sight n v p) <= Rabs v * sin inc.
Proof.
  intros T S. rewrite (turning_is _ _ _ T). destruct p as [[x y] z]. unfold along_sight. rewrite cross_yi, from_axis_r.
  set (xi := xi_ _ _ _ _ _). set (yi := yi_ _ _ _ _ _). set (r := sqrt _). 
  destruct (Req_EM_T r 0) as [E|E]; [rewrite Rabs_R0; apply Rmult_le_pos; [apply Rabs_pos|exact S]|].
  assert (P : 0 < r) by (pose proof (sqrt_pos (xi * xi + yi * yi)); unfold r in *; lra).
  assert (Y : Rabs yi <= r).
  { unfold r. apply Rsqr_incr_0_var; [|apply sqrt_pos]. rewrite Rsqr_sqrt by nra. rewrite <- Rsqr_abs. unfold Rsqr. nra. }
  replace (v * (sin inc * yi) / r) with (v * sin inc * (yi / r)) by (field; lra). rewrite !Rabs_mult. rewrite (Rabs_pos_eq (sin inc)) by exact S.
  assert (Rabs (yi / r) <= 1).
  { unfold Rdiv. rewrite Rabs_mult, (Rabs_pos_eq (/ r)) by (left; now apply Rinv_0_lt_compat). apply Rmult_le_reg_r with r; [exact P|]. rewrite Rmult_assoc, Rinv_l by lra. lra. }
  pose proof (Rabs_pos v). pose proof (Rabs_pos (yi / r)). assert (0 <= Rabs v * sin inc) by nra. nra.
Qed.

Lemma best_exists (l : list R) : l <> [] -> exists best : R -> nat, (forall x, first_nearest l x (best x)) /\
  forall x f, (forall i, (i <= length l - 1)%nat -> f i = Fin (Rabs (x - nth i l 0))) -> argmin_ (length l - 1) f = best x.
Proof.
  intros N. assert (L : (0 < length l)%nat) by (destruct l; [congruence|cbn; lia]).
  exists (fun x => argmin_ (length l - 1) (fun i => Fin (Rabs (x - nth i l 0)))). split.
  - intros x. pose proof (argmin_le (length l - 1) (fun i => Fin (Rabs (x - nth i l 0)))).
    destruct (argmin_spec (length l - 1) (fun i => Rabs (x - nth i l 0)) (fun i => Fin (Rabs (x - nth i l 0)))) as [A B]; [reflexivity|].
    repeat split; [lia|intros i Hi; apply A; lia|exact B].
  - intros x f H. now apply argmin_ext.
Qed.

Lemma cube_zero_in I V (IA VA SA : arr3 fl) (I4 W4 : arr4 fl) (x rest ratio : list R) z nZ nY nX dz cube (best : R -> nat) :
  let nW := length x in
  (forall y f, (forall i, (i <= length x - 1)%nat -> f i = Fin (Rabs (y - nth i x 0))) -> argmin_ (length x - 1) f = best y) ->
  (forall y, In y (flat_list3 SA) -> y = Fin 0) ->
  (forall m j k, (m < nZ)%nat -> (j < nY)%nat -> (k < nX)%nat -> at3 VA m j k = Fin (V m j k) /\ at3 IA m j k = Fin (I m j k)) ->
  x <> [] -> rest <> [] ->
  add_sigma_collapse_z IA VA SA (map Fin x) (Fin z) (map Fin rest) (map Fin ratio) nW nZ nY nX (Fin dz) I4 W4 Wave = Ok cube ->
  (length rest <= length ratio)%nat /\
  forall w j k, (w < nW)%nat -> (j < nY)%nat -> (k < nX)%nat ->
    at3 cube w j k = Fin (dz * rsumn nZ (fun m => I m j k * narrow best rest ratio z (V m j k) w)).
Proof.
  intros nW HB HS H Nx Ne E. pose proof c_kms_pos as Hc.
  assert (Lr : (length rest <= length ratio)%nat).
  { unfold add_sigma_collapse_z in E. rewrite map_length in E. destruct (Nat.eqb_spec (length rest) 0) as [L0|L0]; [destruct rest; [congruence|discriminate]|].
    destruct (np_max (map fabs (flat_list3 SA))) as [mx|]; [|discriminate]. cbn [bind] in E. destruct (_ && _) in E; [discriminate|]. rewrite map_length in E.
    destruct (Nat.ltb_spec (length ratio) (length rest)); [discriminate|assumption]. }
  split; [exact Lr|]. assert (N2 : map Fin rest <> []) by (destruct rest; [congruence|discriminate]).
  pose proof (collapse_zero_sigma _ _ _ _ _ _ _ _ _ _ _ _ _ _ _ HS E N2) as C. intros w j k Hw Hj Hk. rewrite C, map_length.
  rewrite (fsumn_Fin (length rest) _ (fun i => rsumn nZ (fun m => if Nat.eqb (best (nth i rest 0 * (1 + z) * (1 + V m j k / c_kms))) w then I m j k * dz else 0) * nth i ratio 0)).
  - f_equal. rewrite (rsumn_ext (length rest) _ (fun i => rsumn nZ (fun m => dz * (I m j k * (if Nat.eqb (best (nth i rest 0 * (1 + z) * (1 + V m j k / c_kms))) w then nth i ratio 0 else 0))))).
    + rewrite rsumn_swap. rewrite <- rsumn_scal. apply rsumn_ext. intros m Hm. rewrite rsumn_scal. f_equal. rewrite rsumn_scal. f_equal.
      unfold narrow. rewrite (combine_sum (fun a b => if Nat.eqb (best (a * (1 + z) * (1 + V m j k / light_speed))) w then b else 0)) by exact Lr. reflexivity.
    + intros i Hi. rewrite <- rsumn_scal_r. apply rsumn_ext. intros m Hm. destruct (Nat.eqb _ _); ring.
  - intros i Hi. rewrite !lnth_map by lia. change (fmul (Fin (nth i rest 0)) (fadd (Fin 1) (Fin z))) with (Fin (nth i rest 0 * (1 + z))).
    unfold I_simple_collapse. rewrite at3_mk. erewrite fsumn_Fin; [cbn [fmul]; reflexivity|]. intros m Hm. cbv beta zeta.
    destruct (H m j k Hm Hj Hk) as [E1 E2]. rewrite map_length. rewrite (HB (nth i rest 0 * (1 + z) * (1 + V m j k / c_kms))).
    + rewrite E2. destruct (Nat.eqb _ _); reflexivity.
    + intros q Hq. rewrite E1, fdiv_Fin by lra. rewrite lnth_map by (destruct x; [congruence|cbn in *; lia]). reflexivity.
Qed.

(** The image of an unblurred model whose dispersion vanishes everywhere. *)
Lemma narrow_emission c th l d q q0 m0 z (rest ratio : list R) (vr hr : R -> R -> R) :
  well_posed c th l -> unblurred c ->
  g_dPA (c_gal c) = Fin d -> g_q (c_gal c) = Fin q -> g_q0 (c_gal c) = Fin q0 -> 0 <= q0 < 1 -> 0 <= q <= 1 ->
  fadd (g_m0 (c_gal c)) (nth (length th - 2) th NaN) = Fin m0 -> nth (length th - 1) th NaN = Fin z ->
  g_rest (c_gal c) = map Fin rest -> g_ratio (c_gal c) = map Fin ratio ->
  (forall r h, p_vel (c_prof c) (firstn (p_nvel (c_prof c)) th) (Fin r) (Fin h) = Fin (vr r h)) ->
  (forall r h, p_int (c_prof c) (Fin r) (Fin h) = Fin (hr r h)) ->
  (forall r h, p_disp (c_prof c) (firstn 1 (skipn (p_nvel (c_prof c)) th)) (Fin r) (Fin h) = Fin 0) ->
  let ns := o_nsub (c_opt c) in let ny := (g_rows (c_gal c) * ns)%nat in let dy := i_pix (c_ins c) / INR ns in
  exists a0 b m inc n nx dx best,
    setup_calcs c th = Ok a0 /\ do_model_calcs c a0 = (b, Ok tt) /\ a_model b = Some m /\
    rows m = g_rows (c_gal c) /\ cols m = length l /\
    inclined q q0 inc /\ turning_axis d inc n /\
    INR nx * dx = i_slit (c_ins c) /\ 0 < dx <= dy /\ ((nx > 1)%nat -> dy < 2 * dx) /\
    (forall x, first_nearest l x (best x)) /\
    forall i t, (i < g_rows (c_gal c))%nat -> (t < length l)%nat ->
      at2 m i t = Fin (over_row (g_rows (c_gal c)) ns nx dx dy (o_xc (c_opt c)) m0 i (fun p =>
        let R := from_axis n p in let H := height n p in hr R H * narrow best rest ratio z (along_sight n (vr R H) p) t)).
Proof.
  intros Hwp Hu Hd Hq Hq0 Bq0 Bq Hm0 Hz Hre Hra Hv Hi Hs ns ny dy.
  destruct (plain_image c th l Hwp Hu) as (a0&b&g&w&cube&m&Hg&Es&Eb&Em&Rm&Cm&P1&P2&Ec&Ev).
  pose proof Hwp as (H1&H2&H3&H4&H5&H6&H7&H8&H9&H10&H11&H12&H13&H14&H15&H16&H17&H18&H19).
  destruct (setup_fields _ _ _ _ Hg) as (F1&F2&F3&F4&F5&F6&F7&F8&F9&F10&F11&F12&F13&F14&F15&F16&F17&F18&(sh&F19&F19')&F20&F21&F22&F23).
  assert (T1 : getz th (-1) = Ok (nth (length th - 1) th NaN)) by (apply (getz_neg th NaN 1); lia).
  assert (T2 : getz th (-2) = Ok (nth (length th - 2) th NaN)) by (apply (getz_neg th NaN 2); lia).
  assert (Gz : gz g = Fin z) by congruence.
  assert (Gm : m0_fit g = Fin m0) by congruence.
  destruct (setup_cubes _ _ _ _ Hg) as (C0&_&C1&C2&C3&C4). rewrite Hq, Hq0 in C0.
  destruct (sin_i_range q q0 ltac:(lra) ltac:(lra) ltac:(lra) ltac:(lra)) as (si&E1&Bs&S1&S2&S3).
  rewrite E1 in C0. destruct (inclined_ok q q0 si Bs S1 S3) as (INC&EA&SS).
  set (inc := asin si) in *.
  destruct (x_grid _ _ _ _ Hg) as [_ X]. destruct (z_grid _ _ _ _ Hg) as [_ ZZ]. destruct (y_grid _ _ _ _ _ Hg Gm) as [_ Y].
  destruct (slit_tiling _ _ _ _ Hg H2 H3) as (TL1&TL2&TL3).
  assert (NX : nX g = n_pix_x g) by (rewrite F12, P1; lia).
  assert (NY : nY g = ny) by (rewrite F13, P2, F4; unfold ny, ns; lia).
  assert (NZ : nZ g = ny) by (rewrite F14, F5, F4; reflexivity).
  assert (DY : delt_y g = dy) by exact F7.
  assert (Nl : l <> []) by (intros ->; cbn in *; lia).
  destruct (best_exists l Nl) as (best & HB1 & HB2).
  exists a0, b, m, inc, (axis d inc), (n_pix_x g), (delt_x g), best.
  repeat (split; [assumption|]). split; [apply axis_turning|]. split; [exact TL1|]. rewrite DY in TL2, TL3. split; [exact TL2|]. split; [exact TL3|]. split; [exact HB1|].
  set (px := fun k => cell_centre (n_pix_x g) (delt_x g) k - o_xc (c_opt c)).
  set (py := fun j => subpixel_y ns 0 dy m0 j + INR ns * dy * (1/2 - (if Nat.eqb ny 1 then 0 else INR j / (INR ny - 1)))).
  set (pz := fun o => cell_centre ny dy o).
  assert (X' : forall k, (k < nX g)%nat -> lnth (x_arr g) k = Fin (px k)).
  { intros k Hk. rewrite X by exact Hk. unfold xat, px, cell_centre. now rewrite NX. }
  assert (Z' : forall k, (k < nZ g)%nat -> lnth (z_arr g) k = Fin (pz k)).
  { intros k Hk. rewrite ZZ by exact Hk. unfold zat, pz, cell_centre. now rewrite NZ, F8, DY. }
  assert (Y' : forall k, (k < nY g)%nat -> lnth (y_arr g) k = Fin (py k)).
  { intros k Hk. rewrite Y by exact Hk. unfold true_y, py, subpixel_y. rewrite NY, DY, P2. reflexivity. }
  clear X ZZ Y.
  set (RR := fun o j k => from_axis (axis d inc) (px k, py j, pz o)).
  set (HH := fun o j k => height (axis d inc) (px k, py j, pz o)).
  assert (CR : forall o j k, (o < nZ g)%nat -> (j < nY g)%nat -> (k < nX g)%nat ->
    at3 (r_cube g) o j k = Fin (RR o j k) /\ at3 (zint g) o j k = Fin (HH o j k) /\
    fmul (fmul (p_vel (c_prof c) (firstn (p_nvel (c_prof c)) th) (at3 (r_cube g) o j k) (at3 (zint g) o j k))
       (if feqb (at3 (r_cube g) o j k) (Fin 0) then Fin 0 else fdiv (at3 (yint g) o j k) (at3 (r_cube g) o j k))) (sini g)
    = Fin (los d inc vr (px k) (py j) (pz o))).
  { intros o j k Ho Hj Hk. rewrite C1, C2, C3, C0, EA, Hd, X', Y', Z', transform_Fin by assumption. cbn [fst snd]. rewrite fsqrt_sumsq.
    unfold RR, HH. rewrite from_axis_r, height_zi. split; [reflexivity|]. split; [reflexivity|]. rewrite <- SS. apply (los_code d inc vr _ _ _ _ Hv). }
  cbv zeta in Ec. rewrite H9, H5, Hre, Hra, Gz in Ec.
  assert (Ne : rest <> []) by (intros ->; apply H12; rewrite Hre; reflexivity).
  apply cube_zero_in with (I := fun o j k => hr (RR o j k) (HH o j k)) (V := fun o j k => los d inc vr (px k) (py j) (pz o)) (best := best) in Ec; auto.
  - destruct Ec as [Lr Ec]. intros i t Hi' Ht. rewrite Ev by assumption. unfold over_row, image_cell. cbv zeta. fold ny.
    rewrite (fsumn_Fin ns _ (fun s => rsumn (n_pix_x g) (fun k => delt_z g * rsumn (nZ g) (fun o =>
       let j := (i * ns + s)%nat in hr (RR o j k) (HH o j k) * narrow best rest ratio z (los d inc vr (px k) (py j) (pz o)) t)) * delt_x g)).
    + f_equal. change tot with rsumn. rewrite F8, DY, NZ, rsumn_scal_r, Rmult_comm, Rmult_assoc. f_equal. symmetry. rewrite <- rsumn_scal. symmetry. apply rsumn_ext. intros s Hs'.
      symmetry. rewrite <- rsumn_scal. symmetry. apply rsumn_ext. intros k Hk. reflexivity.
    + intros s Hs'. assert (J : (i * o_nsub (c_opt c) + s < nY g)%nat) by (rewrite NY; unfold ny, ns in *; nia).
      erewrite (fsumn_Fin (n_pix_x g) (fun k => at3 cube t (i * o_nsub (c_opt c) + s) k)); [|intros k Hk; apply Ec; [exact Ht|exact J|lia]]. reflexivity.
  - intros y Hy. apply in_flat_list3 in Hy. destruct Hy as (x1&x2&x3&G1&G2&G3&->). cbn [at3 dim0 dim1 dim2] in *. destruct (CR x1 x2 x3 G1 G2 G3) as (A1&A2&_). rewrite A1, A2. apply Hs.
  - intros o j k Ho Hj Hk. destruct (CR o j k Ho Hj Hk) as (A1&A2&A3). rewrite at3_mk. split; [exact A3|]. rewrite C4, A1, A2. apply Hi.
Qed.
