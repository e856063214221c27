From Coq Require Import Reals Lra List Bool Arith ZArith Lia.
From Verif Require Import PyFloat PyBase Arr PyNum MParams MKernels MAper2D SParams SKernels SAper2D PParams PAper2D PAper2DHist PAper2DGrid PAper2DShape PAper2DOk PAper2DVal PKernels PKernels2.
Import ListNotations.
Local Open Scope R_scope.

(* the cubes of a grid that has been set up *)
Lemma setup_cubes c th g w : setup_model_grid c th = Ok (g, w) ->
  let pt m j k := transform_int_3d (lnth (x_arr g) k) (lnth (y_arr g) j) (lnth (z_arr g) m) (g_dPA (c_gal c)) (fasin (sini g)) in
  sini g = sin_i (g_q (c_gal c)) (g_q0 (c_gal c)) /\
  (o_spec (c_opt c) = Wave -> exists r, nth_error (g_rest (c_gal c)) 0 = Some r /\ lam0_primary g = fmul r (fadd (Fin 1) (gz g))) /\
  (forall m j k, at3 (r_cube g) m j k = fsqrt (fadd (fsq (fst (fst (pt m j k)))) (fsq (snd (fst (pt m j k)))))) /\
  (forall m j k, at3 (yint g) m j k = snd (fst (pt m j k))) /\
  (forall m j k, at3 (zint g) m j k = snd (pt m j k)) /\
  (forall m j k, at3 (I_wide g) m j k = p_int (c_prof c) (at3 (r_cube g) m j k) (at3 (zint g) m j k)).
Proof.
  unfold setup_model_grid. intros E.
  destruct (Nat.eqb_spec (o_nsub (c_opt c)) 0); [discriminate|].
  destruct (Nat.eqb_spec (slit_npix (c_ins c) (c_opt c) (g_rows (c_gal c))) 0); [discriminate|].
  destruct (getz th (-1)) as [z|] eqn:Ez; [|discriminate].
  destruct (getz th (-2)) as [sh|] eqn:Es; [|discriminate].
  cbn [bind] in E.
  destruct (match o_spec (c_opt c) with Wave => _ | _ => _ end) as [lam|] eqn:El; [|discriminate].
  cbn [bind] in E. injection E as <- <-. cbv zeta.
  cbn [sini x_arr y_arr z_arr gz lam0_primary r_cube yint zint I_wide at3].
  split; [reflexivity|]. split.
  { intros Hw. rewrite Hw in El. unfold getn in El. destruct (nth_error (g_rest (c_gal c)) 0) as [r|]; [|discriminate].
    cbn [bind] in El. injection El as <-. exists r. auto. }
  repeat split; reflexivity.
Qed.

Definition xi_ (d i x y z : R) : R := cos i * (x * cos d + y * sin d) + sin i * z.
Definition yi_ (d i x y z : R) : R := - x * sin d + y * cos d.
Definition zi_ (d i x y z : R) : R := - sin i * (x * cos d + y * sin d) + cos i * z.

Lemma transform_Fin x y z d i :
  transform_int_3d (Fin x) (Fin y) (Fin z) (Fin d) (Fin i) =
  (Fin (xi_ (d * (PI/180)) i x y z), Fin (yi_ (d * (PI/180)) i x y z), Fin (zi_ (d * (PI/180)) i x y z)).
Proof. reflexivity. Qed.

Lemma fsqrt_sumsq a b : fsqrt (fadd (fsq (Fin a)) (fsq (Fin b))) = Fin (sqrt (a * a + b * b)).
Proof.
  cbn. destruct (Rltb (a * a + b * b) 0) eqn:E; [apply Rltb_true in E; nra|]. reflexivity.
Qed.

(* finite geometry gives finite cubes *)
Lemma cubes_finite c th g w m0 d i : setup_model_grid c th = Ok (g, w) -> m0_fit g = Fin m0 ->
  g_dPA (c_gal c) = Fin d -> fasin (sini g) = Fin i ->
  exists xr yr zr : nat -> R,
    (forall k, (k < nX g)%nat -> lnth (x_arr g) k = Fin (xr k)) /\
    (forall j, (j < nY g)%nat -> lnth (y_arr g) j = Fin (yr j)) /\
    (forall m, (m < nZ g)%nat -> lnth (z_arr g) m = Fin (zr m)) /\
    forall m j k, (m < nZ g)%nat -> (j < nY g)%nat -> (k < nX g)%nat ->
      let D := d * (PI/180) in
      at3 (r_cube g) m j k = Fin (sqrt (xi_ D i (xr k) (yr j) (zr m) * xi_ D i (xr k) (yr j) (zr m) + yi_ D i (xr k) (yr j) (zr m) * yi_ D i (xr k) (yr j) (zr m))) /\
      at3 (yint g) m j k = Fin (yi_ D i (xr k) (yr j) (zr m)) /\
      at3 (zint g) m j k = Fin (zi_ D i (xr k) (yr j) (zr m)).
Proof.
  intros Hg Hm Hd Hi. destruct (x_grid _ _ _ _ Hg) as [_ X]. destruct (z_grid _ _ _ _ Hg) as [_ Z].
  destruct (y_grid _ _ _ _ _ Hg Hm) as [_ Y].
  destruct (setup_cubes _ _ _ _ Hg) as (_&_&C1&C2&C3&_).
  eexists _, _, _. split; [exact X|]. split; [exact Y|]. split; [exact Z|].
  intros m j k Hm' Hj Hk. cbv zeta. rewrite C1, C2, C3, X, Y, Z, Hd, Hi, transform_Fin by auto.
  cbn [fst snd]. rewrite fsqrt_sumsq. auto.
Qed.

(* row totals when nothing is blurred and the dispersion vanishes *)
Lemma collapse_zero_sigma I V sigma wave z rest ratio nW nZ nY nX dz I4 wref cube :
  (forall x, In x (flat_list3 sigma) -> x = Fin 0) ->
  add_sigma_collapse_z I V sigma wave z rest ratio nW nZ nY nX dz I4 wref Wave = Ok cube -> rest <> [] ->
  forall w j k, at3 cube w j k =
      fsumn (length rest) (fun i =>
        fmul (at3 (I_simple_collapse I V wave nW nZ nY nX dz (fmul (lnth rest i) (fadd (Fin 1) z))) w j k)
             (lnth ratio i)).
Proof.
  intros Hs E Hr. unfold add_sigma_collapse_z in E.
  assert (E0 : Nat.eqb (length rest) 0 = false) by (destruct rest; [congruence|reflexivity]). rewrite E0 in E.
  destruct (np_max (map fabs (flat_list3 sigma))) as [m|] eqn:Em; [|discriminate]. cbn [bind] in E.
  assert (Hm : fgtb m (Fin 0) = false).
  { assert (Em' : m = Fin 0).
    { revert Em Hs. generalize (flat_list3 sigma). intros [|a l]; [discriminate|]. cbn [map np_max]. intros E1 Hs.
      injection E1 as <-. rewrite (Hs a) by now left. cbn [fabs]. rewrite Rabs_R0.
      assert (Hl : forall x, In x l -> x = Fin 0) by (intros; apply Hs; now right). clear Hs E.
      induction l as [|b l IH]; [reflexivity|]. cbn [map fmax1]. rewrite (Hl b) by now left. cbn [fabs isnan].
      rewrite Rabs_R0. cbn [fltb]. destruct (Rltb 0 0) eqn:Ez; [apply Rltb_true in Ez; lra|].
      apply IH. intros; apply Hl; now right. }
    subst m. cbn. apply Rltb_false. lra. }
  rewrite Hm in E. cbn [andb] in E. destruct (Nat.ltb _ _); [discriminate|]. injection E as <-. reflexivity.
Qed.

Lemma in_flat_list3 {A} (a : arr3 A) x : In x (flat_list3 a) ->
  exists i j k, (i < dim0 a)%nat /\ (j < dim1 a)%nat /\ (k < dim2 a)%nat /\ x = at3 a i j k.
Proof.
  unfold flat_list3. intros H. apply in_flat_map in H. destruct H as (i&Hi&H). apply in_flat_map in H.
  destruct H as (j&Hj&H). apply in_map_iff in H. destruct H as (k&<-&Hk). apply in_seq in Hi, Hj, Hk.
  exists i, j, k. repeat split; lia.
Qed.

Lemma fsumn_fmul_r n f y : (forall i, (i < n)%nat -> isfinite (f i) = true) ->
  fsumn n (fun i => fmul (f i) (Fin y)) = fmul (fsumn n f) (Fin y).
Proof.
  intros H. rewrite (fsumn_Fin n f (fun i => match f i with Fin r => r | _ => 0 end)).
  2: { intros i Hi. specialize (H i Hi). destruct (f i); try discriminate. reflexivity. }
  rewrite (fsumn_Fin n _ (fun i => (match f i with Fin r => r | _ => 0 end) * y)).
  2: { intros i Hi. specialize (H i Hi). destruct (f i); try discriminate. reflexivity. }
  cbn. now rewrite rsumn_scal_r.
Qed.

Lemma isf (x : fl) r : x = Fin r -> isfinite x = true. Proof. now intros ->. Qed.

Lemma plain_flux c th l (ra : list R) (Iv : nat -> nat -> nat -> R) : well_posed c th l -> unblurred c ->
  g_ratio (c_gal c) = map Fin ra ->
  (forall g w, setup_model_grid c th = Ok (g, w) -> forall m j k, (m < nZ g)%nat -> (j < nY g)%nat -> (k < nX g)%nat ->
    p_disp (c_prof c) (firstn 1 (skipn (p_nvel (c_prof c)) th)) (at3 (r_cube g) m j k) (at3 (zint g) m j k) = Fin 0 /\
    at3 (I_wide g) m j k = Fin (Iv m j k)) ->
  exists a0 b g w m, setup_model_grid c th = Ok (g, w) /\ setup_calcs c th = Ok a0 /\
    do_model_calcs c a0 = (b, Ok tt) /\ a_model b = Some m /\
    rows m = g_rows (c_gal c) /\ cols m = length l /\
    forall i, (i < g_rows (c_gal c))%nat ->
      fsumn (length l) (fun q => at2 m i q) =
      Fin (rsumn (length (g_rest (c_gal c))) (fun n => nth n ra 0) *
           (delt_x g * delt_z g *
            rsumn (o_nsub (c_opt c)) (fun s => rsumn (nX g) (fun k => rsumn (nZ g) (fun z =>
              Iv z (i * o_nsub (c_opt c) + s)%nat k))))).
Proof.
  intros Hwp Hu Hra HI. destruct (plain_image c th l Hwp Hu) as (a0&b&g&w&cube&m&Hg&Es&Eb&Em&Rm&Cm&P1&P2&Ec&Ev).
  exists a0, b, g, w, m. repeat (split; [assumption|]). intros i Hi.
  pose proof Hwp as (H1&H2&H3&H4&H5&H6&H7&H8&H9&H10&H11&H12&H13&H14&H15&H16&H17&H18&H19).
  destruct (setup_fields _ _ _ _ Hg) as (F1&F2&F3&F4&F5&F6&F7&F8&F9&F10&F11&F12&F13&F14&_).
  specialize (HI g w Hg). cbv zeta in Ec. rewrite H9 in Ec.
  set (V := mk3 (nZ g) (nY g) (nX g) _) in Ec at 1.
  match type of Ec with add_sigma_collapse_z _ _ ?S _ _ _ _ _ _ _ _ _ _ _ _ = _ =>
    assert (HS : forall x, In x (flat_list3 S) -> x = Fin 0) end.
  { intros x Hx. apply in_flat_list3 in Hx. destruct Hx as (x1&x2&x3&B1&B2&B3&->). cbn [at3]. cbn [dim0 dim1 dim2] in B1, B2, B3. now apply HI. }
  assert (Hc := collapse_zero_sigma _ _ _ _ _ _ _ _ _ _ _ _ _ _ _ HS Ec H12). clear HS.
  assert (NX : n_pix_x g = nX g) by (rewrite F12, P1; lia).
  assert (NY : forall s, (s < o_nsub (c_opt c))%nat -> (i * o_nsub (c_opt c) + s < nY g)%nat) by (intros s Hs; rewrite F13, F4, P2; nia).
  (* one cube cell is finite *)
  set (lam := fun n => fmul (lnth (g_rest (c_gal c)) n) (fadd (Fin 1) (gz g))) in *.
  set (bst := fun n z j k => argmin_ (length (g_wave (c_gal c)) - 1) (fun q => fabs (fsub (fmul (lam n) (fadd (Fin 1) (fdiv (at3 V z j k) (Fin c_kms)))) (lnth (g_wave (c_gal c)) q)))).
  assert (Hcell : forall n q j k, (j < nY g)%nat -> (k < nX g)%nat -> at3 (I_simple_collapse (I_wide g) V (g_wave (c_gal c)) (length l) (nZ g) (nY g) (nX g) (Fin (delt_z g)) (lam n)) q j k =
      Fin (rsumn (nZ g) (fun z => if Nat.eqb (bst n z j k) q then Iv z j k * delt_z g else 0))).
  { intros n q j k Hj Hk. unfold I_simple_collapse. cbn [at3]. apply fsumn_Fin. intros z Hz. cbv zeta. fold (bst n z j k).
    destruct (Nat.eqb _ _); [|reflexivity]. rewrite (proj2 (HI z j k Hz Hj Hk)). reflexivity. }
  assert (Hr : forall n, (n < length (g_rest (c_gal c)))%nat -> lnth (g_ratio (c_gal c)) n = Fin (nth n ra 0)).
  { intros n Hn. rewrite Hra in *. rewrite map_length in H13. unfold lnth.
    rewrite nth_indep with (d' := Fin 0) by (rewrite map_length; lia). apply map_nth. }
  assert (Hcube : forall q j k, (j < nY g)%nat -> (k < nX g)%nat -> at3 cube q j k = Fin (rsumn (length (g_rest (c_gal c))) (fun n =>
     rsumn (nZ g) (fun z => if Nat.eqb (bst n z j k) q then Iv z j k * delt_z g else 0) * nth n ra 0))).
  { intros q j k Hj Hk. rewrite Hc. apply fsumn_Fin. intros n Hn. fold (lam n). rewrite Hcell, Hr by auto. reflexivity. }
  rewrite (fsumn_Fin (length l) _ (fun q => rsumn (o_nsub (c_opt c)) (fun s => rsumn (nX g) (fun k =>
     rsumn (length (g_rest (c_gal c))) (fun n =>
     rsumn (nZ g) (fun z => if Nat.eqb (bst n z (i * o_nsub (c_opt c) + s)%nat k) q then Iv z (i * o_nsub (c_opt c) + s)%nat k * delt_z g else 0) * nth n ra 0)) * delt_x g))).
  2: { intros q Hq. rewrite Ev by auto. apply fsumn_Fin. intros s Hs. rewrite NX.
       rewrite (fsumn_Fin (nX g) (fun k => at3 cube q (i * o_nsub (c_opt c) + s)%nat k) _ (fun k Hk => Hcube q (i * o_nsub (c_opt c) + s)%nat k (NY s Hs) Hk)). reflexivity. }
  f_equal. rewrite rsumn_swap.
  rewrite (rsumn_ext (o_nsub (c_opt c)) _ (fun s => rsumn (length (g_rest (c_gal c))) (fun n => nth n ra 0) * (delt_x g * delt_z g) *
     rsumn (nX g) (fun k => rsumn (nZ g) (fun z => Iv z (i * o_nsub (c_opt c) + s)%nat k)))).
  - rewrite rsumn_scal. ring.
  - intros s Hs. rewrite rsumn_scal_r. rewrite rsumn_swap.
    rewrite (rsumn_ext (nX g) _ (fun k => rsumn (length (g_rest (c_gal c))) (fun n => nth n ra 0) * delt_z g * rsumn (nZ g) (fun z => Iv z (i * o_nsub (c_opt c) + s)%nat k))).
    + rewrite rsumn_scal. ring.
    + intros k Hk. rewrite rsumn_swap.
      rewrite (rsumn_ext _ _ (fun n => nth n ra 0 * (delt_z g * rsumn (nZ g) (fun z => Iv z (i * o_nsub (c_opt c) + s)%nat k)))).
      * rewrite rsumn_scal_r. ring.
      * intros n Hn. rewrite rsumn_scal_r. rewrite rsumn_swap.
        rewrite (rsumn_ext (nZ g) _ (fun z => delt_z g * Iv z (i * o_nsub (c_opt c) + s)%nat k)).
        { rewrite rsumn_scal. ring. }
        intros z Hz.
        rewrite (rsumn_ext _ _ (fun q => if Nat.eqb q (bst n z (i * o_nsub (c_opt c) + s)%nat k) then Iv z (i * o_nsub (c_opt c) + s)%nat k * delt_z g else 0)).
        { rewrite rsumn_single; [ring|]. unfold bst.
          match goal with |- (argmin_ ?n ?f < _)%nat => pose proof (argmin_le n f) as HA end.
          rewrite H5, map_length in HA |- *. lia. }
        intros q Hq. now rewrite Nat.eqb_sym.
Qed.
