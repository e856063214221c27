From Coq Require Import Reals Lra List Bool Arith ZArith Lia.
From Verif Require Import PyFloat PyBase Arr PyNum MParams MKernels MAper2D SParams SAper2D PParams PAper2D PKernels PKernels2.
Import ListNotations.
Local Open Scope R_scope.

(* geometry fields of a grid that has been set up *)
Lemma setup_fields c th g w : setup_model_grid c th = Ok (g, w) ->
  let ins := c_ins c in let o := c_opt c in let nw := g_rows (c_gal c) in
  (1 <= o_nsub o)%nat /\ (1 <= n_pix_x g)%nat /\
  n_pix_y_whole g = nw /\ n_pix_y g = (nw * o_nsub o)%nat /\ n_pix_z g = n_pix_y g /\
  n_pix_x g = slit_npix ins o nw /\
  delt_y g = i_pix ins / INR (o_nsub o) /\ delt_z g = delt_y g /\
  delt_x g = i_slit ins / INR (n_pix_x g) /\
  padY g = nat_of_round (i_fwhm ins * o_pad o / delt_y g) /\
  padX g = nat_of_round (i_fwhm ins * o_pad o / delt_x g) /\
  nX g = (n_pix_x g + 2 * padX g)%nat /\ nY g = (n_pix_y g + 2 * padY g)%nat /\ nZ g = n_pix_z g /\
  x_arr g = map (fun x => fsub x (Fin (o_xc o)))
     (linspace (Fin (- ((INR (n_pix_x g) / 2 + INR (padX g) - 1/2) * delt_x g)))
               (Fin ((INR (n_pix_x g) / 2 + INR (padX g) - 1/2) * delt_x g)) (nX g)) /\
  z_arr g = linspace (Fin (- ((INR (n_pix_z g) / 2 - 1/2) * delt_z g)))
                     (Fin ((INR (n_pix_z g) / 2 - 1/2) * delt_z g)) (nZ g) /\
  y_arr g = map (fun y => fsub y (fmul (fmul (m0_fit g) (Fin (INR (o_nsub o)))) (Fin (delt_y g))))
     (linspace (Fin (- (INR (padY g) - 1/2) * delt_y g))
               (Fin (((INR nw - 1) * INR (o_nsub o) + INR (padY g) - 1/2) * delt_y g)) (nY g)) /\
  getz th (-1) = Ok (gz g) /\
  (exists sh, getz th (-2) = Ok sh /\ m0_fit g = fadd (g_m0 (c_gal c)) sh) /\
  dim0 (I_wide g) = nZ g /\ dim1 (I_wide g) = nY g /\ dim2 (I_wide g) = nX g /\
  w = mkwv (g_wave (c_gal c)) (length (g_wave (c_gal c))) (average (diffs (g_wave (c_gal c))))
        (tile_I (I_wide g) (length (g_wave (c_gal c))))
        (repeat_wave (g_wave (c_gal c)) (nZ g) (nY g) (nX g)).
Proof.
  unfold setup_model_grid. intros E.
  destruct (Nat.eqb_spec (o_nsub (c_opt c)) 0); [discriminate|].
  destruct (Nat.eqb_spec (slit_npix (c_ins c) (c_opt c) (g_rows (c_gal c))) 0); [discriminate|].
  destruct (getz th (-1)) as [z|] eqn:Ez; [|discriminate].
  destruct (getz th (-2)) as [sh|] eqn:Es; [|discriminate].
  cbn [bind] in E.
  destruct (match o_spec (c_opt c) with Wave => _ | _ => _ end) as [lam|] eqn:El; [|discriminate].
  cbn [bind] in E. injection E as <- <-. cbv zeta.
  cbn [sini n_pix_y_whole n_pix_y n_pix_x n_pix_z delt_x delt_y delt_z padX padY nX nY nZ x_arr y_arr
       z_arr gz m0_fit lam0_primary r_cube yint zint I_wide dim0 dim1 dim2].
  split; [lia|]. split; [lia|].
  repeat (split; [reflexivity|]).
  split; [exists sh; auto|]. repeat (split; [reflexivity|]). reflexivity.
Qed.

Lemma lnth_map (f : fl -> fl) l i : (i < length l)%nat -> lnth (map f l) i = f (lnth l i).
Proof.
  intros H. unfold lnth. rewrite nth_indep with (d' := f NaN) by (now rewrite map_length).
  apply map_nth.
Qed.

Lemma linspace_sym_at h n i : (i < n)%nat -> ((n <= 1)%nat -> h = 0) ->
  lnth (linspace (Fin (- h)) (Fin h) n) i = Fin (- h + INR i * (2 * h / INR (n - 1))).
Proof.
  intros Hi Hh. rewrite linspace_nth by auto.
  destruct (le_lt_dec n 1) as [Hn|Hn].
  - rewrite (Hh Hn). unfold linspace_at. destruct (Nat.leb_spec n 1); [|lia].
    f_equal. unfold Rdiv. rewrite Rmult_0_r, Rmult_0_l. ring.
  - rewrite linspace_at_Fin by lia. f_equal. f_equal. f_equal. f_equal. ring.
Qed.

(* x and z grids *)
Definition xat (g : grid) (o : opts) (i : nat) : R :=
  (INR i - (INR (nX g) - 1) / 2) * delt_x g - o_xc o.
Lemma x_grid c th g w : setup_model_grid c th = Ok (g, w) ->
  length (x_arr g) = nX g /\ forall i, (i < nX g)%nat -> lnth (x_arr g) i = Fin (xat g (c_opt c) i).
Proof.
  intros H. destruct (setup_fields _ _ _ _ H) as (H1&H2&H3&H4&H5&H6&H7&H8&H9&H10&H11&H12&H13&H14&H15&_).
  rewrite H15. split; [now rewrite map_length, linspace_length|]. intros i Hi.
  rewrite lnth_map by now rewrite linspace_length.
  assert (Hh : INR (nX g) - 1 = 2 * (INR (n_pix_x g) / 2 + INR (padX g) - 1/2)).
  { rewrite H12, plus_INR, mult_INR. simpl (INR 2). lra. }
  rewrite linspace_sym_at; auto.
  - unfold fsub; cbn [fadd fneg]. f_equal. unfold xat.
    destruct (le_lt_dec (nX g) 1) as [Hn|Hn].
    + assert (E1 : (nX g = 1)%nat) by lia. assert (i = 0)%nat by lia. subst i.
      rewrite E1 in *. simpl (INR 1) in *. simpl (INR 0).
      assert (E2 : INR (n_pix_x g) / 2 + INR (padX g) - 1/2 = 0) by lra. rewrite E2.
      unfold Rdiv. ring.
    + rewrite minus_INR by lia. simpl (INR 1).
      replace (INR (n_pix_x g) / 2 + INR (padX g) - 1 / 2) with ((INR (nX g) - 1)/2) by lra.
      assert (INR (nX g) - 1 <> 0).
      { assert (1 < INR (nX g)) by (apply (lt_INR 1); lia). lra. }
      field. auto.
  - intros Hn. assert (nX g = 1)%nat by lia. rewrite H0 in Hh. simpl (INR 1) in Hh.
    replace (INR (n_pix_x g) / 2 + INR (padX g) - 1/2) with 0 by lra. ring.
Qed.

Definition zat (g : grid) (i : nat) : R := (INR i - (INR (nZ g) - 1) / 2) * delt_z g.
Lemma z_grid c th g w : setup_model_grid c th = Ok (g, w) ->
  length (z_arr g) = nZ g /\ forall i, (i < nZ g)%nat -> lnth (z_arr g) i = Fin (zat g i).
Proof.
  intros H. destruct (setup_fields _ _ _ _ H) as (H1&H2&H3&H4&H5&H6&H7&H8&H9&H10&H11&H12&H13&H14&H15&H16&_).
  rewrite H16. split; [now rewrite linspace_length|]. intros i Hi.
  assert (Hh : INR (nZ g) - 1 = 2 * (INR (n_pix_z g) / 2 - 1/2)) by (rewrite H14; lra).
  rewrite linspace_sym_at; auto.
  - f_equal. unfold zat.
    destruct (le_lt_dec (nZ g) 1) as [Hn|Hn].
    + assert (E1 : (nZ g = 1)%nat) by lia. assert (i = 0)%nat by lia. subst i.
      rewrite E1 in *. simpl (INR 1) in *. simpl (INR 0).
      assert (E2 : INR (n_pix_z g) / 2 - 1/2 = 0) by lra. rewrite E2.
      unfold Rdiv. ring.
    + rewrite minus_INR by lia. simpl (INR 1).
      replace (INR (n_pix_z g) / 2 - 1 / 2) with ((INR (nZ g) - 1)/2) by lra.
      assert (INR (nZ g) - 1 <> 0).
      { assert (1 < INR (nZ g)) by (apply (lt_INR 1); lia). lra. }
      field. auto.
  - intros Hn. assert (E1 : (nZ g = 1)%nat) by lia. rewrite E1 in Hh. simpl (INR 1) in Hh.
    replace (INR (n_pix_z g) / 2 - 1/2) with 0 by lra. ring.
Qed.

(* the slit is tiled, by steps no larger than the spatial step *)
Lemma slit_tiling c th g w : setup_model_grid c th = Ok (g, w) ->
  0 < i_slit (c_ins c) -> 0 < i_pix (c_ins c) ->
  INR (n_pix_x g) * delt_x g = i_slit (c_ins c) /\ 0 < delt_x g <= delt_y g /\
  ((n_pix_x g > 1)%nat -> delt_y g < 2 * delt_x g).
Proof.
  intros H Hs Hp. destruct (setup_fields _ _ _ _ H) as (H1&H2&H3&H4&H5&H6&H7&H8&H9&_).
  assert (Hn : 0 < INR (n_pix_x g)) by (apply lt_0_INR; lia).
  assert (Hu : 0 < INR (o_nsub (c_opt c))) by (apply lt_0_INR; lia).
  assert (Hy : 0 < delt_y g) by (rewrite H7; apply Rdiv_lt_0_compat; auto).
  assert (Hx : INR (n_pix_x g) * delt_x g = i_slit (c_ins c)) by (rewrite H9; field; lra).
  split; [exact Hx|].
  assert (Hx0 : 0 < delt_x g) by (rewrite H9; apply Rdiv_lt_0_compat; auto).
  unfold slit_npix in H6. rewrite <- H7 in H6.
  rcases_in H6.
  - rewrite <- H6 in *. assert (delt_x g = delt_y g).
    { apply (Rmult_eq_reg_l (INR (n_pix_x g))); lra. }
    rewrite H0. repeat split; lra.
  - unfold nat_of_ceil in H6.
    pose proof (Rceil_spec (i_slit (c_ins c) / delt_y g)) as [C1 C2].
    set (k := Rceil (i_slit (c_ins c) / delt_y g)) in *.
    assert (Hq : 0 < i_slit (c_ins c) / delt_y g) by (apply Rdiv_lt_0_compat; auto).
    assert (Hk : (0 < k)%Z) by (apply lt_IZR; lra).
    assert (Ek : INR (n_pix_x g) = IZR k).
    { rewrite H6, INR_IZR_INZ, Z2Nat.id; auto. lia. }
    rewrite <- Ek in *.
    assert (Q : i_slit (c_ins c) / delt_y g * delt_y g = INR (n_pix_x g) * delt_x g) by (rewrite Hx; field; lra).
    repeat split; auto.
    + apply (Rmult_le_reg_l (INR (n_pix_x g))); auto. rewrite <- Q.
      apply Rmult_le_compat_r; lra.
    + intros Hg. assert (2 <= INR (n_pix_x g)) by (apply (le_INR 2); lia).
      assert ((INR (n_pix_x g) - 1) * delt_y g < INR (n_pix_x g) * delt_x g).
      { rewrite <- Q. apply Rmult_lt_compat_r; lra. }
      apply (Rmult_lt_reg_l (INR (n_pix_x g) - 1)); [lra|]. nra.
Qed.

(* the y grid against the true sub-pixel positions *)
Definition true_y (g : grid) (o : opts) (m0 : R) (j : nat) : R :=
  (INR j - INR (padY g) - (INR (o_nsub o) - 1) / 2) * delt_y g - m0 * INR (o_nsub o) * delt_y g.

Lemma y_grid c th g w m0 : setup_model_grid c th = Ok (g, w) -> m0_fit g = Fin m0 ->
  length (y_arr g) = nY g /\
  forall j, (j < nY g)%nat ->
    lnth (y_arr g) j = Fin (true_y g (c_opt c) m0 j +
       INR (o_nsub (c_opt c)) * delt_y g * (1/2 - (if Nat.eqb (nY g) 1 then 0 else INR j / (INR (nY g) - 1)))).
Proof.
  intros H Hm. destruct (setup_fields _ _ _ _ H) as (H1&H2&H3&H4&H5&H6&H7&H8&H9&H10&H11&H12&H13&H14&H15&H16&H17&_).
  rewrite H17. split; [now rewrite map_length, linspace_length|]. intros j Hj.
  rewrite lnth_map by now rewrite linspace_length.
  rewrite Hm. rewrite linspace_nth by auto.
  assert (EN : INR (nY g) = INR (g_rows (c_gal c)) * INR (o_nsub (c_opt c)) + 2 * INR (padY g)).
  { rewrite H13, H4, plus_INR, !mult_INR. simpl (INR 2). ring. }
  assert (Hu : 0 < INR (o_nsub (c_opt c))) by (apply lt_0_INR; lia).
  unfold true_y.
  destruct (Nat.eqb_spec (nY g) 1) as [E1|E1].
  - unfold linspace_at. rewrite E1. cbn [Nat.leb]. unfold fsub; cbn [fadd fneg fmul]. f_equal.
    assert (j = 0)%nat by lia. subst j. simpl (INR 0).
    field.
  - rewrite linspace_at_Fin by lia. unfold fsub; cbn [fadd fneg fmul]. f_equal.
    rewrite minus_INR by lia. simpl (INR 1).
    assert (Hn : INR (nY g) - 1 <> 0).
    { assert (1 < INR (nY g)) by (apply (lt_INR 1); lia). lra. }
    replace (INR (g_rows (c_gal c))) with ((INR (nY g) - 2 * INR (padY g)) / INR (o_nsub (c_opt c)))
      by (rewrite EN; field; lra).
    field. split; auto. lra.
Qed.

(* adaptive wavelength grid *)
Lemma fsum_diffs l : forall a, fsum (diffs (map Fin (a :: l))) = Fin (last (a :: l) 0 - a).
Proof.
  induction l as [|b l IH]; intros a.
  - simpl. f_equal. lra.
  - change (map Fin (a :: b :: l)) with (Fin a :: map Fin (b :: l)).
    change (diffs (Fin a :: map Fin (b :: l))) with (fsub (Fin b) (Fin a) :: diffs (map Fin (b :: l))).
    change (fsum (fsub (Fin b) (Fin a) :: diffs (map Fin (b :: l)))) with
      (fadd (fsub (Fin b) (Fin a)) (fsum (diffs (map Fin (b :: l))))).
    rewrite IH. unfold fsub; cbn [fadd fneg]. f_equal.
    change (last (a :: b :: l) 0) with (last (b :: l) 0). lra.
Qed.

Lemma diffs_length l : forall a, length (diffs (map Fin (a :: l))) = length l.
Proof.
  induction l as [|b l IH]; intros a; auto.
  change (map Fin (a :: b :: l)) with (Fin a :: map Fin (b :: l)).
  change (diffs (Fin a :: map Fin (b :: l))) with (fsub (Fin b) (Fin a) :: diffs (map Fin (b :: l))).
  cbn [length]. now rewrite IH.
Qed.

Lemma avg_step a b l : average (diffs (map Fin (a :: b :: l))) =
  Fin ((last (a :: b :: l) 0 - a) / INR (S (length l))).
Proof.
  unfold average. rewrite fsum_diffs, diffs_length. cbn [length fdiv].
  assert (INR (S (length l)) <> 0) by (apply not_0_INR; lia).
  destruct (Reqb (INR (S (length l))) 0) eqn:E; [apply Reqb_true in E; contradiction|]. reflexivity.
Qed.

Lemma fmin1_le l : forall a, Forall (fun x => a <= x) l -> fmin1 (Fin a) (map Fin l) = Fin a.
Proof.
  induction l as [|b l IH]; intros a H; simpl; auto.
  inversion H; subst. destruct (Rltb b a) eqn:E; [apply Rltb_true in E; lra|]. apply IH; auto.
Qed.

Lemma fmax1_last l : forall a, increasing (a :: l) -> fmax1 (Fin a) (map Fin l) = Fin (last (a :: l) 0).
Proof.
  induction l as [|b l IH]; intros a H; auto.
  cbn [map fmax1 isnan fltb].
  assert (a < b) by (apply (H 0%nat 1%nat); cbn; lia).
  destruct (Rltb a b) eqn:E; [|apply Rltb_false in E; lra].
  rewrite IH; [reflexivity|]. intros i j Hij. apply (H (S i) (S j)). cbn in *. lia.
Qed.

Lemma increasing_min a l : increasing (a :: l) -> Forall (fun x => a <= x) l.
Proof.
  intros H. apply Forall_forall. intros x Hx. apply (In_nth _ _ 0) in Hx. destruct Hx as [i [Hi <-]].
  left. apply (H 0%nat (S i)). cbn. lia.
Qed.

Lemma increasing_last a b l : increasing (a :: b :: l) -> a < last (a :: b :: l) 0.
Proof.
  intros H. assert (E : last (a :: b :: l) 0 = nth (S (length l)) (a :: b :: l) 0).
  { clear H. revert a b. induction l as [|x l IH]; intros; auto.
    change (last (a :: b :: x :: l) 0) with (last (b :: x :: l) 0). rewrite IH. reflexivity. }
  rewrite E. apply (H 0%nat (S (length l))). cbn. lia.
Qed.

(* the state after up-sampling *)
Lemma upsample_triggered c su w a l f :
  a_su a = su -> s_real su = Some w -> a_wv a = w ->
  abs_lt_truth (a_disp a) (s_up su) = Ok true ->
  w_arr w = map Fin l -> w_d w = average (diffs (map Fin l)) -> increasing l -> (2 <= length l)%nat ->
  o_factor (c_opt c) = INR f -> (1 <= f)%nat ->
  let step := (last l 0 - hd 0 l) / (INR (length l) - 1) in
  exists a', check_do_upsample_wave c a = (a', Ok tt) /\
    a_su a' = a_su a /\ a_disp a' = a_disp a /\ a_stamp a' = a_stamp a /\
    w_I4 (a_wv a') = tile_I (I_wide (s_grid su)) (w_n (a_wv a')) /\
    w_ref (a_wv a') = repeat_wave (w_arr (a_wv a')) (nZ (s_grid su)) (nY (s_grid su)) (nX (s_grid su)) /\
    w_n (a_wv a') = (length l * f)%nat /\ length (w_arr (a_wv a')) = (length l * f)%nat /\
    w_d (a_wv a') = Fin (step / INR f) /\
    forall k, (k < length l * f)%nat ->
      lnth (w_arr (a_wv a')) k = Fin (hd 0 l - (step - step / INR f) / 2 + INR k * (step / INR f)).
Proof.
  intros Hi Hr Hw Htr Hl Hdw Hinc Hlen Hf Hf1 step.
  rename Hi into I1.
  destruct l as [|x [|y l]]; [cbn in Hlen; lia|cbn in Hlen; lia|].
  assert (F0 : 0 < INR f) by (apply lt_0_INR; lia).
  assert (L1 : INR (length (x :: y :: l)) - 1 = INR (S (length l))).
  { cbn [length]. rewrite (S_INR (S (length l))). lra. }
  assert (L0 : 0 < INR (S (length l))) by (apply lt_0_INR; lia).
  assert (ED : w_d w = Fin step).
  { rewrite Hdw, avg_step. unfold step. rewrite L1. reflexivity. }
  assert (P : 0 < step).
  { unfold step. rewrite L1. apply Rdiv_lt_0_compat; auto.
    pose proof (increasing_last _ _ _ Hinc). cbn [hd]. lra. }
  unfold check_do_upsample_wave. ub. rewrite I1, Htr.
  rewrite Hr, Hw, Hl, ED, Hf. cbn [fdiv].
  destruct (Reqb (INR f) 0) eqn:Ef; [apply Reqb_true in Ef; lra|].
  cbn [map np_min np_max].
  change (Fin y :: map Fin l) with (map Fin (y :: l)).
  rewrite fmin1_le by now apply increasing_min. rewrite fmax1_last by auto.
  unfold fsub. cbn [fadd fneg fmul fdiv].
  destruct (Reqb (step / INR f) 0) eqn:Eq.
  { apply Reqb_true in Eq. assert (0 < step / INR f) by (apply Rdiv_lt_0_compat; auto). lra. }
  cbn [fadd].
  set (num := _ + 1).
  assert (En : num = IZR (Z.of_nat (length (x :: y :: l) * f))).
  { unfold num. rewrite <- INR_IZR_INZ, mult_INR.
    assert (Es : last (x :: y :: l) 0 = x + step * (INR (length (x :: y :: l)) - 1)).
    { unfold step. cbn [hd]. field. rewrite L1. lra. }
    rewrite Es. field. lra. }
  cbn [int_round]. rewrite En, Rround_IZR.
  destruct (Z.ltb_spec (Z.of_nat (length (x :: y :: l) * f)) 0); [lia|].
  eexists. split; [reflexivity|]. cbn [a_wv set_wv w_n w_arr w_d a_su a_disp a_stamp w_I4 w_ref].
  do 5 (split; [congruence|]).
  rewrite linspace_length, Nat2Z.id. split; [auto|]. split; [auto|]. split; [reflexivity|].
  intros k Hk. rewrite linspace_nth by lia. rewrite linspace_at_Fin.
  2: { cbn [length]. nia. }
  f_equal. cbn [hd]. f_equal. { field. lra. } f_equal.
  assert (Es : last (x :: y :: l) 0 = x + step * (INR (length (x :: y :: l)) - 1)).
  { unfold step. cbn [hd]. field. rewrite L1. lra. }
  rewrite minus_INR, mult_INR by (cbn [length]; nia). simpl (INR 1). rewrite Es.
  assert (1 < INR (length (x :: y :: l)) * INR f).
  { assert (2 <= INR (length (x :: y :: l))) by (apply (le_INR 2); cbn [length]; lia).
    assert (1 <= INR f) by (apply (le_INR 1); lia). nra. }
  field. split; lra.
Qed.

Lemma upsample_not_triggered c a s D : a_disp a = [Fin s] -> s_up (a_su a) = Some (Fin D) ->
  D <= Rabs s -> check_do_upsample_wave c a = (a, Ok tt).
Proof.
  intros H1 H2 H3. unfold check_do_upsample_wave. ub. rewrite H1, H2. cbn [abs_lt_truth fabs fltb].
  destruct (Rltb (Rabs s) D) eqn:E; [apply Rltb_true in E; lra|]. reflexivity.
Qed.

(* arithmetic progressions *)
Lemma list_tab (l : list fl) : l = map (fun i => lnth l i) (seq 0 (length l)).
Proof.
  apply nth_error_ext. intros i. destruct (lt_dec i (length l)) as [H|H].
  - rewrite (nth_error_nth' l NaN H). symmetry. apply map_nth_error with (f := fun i => lnth l i).
    rewrite (nth_error_nth' _ 0%nat) by now rewrite seq_length. now rewrite seq_nth.
  - assert (E1 : nth_error l i = None) by (apply nth_error_None; lia).
    assert (E2 : nth_error (map (fun i => lnth l i) (seq 0 (length l))) i = None)
      by (apply nth_error_None; rewrite map_length, seq_length; lia).
    congruence.
Qed.

Lemma rsum_ap n x0 s : rsum (map (fun i => x0 + INR i * s) (seq 0 n)) =
  INR n * (x0 + (INR n - 1) / 2 * s).
Proof.
  induction n as [|n IH]; [simpl; ring|].
  rewrite seq_S, map_app. unfold rsum in *. rewrite fold_right_app. cbn [map fold_right plus].
  assert (F : forall l a, fold_right Rplus a l = fold_right Rplus 0 l + a).
  { intros l; induction l as [|b l IHl]; intros a; simpl; [ring|]. rewrite IHl. ring. }
  rewrite F, IH. rewrite S_INR. field.
Qed.

Lemma average_ap l n x0 s : length l = n -> (1 <= n)%nat ->
  (forall i, (i < n)%nat -> lnth l i = Fin (x0 + INR i * s)) ->
  average l = Fin (x0 + (INR n - 1) / 2 * s).
Proof.
  intros Hl Hn H. rewrite (list_tab l), Hl.
  rewrite (map_ext_in _ (fun i => Fin (x0 + INR i * s))) by (intros i Hi; apply in_seq in Hi; apply H; lia).
  rewrite <- (map_map (fun i => x0 + INR i * s) Fin).
  assert (N0 : INR n <> 0) by (apply not_0_INR; lia).
  rewrite average_Fin by (destruct n; [lia|discriminate]).
  rewrite rsum_ap, map_length, seq_length. f_equal. field. auto.
Qed.

(* the sample nearest the centre is within half a step of it *)
Lemma near_ap l n x0 s fwhm : length l = n -> (1 <= n)%nat ->
  (forall i, (i < n)%nat -> lnth l i = Fin (x0 + INR i * s)) ->
  Rabs s / 2 <= fwhm -> near fwhm l <> [].
Proof.
  intros Hl Hn H Hs E. unfold near in E. rewrite (average_ap l n x0 s Hl Hn H) in E.
  set (i := ((n - 1) / 2)%nat).
  assert (Hi : (i < n)%nat).
  { unfold i. assert ((n-1)/2 <= n-1)%nat by (apply Nat.div_le_upper_bound; lia). lia. }
  assert (Hin : In (lnth l i) l) by (unfold lnth; apply nth_In; lia).
  assert (F : In (lnth l i) (filter (fun x => fleb (fabs (fsub x (Fin (x0 + (INR n - 1) / 2 * s)))) (Fin fwhm)) l)).
  { apply filter_In. split; auto. rewrite H by auto. unfold fsub; cbn [fadd fneg fabs fleb].
    apply Rleb_true.
    replace (x0 + INR i * s + - (x0 + (INR n - 1) / 2 * s)) with ((INR i - (INR n - 1) / 2) * s) by field.
    rewrite Rabs_mult.
    assert (Rabs (INR i - (INR n - 1) / 2) <= 1/2).
    { assert (D := Nat.div_mod (n-1) 2 ltac:(lia)). assert (M := Nat.mod_upper_bound (n-1) 2 ltac:(lia)).
      fold i in D. assert (En : INR n - 1 = 2 * INR i + INR ((n-1) mod 2)).
      { replace (INR n) with (INR (n - 1) + 1) by (rewrite minus_INR by lia; simpl; lra).
        rewrite D at 1. rewrite plus_INR, mult_INR. simpl (INR 2). ring. }
      rewrite En. destruct ((n-1) mod 2)%nat as [|[|k]]; [simpl|simpl|lia]; apply Rabs_le; lra. }
    pose proof (Rabs_pos s). nra. }
  rewrite E in F. exact F.
Qed.
