From Coq Require Import Reals Lra List Bool Arith ZArith Lia.
From Verif Require MProf PProf.
From Verif Require Import PyFloat PyBase Arr PyNum MParams MKernels MAper2D MMock SParams SKernels SAper2D SAper1D SLine SLos SReach SFinite SLim SFine PParams PMask PAper2D PAper2DHist PAper2DGrid PAper2DShape PAper2DOk PAper2DVal PAper2DGeo PKernels PKernels2 PLine PLos PLos3 PReach PReach2 PFinite PFinite2 PFinite3 PFinite4 PLim5 PLim6 PFine PFine2.
Import ListNotations.
Local Open Scope R_scope.

Lemma fine_length l f : length (fine_grid l f) = (length l * f)%nat.
Proof. unfold fine_grid. now rewrite map_length, seq_length. Qed.
Lemma fine_nth l f k : (k < length l * f)%nat -> nth k (fine_grid l f) 0 = hd 0 l - (mean_gap l - mean_gap l / INR f) / 2 + INR k * (mean_gap l / INR f).
Proof.
  intros H. unfold fine_grid. rewrite nth_indep with (d' := (fun k => hd 0 l - (mean_gap l - mean_gap l / INR f) / 2 + INR k * (mean_gap l / INR f)) 0%nat) by now rewrite map_length, seq_length.
  rewrite (map_nth (fun k => hd 0 l - (mean_gap l - mean_gap l / INR f) / 2 + INR k * (mean_gap l / INR f))), seq_nth by exact H. reflexivity.
Qed.
Lemma last_nth (l : list R) : l <> [] -> last l 0 = nth (length l - 1) l 0.
Proof.
  induction l as [|x l IH]; [congruence|]. intros _. destruct l as [|y l]; [reflexivity|]. change (last (x :: y :: l) 0) with (last (y :: l) 0). rewrite IH by discriminate. cbn [length]. rewrite !Nat.sub_succ, !Nat.sub_0_r. reflexivity.
Qed.
Lemma step_pos l : increasing l -> (2 <= length l)%nat -> 0 < mean_gap l.
Proof.
  intros I L. unfold mean_gap. apply Rdiv_lt_0_compat.
  - rewrite last_nth by (intros ->; cbn in L; lia). assert (hd 0 l = nth 0 l 0) as -> by now destruct l. pose proof (I 0%nat (length l - 1)%nat ltac:(lia)). lra.
  - apply le_INR in L. cbn [INR] in L. lra.
Qed.
Lemma fine_increasing l f : increasing l -> (2 <= length l)%nat -> (1 <= f)%nat -> increasing (fine_grid l f).
Proof.
  intros I L F i j H. rewrite fine_length in H. rewrite !fine_nth by lia. assert (0 < INR f) by (apply lt_0_INR; lia). pose proof (step_pos l I L).
  assert (0 < mean_gap l / INR f) by (apply Rdiv_lt_0_compat; lra). assert (INR i < INR j) by (apply lt_INR; lia). nra.
Qed.

Lemma setup_parts c th l a0 g w : well_posed c th l -> setup_calcs c th = Ok a0 -> setup_model_grid c th = Ok (g, w) -> o_adapt (c_opt c) = true ->
  s_grid (a_su a0) = g /\ a_wv a0 = w /\ s_real (a_su a0) = Some w.
Proof. intros _ Es Hg Ha. revert Es. unfold setup_calcs. rewrite Hg. cbn [bind]. rewrite Ha. intros Q. injection Q as <-. repeat split. Qed.

Lemma up_value c th l a0 r0 z : well_posed c th l -> setup_calcs c th = Ok a0 -> o_adapt (c_opt c) = true -> hd NaN (g_rest (c_gal c)) = Fin r0 -> nth (length th - 1) th NaN = Fin z -> 0 < r0 * (1 + z) ->
  s_up (a_su a0) = Some (Fin (pixel_velocity l (r0 * (1 + z)) / (235 / 100))).
Proof.
  intros Hwp Es Ha Hr Hz Pl. pose proof Hwp as (H1&H2&H3&H4&H5&H6&H7&H8&H9&H10&H11&H12&H13&H14&H15&H16&H17&H18&H19). destruct (setup_ok _ _ _ Hwp) as (g & w & Hg).
  destruct (setup_fields _ _ _ _ Hg) as (F1&F2&F3&F4&F5&F6&F7&F8&F9&F10&F11&F12&F13&F14&F15&F16&F17&F18&F19&F20&F21&F22&F23).
  destruct (setup_parts _ _ _ _ _ _ Hwp Es Hg Ha) as (Sg & _ & _).
  assert (El : lam0_primary g = Fin (r0 * (1 + z))).
  { destruct (setup_cubes _ _ _ _ Hg) as (_&CL&_). destruct (CL H11) as (r & Er & Elr). assert (T1 : getz th (-1) = Ok (nth (length th - 1) th NaN)) by (apply (getz_neg th NaN 1); lia).
    assert (gz g = Fin z) as Gz by congruence. destruct (g_rest (c_gal c)) as [|x rs]; [discriminate Er|]. injection Er as <-. cbn [hd] in Hr. subst x. now rewrite Elr, Gz. }
  destruct (sigma_thresholds c th a0 l (r0 * (1 + z)) Es H5 H7 H11) as (Uv & _); [now rewrite Sg|lra| |].
  { intros _. destruct (H17 Ha) as (k & Lk & ->). apply not_0_INR. lia. }
  now rewrite Uv, Ha.
Qed.

Lemma fine_image c th l f s r0 z : well_posed c th l -> o_adapt (c_opt c) = true -> o_factor (c_opt c) = INR f -> (1 <= f)%nat ->
  nth (p_nvel (c_prof c)) th NaN = Fin s -> hd NaN (g_rest (c_gal c)) = Fin r0 -> nth (length th - 1) th NaN = Fin z -> 0 < r0 * (1 + z) ->
  let pix := pixel_velocity l (r0 * (1 + z)) / (235 / 100) in
  Rabs s < pix -> (o_floor (c_opt c) = true -> 3 / 4 * (pix / INR f) <= Rabs s) ->
  exists m m', image_is c th m /\ image_is (on_grid (fine_grid l f) c) th m' /\ rows m = g_rows (c_gal c) /\ cols m = length l /\
    rows m' = (g_rows (c_gal c) * sub_rows c)%nat /\ cols m' = (length l * f)%nat /\
    forall i t, (i < g_rows (c_gal c))%nat -> (t < length l)%nat ->
      at2 m i t = fsumn f (fun b => fsumn (sub_rows c) (fun a => at2 m' (i * sub_rows c + a) (t * f + b))).
Proof.
  intros Hwp Ha Hf Lf Hs Hr Hz Pl pix Lt Fl. pose proof Hwp as (H1&H2&H3&H4&H5&H6&H7&H8&H9&H10&H11&H12&H13&H14&H15&H16&H17&H18&H19).
  rewrite <- (fine_length l f). apply (core c th l (fine_grid l f) f s r0 z); auto; [now apply fine_increasing|apply fine_length|rewrite Hf; exact Fl|].
  intros a0 a2 Es E2. destruct (setup_ok _ _ _ Hwp) as (g & w & Hg). destruct (setup_parts _ _ _ _ _ _ Hwp Es Hg Ha) as (Sg & Wg & Rg).
  destruct (setup_fields _ _ _ _ Hg) as (F1&F2&F3&F4&F5&F6&F7&F8&F9&F10&F11&F12&F13&F14&F15&F16&F17&F18&F19&F20&F21&F22&F23).
  pose proof (up_value c th l a0 r0 z Hwp Es Ha Hr Hz Pl) as Up. set (a1 := set_prof _ _ a0) in *.
  destruct (upsample_triggered c (a_su a0) w a1 l f) as (a2'&E2'&S2&D2&T2&I2&R2&N2&L2&_&V2); auto.
  - change (a_disp a1) with [Fin s]. rewrite Up. cbn [abs_lt_truth fabs fltb]. f_equal. now apply Rltb_true.
  - rewrite F23. exact H5.
  - rewrite F23, H5. reflexivity.
  - rewrite E2' in E2. injection E2 as ->. rewrite Sg in *.
    assert (EW : w_arr (a_wv a2) = map Fin (fine_grid l f)).
    { apply nth_ext with (d := NaN) (d' := Fin 0); [now rewrite map_length, fine_length|]. intros k Hk. rewrite L2 in Hk. rewrite map_nth, fine_nth by exact Hk. apply (V2 k Hk). }
    split; [exact EW|]. rewrite fine_length. split; [exact N2|]. split; [now rewrite I2, N2|]. now rewrite R2, EW.
Qed.

Lemma coarse_image c th l s r0 z : well_posed c th l -> o_adapt (c_opt c) = true ->
  nth (p_nvel (c_prof c)) th NaN = Fin s -> hd NaN (g_rest (c_gal c)) = Fin r0 -> nth (length th - 1) th NaN = Fin z -> 0 < r0 * (1 + z) ->
  pixel_velocity l (r0 * (1 + z)) / (235 / 100) <= Rabs s ->
  exists m m', image_is c th m /\ image_is (on_grid l c) th m' /\ rows m = g_rows (c_gal c) /\ cols m = length l /\
    rows m' = (g_rows (c_gal c) * sub_rows c)%nat /\ cols m' = length l /\
    forall i t, (i < g_rows (c_gal c))%nat -> (t < length l)%nat ->
      at2 m i t = fsumn (sub_rows c) (fun a => at2 m' (i * sub_rows c + a) t).
Proof.
  intros Hwp Ha Hs Hr Hz Pl Ge. pose proof Hwp as (H1&H2&H3&H4&H5&H6&H7&H8&H9&H10&H11&H12&H13&H14&H15&H16&H17&H18&H19).
  destruct (core c th l l 1 s r0 z) as (m & m' & E1 & E2 & E3 & E4 & E5 & E6 & E7); auto; [lia| | |].
  - intros _. destruct (H17 Ha) as (f & Lf & ->). apply le_INR in Lf. cbn [INR] in Lf. set (pix := pixel_velocity l (r0 * (1 + z)) / (235 / 100)) in *.
    assert (0 < pix). { unfold pix. apply Rdiv_lt_0_compat; [|lra]. unfold pixel_velocity. fold (mean_gap l). pose proof (step_pos l H6 H7). apply Rmult_lt_0_compat; [apply Rdiv_lt_0_compat; lra|unfold light_speed; lra]. }
    assert (pix / INR f <= pix). { apply (Rmult_le_reg_r (INR f)); [lra|]. unfold Rdiv. rewrite Rmult_assoc, Rinv_l by lra. nra. } assert (0 < pix / INR f) by (apply Rdiv_lt_0_compat; lra). lra.
  - intros a0 a2 Es E2. destruct (setup_ok _ _ _ Hwp) as (g & w & Hg). destruct (setup_parts _ _ _ _ _ _ Hwp Es Hg Ha) as (Sg & Wg & Rg).
    destruct (setup_fields _ _ _ _ Hg) as (F1&F2&F3&F4&F5&F6&F7&F8&F9&F10&F11&F12&F13&F14&F15&F16&F17&F18&F19&F20&F21&F22&F23).
    rewrite (upsample_not_triggered c _ s (pixel_velocity l (r0 * (1 + z)) / (235 / 100))) in E2; [|reflexivity|exact (up_value c th l a0 r0 z Hwp Es Ha Hr Hz Pl)|exact Ge].
    injection E2 as <-. cbn [set_prof a_wv]. rewrite Wg, Sg, F23, H5. cbn [w_arr w_n w_I4 w_ref]. rewrite map_length. repeat split.
  - exists m, m'. repeat (split; [assumption|]). intros i t Hi Ht. rewrite (E7 i t Hi Ht). rewrite (fsumn_S 0). unfold fsumn at 1. cbn [seq map fsum fold_right]. rewrite fadd_0_l, Nat.mul_1_r, Nat.add_0_r. reflexivity.
Qed.

(* the brightness jumps where the up-sampling sets in *)
Definition j_grid : list R := [13120; 13130; 13140].
Definition j_cfg : cfg :=
  mkcfg (mkgal (Fin 1) (Fin 0) (Fin 30) 3 (map Fin j_grid) (Fin 1) [Fin 6565] [Fin 1]
    (mkdata (fin2 3 3 (fun _ _ => 1)) (fin2 3 3 (fun _ _ => 1)) (fin2 3 3 (fun _ _ => 1)) (fin2 3 3 (fun _ _ => 1)) [0%nat; 1%nat; 2%nat]))
    (mkinstr (1/10) (1/5) 0 (Fin 0) false (fun _ _ => Fin 1)) (mkopts 2 0 true false false 0 Wave false true 3 true) y_prof.
Definition j_sigma : R := 10 / 13130 * light_speed / (235 / 100).

Lemma j_incr : increasing j_grid.
Proof. intros i j H. destruct i as [|[|[|i]]], j as [|[|[|j]]]; cbn in *; try lia; lra. Qed.
Lemma j_posed s : well_posed j_cfg (y_flat s) j_grid.
Proof.
  unfold well_posed. cbn. repeat split; try lia; try lra; try discriminate; auto; [exact j_incr|]. intros _. exists 3%nat. split; [lia|]. cbn. lra.
Qed.
Lemma j_plain l s : increasing l -> (2 <= length l)%nat -> plain_disc (on_grid l j_cfg) (y_flat s) l 30 1 0 1 1 [6565] [1] (fun r _ => 2 / PI * 200 * atan (r / (1/2))) (fun r _ => exp (- r)).
Proof.
  intros I L. unfold plain_disc. split; [apply (well_posed_on j_cfg (y_flat s) j_grid); auto; apply j_posed|].
  split; [repeat split|]. repeat (split; [reflexivity|]). split; [lra|]. split; [lra|]. split; [cbn; f_equal; lra|]. repeat (split; [reflexivity|]). split; [lra|]. repeat (split; [reflexivity|]).
  split; [intros x [<-|[]]; lra|]. split; [|reflexivity]. intros r h. cbn [on_grid j_cfg c_prof y_prof p_nvel p_vel y_flat firstn]. apply PProf.vel_Fin. lra.
Qed.
Lemma j_slit l nx dx : fills_slit (on_grid l j_cfg) nx dx -> nx = 1%nat /\ dx = 1 / 10.
Proof.
  unfold fills_slit. cbn [on_grid j_cfg c_ins c_opt i_pix i_slit o_nsub]. intros (E & B & M). replace (1 / 5 / INR 2) with (1 / 10) in * by (cbn; lra).
  destruct nx as [|[|nx]]; [cbn in E; lra|split; [reflexivity|cbn in E; lra]|]. specialize (M ltac:(lia)). exfalso. assert (2 <= INR (S (S nx))) by (rewrite !S_INR; pose proof (pos_INR nx); lra). nra.
Qed.
Lemma j_axis inc n : inclined 1 0 inc -> turning_axis 30 inc n -> n = (0, 0, 1).
Proof.
  intros I T. assert (S0 : sin inc = 0) by (apply (face_on 1 0); [exact I|lra|reflexivity]). destruct T as (_ & T3 & T1 & T2). destruct n as [[n1 n2] n3]. cbn [fst snd] in *. rewrite S0 in T1, T2.
  assert (C1 : cos inc = 1). { destruct I as (I1 & _). pose proof (sin2_cos2 inc) as Q. rewrite S0 in Q. unfold Rsqr in Q. assert (0 <= cos inc) by (apply cos_ge_0; lra). nra. }
  f_equal; [f_equal; lra|lra].
Qed.
Definition j_row (c : cfg) (i : nat) : R := row_sum c 1 (1 / 10) 1 i (fun p => exp (- from_axis (0, 0, 1) p)).
Lemma j_image l s : increasing l -> (2 <= length l)%nat -> 0 < s -> exists m, image_is (on_grid l j_cfg) (y_flat s) m /\
  forall i t, (i < 3)%nat -> (t < length l)%nat -> at2 m i t = Fin (spectrum [6565] [1] 1 0 s (nth t l 0) * j_row j_cfg i).
Proof.
  intros I L Hs. assert (Z : dispersion_is (on_grid l j_cfg) (y_flat s) (fun _ _ => s)) by (intros r h; cbn; split; [f_equal; lra|lra]).
  destruct (no_rotation _ _ _ _ _ _ _ _ _ _ _ _ _ (j_plain l s I L) Z (or_introl eq_refl)) as (m & inc & n & nx & dx & E1 & E2 & E3 & E4 & E).
  exists m. split; [exact E1|]. intros i t Hi Ht. rewrite (E i t) by assumption. destruct (j_slit _ _ _ E4) as (-> & ->). rewrite (j_axis inc n E2 E3). reflexivity.
Qed.
Lemma tot_pos n f : (0 < n)%nat -> (forall k, 0 < f k) -> 0 < tot n f.
Proof. intros H P. destruct n as [|n]; [lia|]. clear H. induction n; cbn [tot] in *; [specialize (P 0%nat); lra|]. specialize (P (S n)). lra. Qed.
Lemma j_row_pos i : 0 < j_row j_cfg i.
Proof.
  unfold j_row, row_sum, over_row. apply Rmult_lt_0_compat; [cbn; lra|]. apply tot_pos; [cbn; lia|]. intros k. apply tot_pos; [lia|]. intros k2. apply tot_pos; [cbn; lia|]. intros k3. apply exp_pos.
Qed.

Lemma j_spec s x : spectrum [6565] [1] 1 0 s x = exp (- (x - 13130) ^ 2 / (2 * (13130 * s / light_speed) ^ 2)) / ((13130 * s / light_speed) * sqrt (2 * PI)).
Proof.
  unfold spectrum. cbn [combine map fold_right fst snd]. replace (0 / light_speed) with 0 by (unfold Rdiv; ring). replace (6565 * (1 + 1)) with 13130 by ring. rewrite Rplus_0_r, Rmult_1_l. rewrite Rplus_0_r, Rmult_1_r. reflexivity.
Qed.
Lemma j_pix : pixel_velocity j_grid (6565 * (1 + 1)) / (235 / 100) = j_sigma.
Proof. unfold pixel_velocity, j_sigma, j_grid. cbn [last hd length INR]. unfold light_speed. lra. Qed.
Lemma j_fine k : (k < 9)%nat -> nth k (fine_grid j_grid 3) 0 = 13120 - 10 / 3 + INR k * (10 / 3).
Proof. intros H. rewrite fine_nth by exact H. unfold mean_gap, j_grid. cbn [last hd length INR]. lra. Qed.

Lemma j_below s i : 9 / 10 * j_sigma <= s < j_sigma -> (i < 3)%nat -> exists m, image_is j_cfg (y_flat s) m /\
  at2 m i 1 = Fin ((1 + 2 * exp (- (10 / 3) ^ 2 / (2 * (13130 * s / light_speed) ^ 2))) / ((13130 * s / light_speed) * sqrt (2 * PI)) * j_row j_cfg i).
Proof.
  intros Hs Hi. assert (P : 0 < j_sigma) by (unfold j_sigma, light_speed; lra).
  destruct (fine_image j_cfg (y_flat s) j_grid 3 s 6565 1 (j_posed s) eq_refl) as (m & m' & E1 & E2 & _ & _ & _ & _ & E).
  - cbn. lra.
  - lia.
  - reflexivity.
  - reflexivity.
  - reflexivity.
  - lra.
  - rewrite j_pix, Rabs_pos_eq by lra. lra.
  - intros _. rewrite j_pix, Rabs_pos_eq by lra. cbn [INR]. lra.
  - destruct (j_image (fine_grid j_grid 3) s) as (m2 & I2 & V2); [apply fine_increasing; [exact j_incr|cbn; lia|lia]|rewrite fine_length; cbn; lia|lra|].
    assert (m2 = m') by (rewrite (image_img _ _ _ I2), (image_img _ _ _ E2); reflexivity). subst m2.
    exists m. split; [exact E1|]. rewrite (E i 1%nat Hi) by (cbn; lia). change (sub_rows j_cfg) with 1%nat. rewrite !fsumn_S. unfold fsumn. cbn [seq map fsum fold_right]. rewrite ?fadd_0_l, ?fadd_0_r, ?Nat.mul_1_r, ?Nat.add_0_r.
    rewrite fine_length in V2. rewrite !V2 by (first [exact Hi|cbn; lia]). rewrite !j_fine by (cbn; lia). cbn [fadd]. f_equal. rewrite !j_spec. cbn [Nat.mul Nat.add INR]. set (u := 13130 * s / light_speed). set (q := u * sqrt (2 * PI)).
    replace (13120 - 10 / 3 + (1 + 1 + 1) * (10 / 3) - 13130) with (- (10 / 3)) by lra. replace (13120 - 10 / 3 + (1 + 1 + 1 + 1) * (10 / 3) - 13130) with 0 by lra. replace (13120 - 10 / 3 + (1 + 1 + 1 + 1 + 1) * (10 / 3) - 13130) with (10 / 3) by lra.
    replace ((- (10 / 3)) ^ 2) with ((10 / 3) ^ 2) by ring. replace (- 0 ^ 2 / (2 * u ^ 2)) with 0 by (unfold Rdiv; ring). rewrite exp_0. set (e := exp _). clearbody e q. unfold Rdiv. ring.
Qed.
Lemma j_at i : (i < 3)%nat -> exists m, image_is j_cfg (y_flat j_sigma) m /\ at2 m i 1 = Fin (1 / ((13130 * j_sigma / light_speed) * sqrt (2 * PI)) * j_row j_cfg i).
Proof.
  intros Hi. assert (P : 0 < j_sigma) by (unfold j_sigma, light_speed; lra).
  destruct (coarse_image j_cfg (y_flat j_sigma) j_grid j_sigma 6565 1 (j_posed _) eq_refl) as (m & m' & E1 & E2 & _ & _ & _ & _ & E); try reflexivity; [lra|rewrite j_pix, Rabs_pos_eq by lra; lra|].
  destruct (j_image j_grid j_sigma j_incr) as (m2 & I2 & V2); [cbn; lia|exact P|]. assert (m2 = m') by (rewrite (image_img _ _ _ I2), (image_img _ _ _ E2); reflexivity). subst m2.
  exists m. split; [exact E1|]. rewrite (E i 1%nat Hi) by (cbn; lia). change (sub_rows j_cfg) with 1%nat. rewrite !fsumn_S. unfold fsumn. cbn [seq map fsum fold_right]. rewrite ?fadd_0_l, ?Nat.mul_1_r, ?Nat.add_0_r. rewrite V2 by (first [exact Hi|cbn; lia]). f_equal. rewrite j_spec. cbn [j_grid nth].
  replace (- (13130 - 13130) ^ 2 / (2 * (13130 * j_sigma / light_speed) ^ 2)) with 0 by (unfold Rdiv; ring). rewrite exp_0. reflexivity.
Qed.

Lemma j_shining s : 0 <= s -> shining j_cfg (y_flat s) j_grid.
Proof.
  intros Hs. split; [apply j_posed|..].
    - exists 30, 1, 0. repeat split; lra.
    - exists (1 + 0). reflexivity.
    - exists 1. split; [reflexivity|lra].
    - exists [6565]. split; [reflexivity|]. intros x [<-|[]]. lra.
    - exists [1]. split; [reflexivity|]. intros x [<-|[]]. lra.
    - intros r h. eexists. apply PProf.vel_Fin. lra.
    - intros r h. exists (exp (- r)). split; [reflexivity|apply exp_pos].
    - intros t Ht r h. exists t. cbn. split; [f_equal; lra|]. split; auto.
    - exists s. split; [reflexivity|]. now right.
    - exists 0. reflexivity.
    - cbn. intros Q. lra.
Qed.
Lemma j_jump : exists m0, image_is j_cfg (y_flat j_sigma) m0 /\
    forall s m, 9 / 10 * j_sigma <= s < j_sigma -> image_is j_cfg (y_flat s) m ->
      forall i, (i < img_rows j_cfg)%nat -> exists x x0, at2 m0 i 1 = Fin x0 /\ 0 < x0 /\ at2 m i 1 = Fin x /\ 2 * x0 < x.
Proof.
  assert (P : 0 < j_sigma) by (unfold j_sigma, light_speed; lra).
  destruct (j_at 0 ltac:(lia)) as (m0 & I0 & _). exists m0. split; [exact I0|]. intros s m Hs Im i Hi. change (img_rows j_cfg) with 3%nat in Hi.
  destruct (j_at i Hi) as (m0' & I0' & V0). assert (m0' = m0) by (rewrite (image_img _ _ _ I0), (image_img _ _ _ I0'); reflexivity). subst m0'.
  destruct (j_below s i Hs Hi) as (m' & I' & V). assert (m' = m) by (rewrite (image_img _ _ _ Im), (image_img _ _ _ I'); reflexivity). subst m'.
  eexists _, _. split; [exact V0|]. pose proof (j_row_pos i) as Pr. set (r := j_row j_cfg i) in *. assert (Pq : 0 < sqrt (2 * PI)) by (apply sqrt_lt_R0; pose proof PI_RGT_0; lra). set (q := sqrt (2 * PI)) in *.
  assert (Eu0 : 13130 * j_sigma / light_speed = 1000 / 235) by (unfold j_sigma, light_speed; lra). rewrite Eu0.
  assert (Bu : 9 / 10 * (1000 / 235) <= 13130 * s / light_speed < 1000 / 235).
  { rewrite <- Eu0. unfold Rdiv. assert (0 < / light_speed) by (apply Rinv_0_lt_compat; unfold light_speed; lra). split; nra. }
  set (u := 13130 * s / light_speed) in *. assert (Pu : 0 < u) by lra.
  split; [apply Rmult_lt_0_compat; [|exact Pr]; apply Rdiv_lt_0_compat; [lra|]; apply Rmult_lt_0_compat; lra|]. split; [exact V|].
  assert (X : 61 / 100 <= exp (- (10 / 3) ^ 2 / (2 * u ^ 2))).
  { apply Rle_trans with (1 + - (10 / 3) ^ 2 / (2 * u ^ 2)); [|destruct (Req_dec (- (10 / 3) ^ 2 / (2 * u ^ 2)) 0) as [Z|Z]; [rewrite Z, exp_0; lra|left; now apply exp_ineq1]].
    assert (Q : (9 / 10 * (1000 / 235)) ^ 2 <= u ^ 2) by (apply pow_incr; lra). assert (Y : (10 / 3) ^ 2 / (2 * u ^ 2) <= (10 / 3) ^ 2 / (2 * 146 / 10)). { apply Rmult_le_compat_l; [lra|]. apply Rinv_le_contravar; lra. }
    replace (- (10 / 3) ^ 2 / (2 * u ^ 2)) with (- ((10 / 3) ^ 2 / (2 * u ^ 2))) by (unfold Rdiv; ring). lra. }
  set (e := exp _) in *. replace (2 * (1 / (1000 / 235 * q) * r)) with (2 / (1000 / 235 * q) * r) by (unfold Rdiv; ring). apply Rmult_lt_compat_r; [exact Pr|].
  apply Rlt_le_trans with (2 / (u * q)).
  - apply Rmult_lt_compat_l; [lra|]. apply Rinv_lt_contravar; [apply Rmult_lt_0_compat; apply Rmult_lt_0_compat; lra|]. apply Rmult_lt_compat_r; lra.
  - apply Rmult_le_compat_r; [left; apply Rinv_0_lt_compat, Rmult_lt_0_compat; [exact Pu|exact Pq]|]. lra.
Qed.
Lemma brightness_jump : exists c l s0, 0 < s0 /\ o_adapt (c_opt c) = true /\ o_floor (c_opt c) = true /\ o_factor (c_opt c) = 3 /\
  (forall s, 0 <= s -> shining c (y_flat s) l) /\
  exists m0, image_is c (y_flat s0) m0 /\
    forall s m, 9 / 10 * s0 <= s < s0 -> image_is c (y_flat s) m ->
      forall i, (i < img_rows c)%nat -> exists x x0, at2 m0 i 1 = Fin x0 /\ 0 < x0 /\ at2 m i 1 = Fin x /\ 2 * x0 < x.
Proof.
  exists j_cfg, j_grid, j_sigma. split; [unfold j_sigma, light_speed; lra|]. repeat (split; [reflexivity|]). split; [exact j_shining|exact j_jump].
Qed.

Lemma j_cv : Un_cv (fun n => j_sigma * (1 - / 10 * / (INR n + 1))) j_sigma.
Proof.
  assert (P : 0 < j_sigma) by (unfold j_sigma, light_speed; lra). intros eps He. destruct (inv_cv 0 (eps / j_sigma)) as (N & HN); [now apply Rdiv_lt_0_compat|]. exists N. intros n Hn. specialize (HN n Hn). unfold R_dist in *.
  rewrite Rplus_0_l, Rminus_0_r in HN. pose proof (inv_pos n) as Q. rewrite Rabs_pos_eq in HN by lra. replace (j_sigma * (1 - / 10 * / (INR n + 1)) - j_sigma) with (- (j_sigma * (/ 10 * / (INR n + 1)))) by ring.
  rewrite Rabs_Ropp, Rabs_pos_eq by (apply Rmult_le_pos; lra). apply (Rmult_lt_compat_l j_sigma) in HN; [|exact P]. replace (j_sigma * (eps / j_sigma)) with eps in HN by (field; lra). nra.
Qed.
Lemma threshold_refuted : exists c l thn th mn m, discs_approach c l thn th /\ continuous_dispersion c /\ (forall n, image_is c (thn n) (mn n)) /\ image_is c th m /\
  o_floor (c_opt c) = true /\ o_adapt (c_opt c) = true /\
  (exists r0 z, hd NaN (g_rest (c_gal c)) = Fin r0 /\ nth (length th - 1) th NaN = Fin z /\ nth (p_nvel (c_prof c)) th NaN = Fin (pixel_velocity l (r0 * (1 + z)) / (235 / 100))) /\
  ~ (forall i j, (i < img_rows c)%nat -> (j < length l)%nat -> approach (fun n => at2 (mn n) i j) (at2 m i j)).
Proof.
  assert (P : 0 < j_sigma) by (unfold j_sigma, light_speed; lra).
  destruct (j_at 0 ltac:(lia)) as (m & I0 & V0). set (sn := fun n => j_sigma * (1 - / 10 * / (INR n + 1))).
  assert (Bn : forall n, 9 / 10 * j_sigma <= sn n < j_sigma).
  { intros n. unfold sn. pose proof (inv_pos n) as Q. assert (/ (INR n + 1) <= 1). { rewrite <- Rinv_1. apply Rinv_le_contravar; [lra|]. pose proof (pos_INR n). lra. } split; nra. }
  exists j_cfg, j_grid, (fun n => y_flat (sn n)), (y_flat j_sigma), (fun n => img j_cfg (y_flat (sn n))), m.
  assert (A := arctan_approach j_cfg j_grid (fun _ => 200) (fun _ => 1/2) sn 200 (1/2) j_sigma (Fin 0) (Fin 1) eq_refl eq_refl eq_refl).
  destruct A as (A1 & A2); try lra.
  - intros n. apply j_shining. specialize (Bn n). lra.
  - apply j_shining. lra.
  - intros _. lra.
  - apply (PLim.cv_const 200).
  - apply (PLim.cv_const (1/2)).
  - exact j_cv.
  - split; [exact A1|]. split; [exact A2|]. split.
    { intros n. destruct (j_below (sn n) 0 (Bn n) ltac:(lia)) as (m' & I' & _). now rewrite <- (image_img _ _ _ I'). }
    split; [exact I0|]. split; [reflexivity|]. split; [reflexivity|]. split; [exists 6565, 1; repeat (split; [reflexivity|]); rewrite j_pix; reflexivity|].
    intros Q. destruct (Q 0%nat 1%nat ltac:(cbn; lia) ltac:(cbn; lia)) as (h & y & G1 & G2 & G3).
    destruct j_jump as (m0 & I0' & B). assert (m0 = m) by (rewrite (image_img _ _ _ I0), (image_img _ _ _ I0'); reflexivity). subst m0.
    assert (L : forall n, 2 * y < h n /\ 0 < y).
    { intros n. destruct (j_below (sn n) 0 (Bn n) ltac:(lia)) as (m' & I' & _). destruct (B (sn n) m' (Bn n) I' 0%nat ltac:(cbn; lia)) as (x & x0 & X1 & X2 & X3 & X4).
      rewrite G2 in X1. injection X1 as <-. assert (Q3 := G1 n). cbv beta in Q3. rewrite <- (image_img _ _ _ I'), X3 in Q3. injection Q3 as <-. now split. }
    destruct (L 0%nat) as (_ & Py). destruct (G3 y Py) as (N & HN). specialize (HN N (le_n _)). destruct (L N) as (L1 & _). unfold R_dist in HN. revert HN. rewrite Rabs_pos_eq by lra. lra.
Qed.

(* the simulated observation with everything on *)
Lemma fine_example d : let c := mock_cfg (x_mock 100) (x_mk 100) d in let th := [Fin 200; Fin (1/2); Fin 100; Fin 0; Fin 1] in
  well_posed c th y_wide /\ o_adapt (c_opt c) = true /\ o_factor (c_opt c) = INR 3 /\ nth (p_nvel (c_prof c)) th NaN = Fin 100 /\ hd NaN (g_rest (c_gal c)) = Fin 6565 /\ nth (length th - 1) th NaN = Fin 1 /\
  let pix := pixel_velocity y_wide (6565 * (1 + 1)) / (235 / 100) in Rabs 100 < pix /\ 3 / 4 * (pix / INR 3) <= Rabs 100.
Proof.
  cbv zeta. split; [apply (sh_posed _ _ _ (x_shining 100 d ltac:(lra)))|]. split; [reflexivity|]. split; [cbn; lra|]. repeat (split; [reflexivity|]).
  rewrite Rabs_pos_eq by lra. unfold pixel_velocity, light_speed. cbn [y_wide last hd length INR]. split; lra.
Qed.
Lemma coarse_example d : let c := mock_cfg (x_mock 300) (x_mk 300) d in let th := [Fin 200; Fin (1/2); Fin 300; Fin 0; Fin 1] in
  well_posed c th y_wide /\ o_adapt (c_opt c) = true /\ nth (p_nvel (c_prof c)) th NaN = Fin 300 /\ hd NaN (g_rest (c_gal c)) = Fin 6565 /\ nth (length th - 1) th NaN = Fin 1 /\
  pixel_velocity y_wide (6565 * (1 + 1)) / (235 / 100) <= Rabs 300.
Proof.
  cbv zeta. split; [apply (sh_posed _ _ _ (x_shining 300 d ltac:(lra)))|]. repeat (split; [reflexivity|]).
  rewrite Rabs_pos_eq by lra. unfold pixel_velocity, light_speed. cbn [y_wide last hd length INR]. lra.
Qed.
