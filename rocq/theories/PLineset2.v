From Coq Require Import Reals Lra List Bool Arith ZArith Lia Permutation.
From Verif Require Import PyFloat PyBase Arr PyNum MParams MKernels MAper2D SParams SKernels SAper2D SAper1D SLine SLos SMirror SLineset PKernels PMirror PBright PAper2D PAper2DHist PLine PLos PLineset.
Import ListNotations.
Local Open Scope R_scope.

Lemma sum_app_R l l' : fold_right Rplus 0 (l ++ l') = fold_right Rplus 0 l + fold_right Rplus 0 l'.
Proof. induction l as [|a l IH]; cbn [app fold_right]; [ring|]. rewrite IH. ring. Qed.

Lemma spectrum_app rest ratio rest' ratio' z v s x : length ratio = length rest ->
  spectrum (rest ++ rest') (ratio ++ ratio') z v s x = spectrum rest ratio z v s x + spectrum rest' ratio' z v s x.
Proof. intros L. unfold spectrum. rewrite combine_app by exact L. rewrite map_app. apply sum_app_R. Qed.

Lemma inclined_unique q q0 a b : 0 <= q0 < 1 -> inclined q q0 a -> inclined q q0 b -> a = b.
Proof.
  intros Q (A1&A2&A3) (B1&B2&B3). pose proof PI_RGT_0.
  assert (S : sin a = sin b).
  { destruct (Rle_or_lt q q0) as [C|C]; [rewrite A2, B2 by exact C; reflexivity|].
    assert (P : 0 < 1 - q0 ^ 2) by nra.
    assert (SA : 0 <= sin a) by (apply sin_ge_0; lra). assert (SB : 0 <= sin b) by (apply sin_ge_0; lra).
    specialize (A3 ltac:(lra)). specialize (B3 ltac:(lra)).
    assert (E : (sin a) ^ 2 = (sin b) ^ 2).
    { apply (Rmult_eq_reg_r (1 - q0 ^ 2)); lra. }
    nra. }
  rewrite <- (asin_sin a), <- (asin_sin b) by lra. now rewrite S.
Qed.

Lemma tot_plus n f g : tot n (fun i => f i + g i) = tot n f + tot n g.
Proof. rewrite !tot_rsumn. apply rsumn_plus. Qed.
Lemma tot_ext n f g : (forall i, f i = g i) -> tot n f = tot n g.
Proof. intros H. rewrite !tot_rsumn. apply rsumn_ext. auto. Qed.

Lemma lines_add c th l d q q0 m0 z (rest ratio rest' ratio' : list R) (vr hr sr : R -> R -> R) st :
  well_posed c th l -> unblurred c ->
  g_dPA (c_gal c) = Fin d -> g_q (c_gal c) = Fin q -> g_q0 (c_gal c) = Fin q0 -> 0 <= q0 < 1 -> 0 <= q <= 1 ->
  fadd (g_m0 (c_gal c)) (nth (length th - 2) th NaN) = Fin m0 -> nth (length th - 1) th NaN = Fin z -> 1 + z <> 0 ->
  rest <> [] -> rest' <> [] -> length ratio = length rest -> length ratio' = length rest' ->
  (forall x, In x (rest ++ rest') -> x <> 0) ->
  (forall r h, p_vel (c_prof c) (firstn (p_nvel (c_prof c)) th) (Fin r) (Fin h) = Fin (vr r h)) ->
  (forall r h, p_int (c_prof c) (Fin r) (Fin h) = Fin (hr r h)) ->
  (forall r h, p_disp (c_prof c) (firstn 1 (skipn (p_nvel (c_prof c)) th)) (Fin r) (Fin h) = Fin (sr r h) /\ sr r h <> 0) ->
  let run rest ratio := aper_new (with_lines (map Fin rest) (map Fin ratio) c) th st in
  exists a1 a2 a m1 m2 m,
    snd (run rest ratio) = Ok a1 /\ a_model a1 = Some m1 /\
    snd (run rest' ratio') = Ok a2 /\ a_model a2 = Some m2 /\
    snd (run (rest ++ rest') (ratio ++ ratio')) = Ok a /\ a_model a = Some m /\
    rows m = g_rows (c_gal c) /\ cols m = length l /\ rows m1 = rows m /\ cols m1 = cols m /\ rows m2 = rows m /\ cols m2 = cols m /\
    forall i t, (i < g_rows (c_gal c))%nat -> (t < length l)%nat ->
      exists x y, at2 m1 i t = Fin x /\ at2 m2 i t = Fin y /\ at2 m i t = Fin (x + y).
Proof.
  intros Hwp Hu Hd Hq Hq0 Bq0 Bq Hm0 Hz Nz N1 N2 L1 L2 Nre Hv Hi Hs run.
  assert (Go : forall re ra, re <> [] -> length ra = length re -> (forall x, In x re -> x <> 0) ->
    let c' := with_lines (map Fin re) (map Fin ra) c in
    well_posed c' th l /\ unblurred c').
  { intros re ra Ne Le _ c'. split; [|exact Hu].
    destruct Hwp as (H1&H2&H3&H4&H5&H6&H7&H8&H9&H10&H11&H12&H13&H14&H15&H16&H17&H18&H19).
    unfold well_posed, c', with_lines. cbn [c_gal c_ins c_opt c_prof g_q g_q0 g_dPA g_rows g_wave g_m0 g_rest g_ratio g_data].
    repeat (split; [assumption|]). split; [destruct re; [congruence|discriminate]|]. split; [rewrite !map_length; lia|].
    repeat (split; [assumption|]). assumption. }
  assert (Im : forall re ra, re <> [] -> length ra = length re -> (forall x, In x re -> x <> 0) ->
    let c' := with_lines (map Fin re) (map Fin ra) c in
    let ns := o_nsub (c_opt c) in let ny := (g_rows (c_gal c) * ns)%nat in let dy := i_pix (c_ins c) / INR ns in
    let nx := slit_npix (c_ins c) (c_opt c) (g_rows (c_gal c)) in let dx := i_slit (c_ins c) / INR nx in
    exists a m inc, snd (aper_new c' th st) = Ok a /\ a_model a = Some m /\ rows m = g_rows (c_gal c) /\ cols m = length l /\ inclined q q0 inc /\
    forall i t, (i < g_rows (c_gal c))%nat -> (t < length l)%nat ->
      at2 m i t = Fin (dx * dy * tot ns (fun s => tot nx (fun k => tot ny (fun o =>
        let j := (i * ns + s)%nat in
        let p := (cell_centre nx dx k - o_xc (c_opt c),
                  subpixel_y ns 0 dy m0 j + INR ns * dy * (1/2 - (if Nat.eqb ny 1 then 0 else INR j / (INR ny - 1))),
                  cell_centre ny dy o) in
        let n := axis d inc in
        let R := from_axis n p in let H := height n p in
        hr R H * spectrum re ra z (along_sight n (vr R H) p) (sr R H) (nth t l 0)))))).
  { intros re ra Ne Le Nz' c' ns ny dy nx dx. destruct (Go re ra Ne Le Nz') as [W U].
    destruct (plain_emission_nx c' th l d q q0 m0 z re ra vr hr sr W U Hd Hq Hq0 Bq0 Bq Hm0 Hz Nz eq_refl eq_refl Nz' Hv Hi Hs)
      as (a0&b&m&inc&n&nx'&dx'&E1&E2&E3&Es&Eb&Em&Rm&Cm&Inc&_&_&_&_&E).
    subst nx' dx' n. exists b, m, inc. split; [unfold aper_new; rewrite Es, Eb; reflexivity|].
    repeat (split; [assumption|]). exact E. }
  assert (Na : forall x, In x rest -> x <> 0) by (intros x X; apply Nre, in_or_app; auto).
  assert (Nb : forall x, In x rest' -> x <> 0) by (intros x X; apply Nre, in_or_app; auto).
  destruct (Im rest ratio N1 L1 Na) as (a1&m1&i1&E1&M1&R1&C1&I1&V1).
  destruct (Im rest' ratio' N2 L2 Nb) as (a2&m2&i2&E2&M2&R2&C2&I2&V2).
  destruct (Im (rest ++ rest') (ratio ++ ratio')) as (a&m&i0&E&M&R&C&I0&V).
  { destruct rest; [congruence|discriminate]. } { rewrite !app_length. lia. } { exact Nre. }
  rewrite (inclined_unique q q0 i1 i0 Bq0 I1 I0) in *. rewrite (inclined_unique q q0 i2 i0 Bq0 I2 I0) in *.
  exists a1, a2, a, m1, m2, m. repeat (split; [first [assumption|congruence]|]).
  intros i t Hi' Ht. eexists _, _. split; [apply V1; assumption|]. split; [apply V2; assumption|].
  rewrite V by assumption. f_equal. rewrite <- Rmult_plus_distr_l. f_equal.
  rewrite <- tot_plus. apply tot_ext; intros s. rewrite <- tot_plus. apply tot_ext; intros k. rewrite <- tot_plus. apply tot_ext; intros o.
  cbv zeta. rewrite spectrum_app by exact L1. ring.
Qed.

(* the instrument's width is that of the first line *)
Lemma first_line c th st a : snd (aper_new c th st) = Ok a -> o_spec (c_opt c) = Wave -> o_shift (c_opt c) = false ->
  exists lam0 z, nth_error (g_rest (c_gal c)) 0 = Some lam0 /\ getz th (-1) = Ok z /\
  a_idw a = IdwFloat (fmul (fdiv (i_res (c_ins c)) (Fin c_kms)) (fmul lam0 (fadd (Fin 1) z))).
Proof.
  intros H Sp Sh. unfold aper_new in H. destruct (setup_calcs c th) as [a0|] eqn:Es; [|discriminate].
  destruct (do_model_calcs c a0) as [b [u|]] eqn:Eb; [|discriminate]. cbn [snd] in H. injection H as <-.
  destruct (setup_calcs_inv _ _ _ Es) as (w&W1&W2&W3&_).
  assert (P : exists lam0 z, nth_error (g_rest (c_gal c)) 0 = Some lam0 /\ getz th (-1) = Ok z /\ lam0_primary (s_grid (a_su a0)) = fmul lam0 (fadd (Fin 1) z)).
  { unfold setup_calcs, setup_model_grid in Es. destruct (Nat.eqb _ _); [discriminate|]. destruct (Nat.eqb _ _); [discriminate|].
    destruct (getz th (-1)) as [z|]; [|discriminate]. cbn [bind] in Es. destruct (getz th (-2)) as [sh|]; [|discriminate]. cbn [bind] in Es.
    rewrite Sp in Es. destruct (g_rest (c_gal c)) as [|lam0 r]; [discriminate|]. cbn [getn nth_error bind] in Es.
    apply Ok_inj in Es. exists lam0, z. split; [reflexivity|]. split; [reflexivity|]. rewrite <- Es. reflexivity. }
  destruct P as (lam0&z&P1&P2&P3). exists lam0, z. split; [exact P1|]. split; [exact P2|]. rewrite <- P3.
  set (su := a_su a0) in *. set (s0 := a_stamp a0) in *.
  unfold do_model_calcs in Eb.
  assert (D : forall (A B : Type) (m : ST aper A) (f : A -> ST aper B) s s' r, bindS m f s = (s', Ok r) -> exists s1 x, m s = (s1, Ok x) /\ f x s1 = (s', Ok r)).
  { intros A B m f s s' r. unfold bindS. destruct (m s) as [s1 [x|]]; [|discriminate]. eauto. }
  apply D in Eb. destruct Eb as (x1&u1&X1&Eb). pose proof (update_theta_pres c su w s0 a0 W3) as I1. rewrite X1 in I1.
  cbn [fst] in I1.
  apply D in Eb. destruct Eb as (x2&u2&X2&Eb).
  assert (I2 : inv c su w s0 x2).
  { destruct (o_adapt (c_opt c)) eqn:Ea; [pose proof (upsample_pres c su w s0 Ea x1 I1) as Q; rewrite X2 in Q; exact Q|].
    unfold ret in X2. apply pair_equal_spec in X2. destruct X2 as [<- _]. exact I1. }
  apply D in Eb. destruct Eb as (x3&u3&X3&Eb). pose proof (calc_pres c su w s0 x2 I2) as I3. rewrite X3 in I3. cbn [fst] in I3.
  apply D in Eb. destruct Eb as (x4&u4&X4&Eb). pose proof (conv_pres c su w s0 x3 I3) as I4. rewrite X4 in I4. cbn [fst] in I4.
  apply D in Eb. destruct Eb as (x5&u5&X5&Eb). pose proof (trim_pres c su w s0 x4 I4) as I5. rewrite X5 in I5. cbn [fst] in I5.
  apply D in Eb. destruct Eb as (x6&u6&X6&Eb).
  assert (I6 : a_idw x6 = IdwFloat (fmul (fdiv (i_res (c_ins c)) (Fin c_kms)) (lam0_primary (s_grid su)))).
  { destruct I5 as (S5&_). unfold convolve_instrument_resolution in X6. rewrite Sh, Sp in X6. unfold bindS, getS, modS in X6. cbv beta iota zeta in X6.
    rewrite S5 in X6. destruct (fgtb _ _).
    - destruct (a_out _) as [mm|]; [|discriminate]. unfold liftR in X6. destruct (inst_convol_complete _ _ _); [|discriminate].
      apply pair_equal_spec in X6. destruct X6 as [<- _]. reflexivity.
    - unfold ret in X6. apply pair_equal_spec in X6. destruct X6 as [<- _]. reflexivity. }
  apply D in Eb. destruct Eb as (x7&u7&X7&Eb).
  assert (I7 : a_idw x7 = a_idw x6).
  { destruct (o_adapt (c_opt c)); [|unfold ret in X7; apply pair_equal_spec in X7; destruct X7 as [<- _]; reflexivity].
    unfold downsample_to_real_wave, bindS, getS in X7. cbv beta iota zeta in X7. destruct (s_real _); [|discriminate]. destruct (a_out x6); [|discriminate].
    unfold liftR in X7. destruct (rebin2 _ _ _); [|discriminate]. unfold putS in X7. apply pair_equal_spec in X7. destruct X7 as [<- _]. reflexivity. }
  unfold bindS, getS in Eb. cbv beta iota zeta in Eb. destruct (a_out x7); [|discriminate]. unfold putS in Eb. apply pair_equal_spec in Eb. destruct Eb as [<- _].
  change (a_idw (set_model _ _)) with (a_idw x7). rewrite I7. exact I6.
Qed.

(* broadening by the instrument is not additive *)
Definition b_wave : list fl := [Fin 0; Fin 1; Fin 2].
Definition b_img (a b c : R) : arr2 fl := mk2 3 1 (fun i _ => Fin (nth i [a; b; c] 0)).
Definition b_e : R := exp (-1/2).

Lemma b_pos : 0 < b_e.
Proof. apply exp_pos. Qed.

Lemma b_ker : map (fun x => let y := gaus_from_fwhm x (fmul (Fin 1) (Fin fwhm_factor)) (average b_wave) in if isfinite y then y else Fin 0) b_wave = [Fin b_e; Fin 1; Fin b_e].
Proof.
  assert (F : fwhm_factor <> 0).
  { unfold fwhm_factor. assert (0 < ln 2) by (rewrite <- ln_1; apply ln_increasing; lra). assert (0 < sqrt (2 * ln 2)) by (apply sqrt_lt_R0; lra). lra. }
  assert (A : average b_wave = Fin 1).
  { unfold average. replace (fsum b_wave) with (Fin 3) by (cbn; f_equal; ring). replace (INR (length b_wave)) with 3 by (cbn; ring). rewrite fdiv_Fin by lra. f_equal. field. }
  rewrite A. cbn [map b_wave fmul]. unfold gaus_from_fwhm. rewrite fdiv_Fin by exact F.
  replace (1 * fwhm_factor / fwhm_factor) with 1 by (field; exact F).
  unfold fsq, fsub. cbn [fneg fadd fmul]. rewrite !fdiv_Fin by lra. cbn [fexp isfinite]. unfold b_e.
  repeat f_equal; try lra. replace (-1 * ((1 + - (1)) * (1 + - (1))) / (2 * (1 * 1))) with 0 by field. apply exp_0.
Qed.

Lemma b_run a b c : let S := (a + b + c) + b_e * (a + 2 * b + c) in S <> 0 ->
  exists o, inst_convol_complete (b_img a b c) b_wave (IdwFloat (Fin 1)) = Ok o /\
    at2 o 2 0 = Fin ((b_e * b + c) * ((a + b + c) / S)).
Proof.
  intros S HS. unfold inst_convol_complete. change (Nat.even (length b_wave)) with false. cbn iota. unfold convol_instconstfwhm. pose proof b_ker as K. cbv zeta in K |- *. rewrite K.
  cbn [size2 b_img rows cols]. change (length b_wave) with 3%nat. cbv zeta.
  change (Nat.eqb _ 0 || Nat.eqb _ 0) with false. cbn iota. eexists. split; [reflexivity|].
  set (ker := mk2 3 1 (fun i (_ : nat) => lnth [Fin b_e; Fin 1; Fin b_e] i)).
  assert (F1 : allfin2 (b_img a b c) = true) by reflexivity. assert (F2 : allfin2 ker = true) by reflexivity.
  assert (V : forall i, (i < 3)%nat -> at2 (conv2 (b_img a b c) ker) i 0 = Fin (nth i [a + b_e * b; b_e * a + b + b_e * c; b_e * b + c] 0)).
  { intros i Hi. unfold conv2. rewrite F1, F2. cbn [andb at2].
    destruct i as [|[|[|]]]; [| | |lia]; cbn; f_equal; ring. }
  assert (Z2 : sum2 (b_img a b c) = Fin (a + b + c)) by (cbn; f_equal; ring).
  assert (Z3 : sum2 (conv2 (b_img a b c) ker) = Fin S).
  { unfold sum2. assert (rows (conv2 (b_img a b c) ker) = 3%nat /\ cols (conv2 (b_img a b c) ker) = 1%nat) as [-> ->] by (unfold conv2; rewrite F1, F2; split; reflexivity).
    rewrite (fsumn_Fin 3 _ (fun i => nth i [a + b_e * b; b_e * a + b + b_e * c; b_e * b + c] 0)).
    - cbn. f_equal. unfold S. ring.
    - intros i Hi. unfold fsumn. cbn [seq map fsum fold_right]. rewrite V by exact Hi. cbn [fadd]. f_equal. ring. }
  cbn [map2 at2]. rewrite V by lia. rewrite Z2, Z3, fdiv_Fin by exact HS. reflexivity.
Qed.

Lemma blur_not_additive : exists m1 m2 m wave w o1 o2 o,
  rows m = rows m1 /\ rows m = rows m2 /\ cols m = cols m1 /\ cols m = cols m2 /\
  (forall i j, at2 m i j = fadd (at2 m1 i j) (at2 m2 i j)) /\
  inst_convol_complete m1 wave w = Ok o1 /\ inst_convol_complete m2 wave w = Ok o2 /\ inst_convol_complete m wave w = Ok o /\
  exists x y, at2 o1 2 0 = Fin x /\ at2 o2 2 0 = Fin y /\ exists s, at2 o 2 0 = Fin s /\ x + y < s.
Proof.
  pose proof b_pos as B.
  destruct (b_run 1 0 0) as (o1&E1&V1); [cbv zeta; lra|]. destruct (b_run 0 1 0) as (o2&E2&V2); [cbv zeta; lra|]. destruct (b_run 1 1 0) as (o&E&V); [cbv zeta; lra|].
  exists (b_img 1 0 0), (b_img 0 1 0), (b_img 1 1 0), b_wave, (IdwFloat (Fin 1)), o1, o2, o.
  repeat (split; [reflexivity|]). split.
  { intros i j. cbn [b_img at2 fadd]. f_equal. destruct i as [|[|[|i]]]; cbn; try ring. destruct i; ring. }
  split; [exact E1|]. split; [exact E2|]. split; [exact E|]. eexists _, _. split; [exact V1|]. split; [exact V2|]. eexists. split; [exact V|].
  replace ((b_e * 0 + 0) * ((1 + 0 + 0) / (1 + 0 + 0 + b_e * (1 + 2 * 0 + 0)))) with 0 by (field; lra).
  replace ((b_e * 1 + 0) * ((0 + 1 + 0) / (0 + 1 + 0 + b_e * (0 + 2 * 1 + 0)))) with (b_e / (1 + 2 * b_e)) by (field; lra).
  replace ((b_e * 1 + 0) * ((1 + 1 + 0) / (1 + 1 + 0 + b_e * (1 + 2 * 1 + 0)))) with (b_e / (1 + 3 / 2 * b_e)) by (field; lra).
  rewrite Rplus_0_l. unfold Rdiv. apply Rmult_lt_compat_l; [exact B|]. apply Rinv_lt_contravar; [nra|lra].
Qed.

(* a line outside the wavelength range *)
Lemma outside_light (wave : list R) I V nZ nY nX dz lam0 (v : nat -> nat -> nat -> R) :
  (0 < length wave)%nat -> increasing wave ->
  (forall m j k, (m < nZ)%nat -> (j < nY)%nat -> (k < nX)%nat ->
    at3 V m j k = Fin (v m j k) /\ nth (length wave - 1) wave 0 < lam0 * (1 + v m j k / c_kms)) ->
  forall w j k, (j < nY)%nat -> (k < nX)%nat -> at3 (I_simple_collapse I V (map Fin wave) (length wave) nZ nY nX dz (Fin lam0)) w j k =
    if Nat.eqb w (length wave - 1) then fsumn nZ (fun m => fmul (at3 I m j k) dz) else fsumn nZ (fun _ => Fin 0).
Proof.
  intros L Inc HV w j k Hj Hk.
  assert (Ne : wave <> []) by (destruct wave; [cbn in L; lia|discriminate]).
  destruct (PKernels2.collapse_nearest I V wave nZ nY nX dz lam0 v Ne (fun m j k a b d => proj1 (HV m j k a b d))) as (best&B1&B2).
  rewrite B2.
  assert (Q : forall m, (m < nZ)%nat -> best m j k = (length wave - 1)%nat).
  { intros m Hm. destruct (B1 m j k Hm Hj Hk) as [Bl Bm]. specialize (Bm (length wave - 1)%nat ltac:(lia)). pose proof (proj2 (HV m j k Hm Hj Hk)) as Far.
    destruct (Nat.eq_dec (best m j k) (length wave - 1)) as [|N]; [assumption|exfalso].
    assert (X : nth (best m j k) wave 0 < nth (length wave - 1) wave 0) by (apply Inc; lia).
    rewrite !Rabs_right in Bm by lra. lra. }
  destruct (Nat.eqb_spec w (length wave - 1)) as [->|N].
  - apply fsumn_ext. intros m Hm. now rewrite Q, Nat.eqb_refl by exact Hm.
  - apply fsumn_ext. intros m Hm. rewrite Q by exact Hm. destruct (Nat.eqb_spec (length wave - 1) w); [congruence|reflexivity].
Qed.

Definition n_cfg : cfg := with_lines [Fin 6565; Fin 6550; Fin 6585] [Fin 1; Fin (1/10); Fin (3/10)] y_cfg.

Lemma order_example :
  let c' := with_lines [Fin 6565; Fin 6585; Fin 6550] [Fin 1; Fin (3/10); Fin (1/10)] n_cfg in
  c' <> n_cfg /\
  (forall th st, aper_new c' th st = aper_new n_cfg th st) /\
  (forall tf k, km_make c' tf k = km_make n_cfg tf k) /\
  forall tfs k, likelihoods c' k tfs = likelihoods n_cfg k tfs.
Proof.
  intros c'. split.
  - intros E. apply (f_equal (fun c => lnth (g_rest (c_gal c)) 1)) in E. cbn in E. injection E as E. lra.
  - apply lines_order; try reflexivity. cbn. constructor. apply perm_swap.
Qed.

Lemma merge_example : forall th st,
  aper_new (with_lines [Fin 6565; Fin 6565; Fin 6585] [Fin (1/4); Fin (3/4); Fin (3/10)] y_cfg) th st =
  aper_new (with_lines [Fin 6565; Fin 6585] [Fin 1; Fin (3/10)] y_cfg) th st.
Proof.
  replace (Fin 1) with (Fin (1/4 + 3/4)) by (f_equal; lra).
  apply (lines_merge y_cfg [] [Fin 6585] [] [Fin (3/10)] (Fin 6565) (1/4) (3/4)); try reflexivity; lra.
Qed.

Lemma add_example : let th := [Fin 200; Fin (1/2); Fin 50; Fin 0; Fin 1] in
  let run rest ratio := aper_new (with_lines (map Fin rest) (map Fin ratio) y_cfg) th NoStamp in
  exists a1 a2 a m1 m2 m,
    snd (run [6565] [1]) = Ok a1 /\ a_model a1 = Some m1 /\
    snd (run [6550; 6585] [1/10; 3/10]) = Ok a2 /\ a_model a2 = Some m2 /\
    snd (run [6565; 6550; 6585] [1; 1/10; 3/10]) = Ok a /\ a_model a = Some m /\
    rows m = 3%nat /\ cols m = 2%nat /\
    forall i t, (i < 3)%nat -> (t < 2)%nat ->
      exists x y, at2 m1 i t = Fin x /\ at2 m2 i t = Fin y /\ at2 m i t = Fin (x + y).
Proof.
  intros th run. destruct y_example as (W&U&_). pose proof (proj1 (conj W U)) as W'.
  destruct (lines_add y_cfg th [13126; 13134] 30 (3/5) 0 1 1 [6565] [1] [6550; 6585] [1/10; 3/10]
     (fun r _ => 2 / PI * 200 * atan (r / (1/2))) (fun r _ => exp (- r)) (fun _ _ => 50) NoStamp W' U)
    as (a1&a2&a&m1&m2&m&E1&M1&E2&M2&E&M&R&C&_&_&_&_&V); try reflexivity; try lra; try discriminate.
  - cbn. f_equal. lra.
  - intros x X. cbn in X. lra.
  - intros r h. apply PProf.vel_Fin. lra.
  - intros r h. split; [|lra]. cbn. f_equal. ring.
  - exists a1, a2, a, m1, m2, m. repeat (split; [assumption|]). exact V.
Qed.

Lemma outside_example : forall I dz,
  at3 (I_simple_collapse I (mk3 2 1 1 (fun _ _ _ => Fin 0)) (map Fin [13126; 13134]) 2 2 1 1 dz (Fin 20000)) 1 0 0 =
  fsumn 2 (fun m => fmul (at3 I m 0 0) dz).
Proof.
  intros I dz. pose proof (outside_light [13126; 13134] I (mk3 2 1 1 (fun _ _ _ => Fin 0)) 2 1 1 dz 20000 (fun _ _ _ => 0)) as Q.
  cbn [length] in Q. specialize (Q ltac:(lia)). rewrite Q; [reflexivity| | |lia|lia].
  - intros a b H. destruct a as [|[|a]], b as [|[|b]]; cbn in *; try lia; lra.
  - intros m a b _ _ _. split; [reflexivity|]. cbn. unfold Rdiv. rewrite Rmult_0_l. lra.
Qed.
