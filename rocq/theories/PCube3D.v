From Coq Require Import Reals Lra List Bool Arith ZArith Lia.
From Verif Require Import PyFloat PyBase Arr PyNum MParams MKernels MAper2D MCube3D SParams SKernels SAper2D PParams PAper2D PAper2DHist PAper2DGrid PAper2DShape PAper2DOk PAper2DVal PAper2DTop PKernels PKernels2.
Import ListNotations.
Local Open Scope R_scope.

Lemma mul3_eq a b c a' b' c' : (a <= a' -> b <= b' -> c <= c' -> 0 < a' -> 0 < b' -> 0 < c' ->
  a * b * c = a' * b' * c' -> a = a' /\ b = b' /\ c = c')%nat.
Proof.
  intros Ha Hb Hc Pa Pb Pc E.
  assert (a * b <= a' * b')%nat by nia. assert (0 < a' * b')%nat by nia.
  assert (c = c') by nia. subst c'. assert (a * b = a' * b')%nat by nia.
  assert (a = a') by nia. subst a'. split; auto. split; [nia|auto].
Qed.

Lemma rebin3_iff a l m n : (0 < dim0 a)%nat -> (0 < dim1 a)%nat -> (0 < dim2 a)%nat ->
  (exists b, rebin3 a l m n = Ok b) <->
  (0 < l /\ 0 < m /\ 0 < n)%nat /\ (exists p, dim0 a = l * p)%nat /\ (exists q, dim1 a = m * q)%nat /\ (exists r, dim2 a = n * r)%nat.
Proof.
  intros P0 P1 P2. unfold rebin3. split.
  - intros [b E]. destruct (Nat.eqb_spec l 0), (Nat.eqb_spec m 0), (Nat.eqb_spec n 0); cbn in E; try discriminate.
    destruct (Nat.eqb_spec (l * (dim0 a / l) * (m * (dim1 a / m)) * (n * (dim2 a / n))) (dim0 a * dim1 a * dim2 a)); [|discriminate].
    apply mul3_eq in e; auto using Nat.mul_div_le.
    destruct e as (E0&E1&E2). repeat split; try lia; eexists; eauto.
  - intros ((L&M&N)&(p&Ep)&(q&Eq)&(r&Er)).
    destruct (Nat.eqb_spec l 0), (Nat.eqb_spec m 0), (Nat.eqb_spec n 0); try lia. cbn.
    rewrite Ep, Eq, Er. rewrite !(Nat.mul_comm _ p), !(Nat.mul_comm _ q), !(Nat.mul_comm _ r), !Nat.div_mul by lia.
    replace (l * p * (m * q) * (n * r))%nat with (p * l * (q * m) * (r * n))%nat by ring.
    rewrite Nat.eqb_refl. eauto.
Qed.

(* dimensions of the trimmed, convolved cube after an evaluation *)
Lemma eval_cube_shape c th g w su st a b : setup_model_grid c th = Ok (g, w) -> s_grid su = g ->
  (o_adapt (c_opt c) = true -> s_real su = Some w) -> inv c su w st a -> a_wv a = w ->
  (1 <= g_rows (c_gal c))%nat -> (1 <= length (g_wave (c_gal c)))%nat -> o_rebin (c_opt c) = true ->
  do_model_calcs c a = (b, Ok tt) ->
  a_su b = su /\
  exists cv cu f, a_conv b = Some cv /\ a_cube b = Some cu /\ (1 <= f)%nat /\
    dim0 cv = (length (g_wave (c_gal c)) * f)%nat /\ dim1 cv = n_pix_y g /\ dim2 cv = n_pix_x g /\
    dim0 cu = dim0 cv /\ dim1 cu = nY g /\ dim2 cu = nX g.
Proof.
  intros Hg Hsu Hreal Hi Hw HR HL Hrb E.
  destruct (setup_fields _ _ _ _ Hg) as (F1&F2&F3&F4&F5&F6&F7&F8&F9&F10&F11&F12&F13&F14&F15&F16&F17&F18&F19&F20&F21&F22&F23).
  unfold do_model_calcs in E.
  destruct (update_theta c a) as [a1 [u1|]] eqn:E1; [|discriminate].
  rewrite (bindS_Ok _ _ _ _ _ E1) in E. injection E1 as <- <-.
  set (a1 := set_prof _ _ a) in E.
  assert (Hi1 : inv c su w st a1) by now apply inv_prof.
  destruct ((if o_adapt (c_opt c) then check_do_upsample_wave c else ret tt) a1) as [a2 [u2|e]] eqn:E2;
    [rewrite (bindS_Ok _ _ _ _ _ E2) in E|rewrite (bindS_Err _ _ _ _ _ E2) in E; discriminate].
  assert (Hi2 : inv c su w st a2).
  { revert E2. case_eq (o_adapt (c_opt c)); intros Ea E2.
    - pose proof (upsample_pres c su w st Ea a1 Hi1) as P. rewrite E2 in P. exact P.
    - injection E2 as <-. exact Hi1. }
  assert (S2 : a_su a2 = su) by apply Hi2.
  destruct (calculate_spectral_cube c a2) as [a3 [[]|e]] eqn:E3;
    [rewrite (bindS_Ok _ _ _ _ _ E3) in E|rewrite (bindS_Err _ _ _ _ _ E3) in E; discriminate].
  destruct (calc_shape _ _ _ E3) as (S3&W3&T3&cube&C3&D0&D1&D2).
  destruct (convolve_spectral_cube_PSF c a3) as [a4 [[]|e]] eqn:E4;
    [rewrite (bindS_Ok _ _ _ _ _ E4) in E|rewrite (bindS_Err _ _ _ _ _ E4) in E; discriminate].
  destruct (conv_shape _ _ _ _ C3 E4) as (S4&W4&T4&C4).
  assert (Q4 : a_cube a4 = Some cube).
  { revert E4. unfold convolve_spectral_cube_PSF. ub. rewrite C3. destruct (PSF_convolve _ _ _); [|discriminate].
    intros X. injection X as <-. exact C3. }
  destruct (trim_downsample_spectral_cube c a4) as [a5 [[]|e]] eqn:E5;
    [rewrite (bindS_Ok _ _ _ _ _ E5) in E|rewrite (bindS_Err _ _ _ _ _ E5) in E; discriminate].
  assert (C5 : a_cube a5 = Some cube /\ exists cv, a_conv a5 = Some cv /\ dim0 cv = w_n (a_wv a2) /\ dim1 cv = n_pix_y g /\ dim2 cv = n_pix_x g).
  { revert E5. unfold trim_downsample_spectral_cube. ub.
    destruct (i_slitmask _); [discriminate|]. destruct (a_conv a4) as [cv|]; [|discriminate].
    destruct (C4 cv eq_refl) as (V0&V1&V2). unfold cut. rewrite S4, S3, S2, Hsu.
    assert (K : (n_pix_y g + padY g - padY g = n_pix_y g)%nat) by lia.
    assert (dim1 cv = nY g /\ dim2 cv = nX g /\ dim0 cv = w_n (a_wv a2)) as (V1'&V2'&V0').
    { rewrite V0, V1, V2, D0, D1, D2, S2, Hsu. auto. }
    destruct (o_rebin _).
    - destruct (rebin2 _ _ _); [|discriminate]. intros X. injection X as <-. cbn [a_cube a_conv set_out set_conv].
      split; [exact Q4|]. eexists. split; [reflexivity|]. cbn [dim0 dim1 dim2]. rewrite V1', V2', F13, F12. lia.
    - intros X. injection X as <-. cbn [a_cube a_conv set_out set_conv].
      split; [exact Q4|]. eexists. split; [reflexivity|]. cbn [dim0 dim1 dim2]. rewrite V1', V2', F13, F12. lia. }
  assert (NZ : w_n (a_wv a2) <> 0%nat).
  { clear C5. revert E5. unfold trim_downsample_spectral_cube. ub.
    destruct (i_slitmask _); [discriminate|]. destruct (a_conv a4) as [cv|]; [|discriminate]. unfold cut. rewrite Hrb, W4, W3.
    intros E5 Z. rewrite Z in E5. unfold rebin2 in E5. cbn in E5. discriminate. }
  destruct C5 as (Q5&cv&V5&V50&V51&V52).
  apply trim_shape in E5;
    [|intros cv' Hcv; destruct (C4 cv' Hcv) as (?&?&?); rewrite S4, S3, W4, W3; repeat split; congruence
     |rewrite S4, S3, S2, Hsu; auto].
  destruct E5 as (S5&W5&m5&O5&R5&K5).
  destruct (convolve_instrument_resolution c a5) as [a6 [[]|e]] eqn:E6;
    [rewrite (bindS_Ok _ _ _ _ _ E6) in E|rewrite (bindS_Err _ _ _ _ _ E6) in E; discriminate].
  destruct (inst_shape _ _ _ _ O5 E6) as (S6&W6&m6&O6&R6&K6).
  assert (C6 : a_cube a6 = a_cube a5 /\ a_conv a6 = a_conv a5).
  { clear - E6. revert E6. unfold convolve_instrument_resolution. ub.
    destruct (o_shift (c_opt c)); [destruct (o_eff (c_opt c))|]; destruct (o_spec (c_opt c));
    cbn [fst snd negb set_dvel a_idw a_out a_wv a_dvel a_su]; try discriminate.
    1,2: destruct (match a_idw a5 with IdwNone => _ | IdwFloat x => _ | IdwArr l => _ end); try discriminate.
    all: destruct (fgtb _ _); try (destruct (a_out a5); [|discriminate]);
      [try (destruct (inst_convol_complete _ _ _); [|discriminate])|]; intros X; injection X as <-; cbn; auto. }
  destruct ((if o_adapt (c_opt c) then downsample_to_real_wave c else ret tt) a6) as [a7 [u7|e]] eqn:E7;
    [rewrite (bindS_Ok _ _ _ _ _ E7) in E|rewrite (bindS_Err _ _ _ _ _ E7) in E; discriminate].
  assert (X : a_su a7 = su /\ a_cube a7 = Some cube /\ a_conv a7 = Some cv /\
              exists f, (1 <= f)%nat /\ w_n (a_wv a2) = (length (g_wave (c_gal c)) * f)%nat \/ w_n (a_wv a2) = 0%nat).
  { revert E7. case_eq (o_adapt (c_opt c)); intros Ea E7.
    - unfold downsample_to_real_wave in E7. revert E7. ub.
      assert (SS : a_su a6 = su) by congruence.
      rewrite SS, (Hreal Ea), O6.
      destruct (rebin2 _ _ _) eqn:Er; [|discriminate]. intros X. injection X as <- <-.
      cbn [a_cube a_conv a_su set_out set_wv].
      destruct C6 as [-> ->]. split; [exact SS|]. split; [auto|]. split; [auto|].
      destruct (Nat.eq_dec (w_n (a_wv a2)) 0) as [Z|Z]; [exists 0%nat; auto|].
      apply rebin2_ok_divides in Er; [|rewrite R6, R5, W4, W3; lia
        |rewrite K6, K5, S4, S3, S2, Hsu; destruct (o_rebin _); rewrite ?F3, ?F4; nia].
      destruct Er as (f0&f1&Hm&Hn&A0&A1). rewrite F23 in A0. cbn [w_n] in A0.
      exists f0. left. rewrite R6, R5, W4, W3 in A0. split; [destruct f0; lia|auto].
    - injection E7 as <- <-. destruct C6 as [-> ->]. split; [congruence|]. split; [auto|]. split; [auto|].
      exists 1%nat. left. split; [lia|].
      assert (Hw2 : a_wv a2 = w) by (apply Hi2; auto). rewrite Hw2, F23. cbn [w_n]. lia. }
  destruct X as (S7&Q7&V7&f&Hf). revert E. ub. destruct (a_out a7) as [m7|]; [|discriminate].
  intros X. injection X as <-. cbn [a_su a_cube a_conv set_model]. split; [exact S7|].
  exists cv, cube.
  destruct Hf as [Hf|Hf]; [|lia]. exists f. destruct Hf as [Hf1 Hf2].
  repeat (split; [auto; fail|]). split; [congruence|]. split; [auto|]. split; [auto|].
  split; [congruence|]. rewrite D1, D2, S2, Hsu. auto.
Qed.

Lemma cube_of_eval c th l a0 b : well_posed c th l -> o_rebin (c_opt c) = true ->
  setup_calcs c th = Ok a0 -> forall th' a, evaluated c a0 a -> aper_update c th' a = (b, Ok tt) ->
  a_su b = a_su a0 /\
  exists cv cu f, a_conv b = Some cv /\ a_cube b = Some cu /\ (1 <= f)%nat /\
    dim0 cv = (length l * f)%nat /\ dim1 cv = n_pix_y (s_grid (a_su a0)) /\ dim2 cv = n_pix_x (s_grid (a_su a0)) /\
    dim0 cu = dim0 cv /\ dim1 cu = nY (s_grid (a_su a0)) /\ dim2 cu = nX (s_grid (a_su a0)).
Proof.
  intros Hwp Hrb Es th' a H E. destruct (evaluated_inv _ _ _ _ Es H) as [I W].
  pose proof Hwp as (_&_&_&HR&HL&_&HL2&_).
  revert Es. unfold setup_calcs. destruct (setup_model_grid c th) as [[g w]|e] eqn:Eg; [|discriminate]. unfold bind. intros Es. injection Es as <-.
  cbn [a_su a_wv a_stamp s_grid] in *. unfold aper_update in E.
  assert (E1 : modS (set_theta th') a = (set_theta th' a, Ok tt)) by reflexivity.
  rewrite (bindS_Ok _ _ _ _ _ E1) in E.
  assert (LL : length (g_wave (c_gal c)) = length l) by (rewrite HL; apply map_length).
  match type of I with inv _ ?su _ ?st _ =>
    destruct (eval_cube_shape c th g w su st (set_theta th' a) b Eg eq_refl) as [X Y] end; auto.
  - cbn [s_real]. now intros ->.
  - lia.
  - split; [exact X|]. rewrite LL in Y. exact Y.
Qed.

Lemma cfg3_square c th g w : (1 <= o_nsub (c_opt c))%nat -> 0 < i_pix (c_ins c) -> (1 <= g_rows (c_gal c))%nat ->
  setup_model_grid (cfg3 c) th = Ok (g, w) ->
  n_pix_y g = (g_rows (c_gal c) * o_nsub (c_opt c))%nat /\ n_pix_x g = n_pix_y g /\ padX g = padY g.
Proof.
  intros Hn Hp Hr Hg.
  destruct (setup_fields _ _ _ _ Hg) as (F1&F2&F3&F4&F5&F6&F7&F8&F9&F10&F11&_).
  cbn [cfg3 c_opt c_ins c_gal o_nsub i_pix i_slit i_fwhm o_pad] in *.
  assert (0 < INR (o_nsub (c_opt c))) by (apply lt_0_INR; lia).
  assert (0 < INR (g_rows (c_gal c))) by (apply lt_0_INR; lia).
  assert (NX : n_pix_x g = n_pix_y g).
  { rewrite F6, F4. unfold slit_npix. cbn [i_pix i_slit o_nsub].
    destruct (Reqb _ _) eqn:E; [reflexivity|]. apply Reqb_false in E. exfalso. apply E. rewrite mult_INR. field. lra. }
  split; [exact F4|]. split; [exact NX|]. rewrite F10, F11. do 2 f_equal. rewrite F9, NX, F4, F7, mult_INR. field. repeat split; lra.
Qed.

(* the cube is produced exactly when the padded size divides the fine grid *)
Lemma make3D_iff c k tf th l : fresh k -> length (k_vary k) = length (k_theta k) -> length tf = nfree (k_vary k) ->
  fst (update_parameters (k_theta k) (k_vary k) tf) = th -> well_posed (cfg3 c) th l ->
  let n := g_rows (c_gal c) in
  let pad := nat_of_round (i_fwhm (c_ins c) * o_pad (c_opt c) / (i_pix (c_ins c) / INR (o_nsub (c_opt c)))) in
  exists k' a, k_aper k' = Some a /\ (exists a0, setup_calcs (cfg3 c) th = Ok a0 /\ evaluated (cfg3 c) a0 a) /\
  ((exists q, (n * o_nsub (c_opt c) = (n + 2 * pad) * q)%nat) ->
     exists cu, km_make3D c tf k = (k', Ok cu) /\ dim0 cu = length l /\ dim1 cu = (n + 2 * pad)%nat /\ dim2 cu = (n + 2 * pad)%nat) /\
  ((~ exists q, (n * o_nsub (c_opt c) = (n + 2 * pad) * q)%nat) -> km_make3D c tf k = (k', Err ValueError)).
Proof.
  intros F Hl Ht Eth Hwp n pad.
  destruct (update_parameters_spec (k_theta k) (k_vary k) tf Hl) as (th'&Eu&_); [lia|].
  assert (th' = th) by (rewrite Eu in Eth; exact Eth). subst th'.
  destruct (well_posed_eval _ _ _ Hwp) as (a0&b&Es&Eb).
  assert (U : aper_update (cfg3 c) th a0 = (b, Ok tt)).
  { unfold aper_update. assert (E1 : modS (set_theta th) a0 = (a0, Ok tt)).
    { unfold modS. f_equal. destruct (setup_calcs_inv _ _ _ Es) as (w&_&_&_&T). destruct a0; cbn in *. now subst. }
    now rewrite (bindS_Ok _ _ _ _ _ E1). }
  destruct (cube_of_eval _ _ _ _ _ Hwp eq_refl Es _ _ (ev_start _ _) U) as (S&cv&cu&f&V&Q&Hf&D0&D1&D2&_).
  exists (mkkm th (k_vary k) (k_noscale k) (Some b) (k_model k) (a_stamp b)), b.
  split; [reflexivity|]. split; [exists a0; split; [exact Es|exact (ev_step _ a0 th a0 b (ev_start _ _) U)]|].
  pose proof Hwp as (G1&G2&G3&G4&G5&_&G7&_). cbn [cfg3 c_opt c_ins c_gal o_nsub i_pix g_rows g_wave] in G1, G3, G4, G5.
  revert S D1 D2. destruct (setup_model_grid (cfg3 c) th) as [[g w]|e] eqn:Eg; [|unfold setup_calcs in Es; rewrite Eg in Es; discriminate].
  assert (SG : s_grid (a_su a0) = g).
  { unfold setup_calcs in Es. rewrite Eg in Es. unfold bind in Es. injection Es as <-. reflexivity. }
  rewrite SG. intros S D1 D2.
  destruct (cfg3_square c th g w G1 G3 G4 Eg) as (N1&N2&N3).
  assert (PY : padY g = pad) by (destruct (setup_fields _ _ _ _ Eg) as (_&_&_&_&_&_&F7&_&_&F10&_); rewrite F10, F7; reflexivity).
  assert (R : forall P : kinmodel * res (arr3 fl) -> Prop,
     P (mkkm th (k_vary k) (k_noscale k) (Some b) (k_model k) (a_stamp b), rebin3 cv (length l) (n + 2 * pad) (n + 2 * pad)) -> P (km_make3D c tf k)).
  { intros P HP. unfold km_make3D. rewrite n_free_param_nfree, Ht, Nat.eqb_refl. cbn [negb]. rewrite Eu. rewrite F.
    unfold aper_new. rewrite Es, Eb. unfold cube3. rewrite V, S, SG, N3, PY.
    fold n. rewrite G5, map_length. exact HP. }
  assert (P0 : (0 < dim0 cv)%nat) by (rewrite D0; nia).
  assert (P1 : (0 < dim1 cv)%nat) by (rewrite D1, N1; nia).
  assert (P2 : (0 < dim2 cv)%nat) by (rewrite D2, N2, N1; nia).
  pose proof (rebin3_iff cv (length l) (n + 2 * pad) (n + 2 * pad) P0 P1 P2) as I.
  split.
  - intros (q&Hq). assert (X : exists bb, rebin3 cv (length l) (n + 2 * pad) (n + 2 * pad) = Ok bb).
    { apply I. split; [unfold n; lia|]. split; [eauto|]. rewrite D1, D2, N2, N1. split; exists q; exact Hq. }
    destruct X as [bb Hbb]. exists bb. apply R. rewrite Hbb. split; [reflexivity|].
    unfold rebin3 in Hbb. destruct (_ || _); [discriminate|]. destruct (Nat.eqb _ _); [|discriminate]. injection Hbb as <-. auto.
  - intros Hn. apply R. f_equal. destruct (rebin3 cv (length l) (n + 2 * pad) (n + 2 * pad)) as [bb|e] eqn:Hbb.
    + exfalso. apply Hn. destruct I as [I _]. destruct I as (_&_&(q&Hq)&_); [eauto|]. exists q. rewrite <- Hq, D1, N1. reflexivity.
    + unfold rebin3 in Hbb. destruct (_ || _); [now injection Hbb as <-|]. destruct (Nat.eqb _ _); [discriminate|]. now injection Hbb as <-.
Qed.

(* once an aperture model exists, make_3D_int_model never returns *)
Lemma make3D_again c k tf a : k_aper k = Some a -> length (k_vary k) = length (k_theta k) ->
  exists e, snd (km_make3D c tf k) = Err e /\
    (length tf = nfree (k_vary k) ->
     snd (aper_update (cfg3 c) (fst (update_parameters (k_theta k) (k_vary k) tf)) a) = Ok tt -> e = UnboundLocalError).
Proof.
  intros Ek Hl. unfold km_make3D. rewrite n_free_param_nfree.
  destruct (Nat.eqb_spec (length tf) (nfree (k_vary k))); cbn [negb]; [|eexists; split; [reflexivity|congruence]].
  destruct (update_parameters_spec (k_theta k) (k_vary k) tf Hl) as (th'&Eu&_); [lia|]. rewrite Eu, Ek. cbn [fst].
  destruct (aper_update (cfg3 c) th' a) as [a' [u|e']]; cbn [snd]; eexists; (split; [reflexivity|congruence]).
Qed.

(* update_3D_int_model returns the unconvolved cube on the padded working grid *)
Lemma update3D_value c k k' tf a cu : k_aper k = Some a -> length (k_vary k) = length (k_theta k) ->
  km_update3D c tf k = (k', Ok cu) ->
  exists a', aper_update (cfg3 c) (fst (update_parameters (k_theta k) (k_vary k) tf)) a = (a', Ok tt) /\
    k_aper k' = Some a' /\ a_cube a' = Some cu.
Proof.
  intros Ek Hl. unfold km_update3D. rewrite n_free_param_nfree.
  destruct (Nat.eqb_spec (length tf) (nfree (k_vary k))); cbn [negb]; [|discriminate].
  destruct (update_parameters_spec (k_theta k) (k_vary k) tf Hl) as (th'&Eu&_); [lia|]. rewrite Eu, Ek. cbn [fst].
  destruct (aper_update (cfg3 c) th' a) as [a' [[]|e']]; [|discriminate].
  destruct (a_cube a') as [cu'|] eqn:Ec; [|discriminate]. intros X. injection X as <- <-. exists a'. auto.
Qed.
Lemma update3D_shape c k k' tf a cu th l a0 : k_aper k = Some a -> length (k_vary k) = length (k_theta k) ->
  well_posed (cfg3 c) th l -> setup_calcs (cfg3 c) th = Ok a0 -> evaluated (cfg3 c) a0 a ->
  km_update3D c tf k = (k', Ok cu) ->
  let n := g_rows (c_gal c) in
  let pad := nat_of_round (i_fwhm (c_ins c) * o_pad (c_opt c) / (i_pix (c_ins c) / INR (o_nsub (c_opt c)))) in
  dim1 cu = (n * o_nsub (c_opt c) + 2 * pad)%nat /\ dim2 cu = (n * o_nsub (c_opt c) + 2 * pad)%nat.
Proof.
  intros Ek Hl Hwp Es He E n pad. destruct (update3D_value _ _ _ _ _ _ Ek Hl E) as (a'&U&_&Q).
  destruct (cube_of_eval _ _ _ _ _ Hwp eq_refl Es _ _ He U) as (S&cv&cu'&f&V&Q'&Hf&D0&D1&D2&C0&C1&C2).
  assert (cu' = cu) by congruence. subst cu'.
  pose proof Hwp as (G1&G2&G3&G4&G5&_&G7&_). cbn [cfg3 c_opt c_ins c_gal o_nsub i_pix g_rows g_wave] in G1, G3, G4, G5.
  destruct (setup_model_grid (cfg3 c) th) as [[g w]|e] eqn:Eg; [|unfold setup_calcs in Es; rewrite Eg in Es; discriminate].
  assert (SG : s_grid (a_su a0) = g).
  { unfold setup_calcs in Es. rewrite Eg in Es. unfold bind in Es. injection Es as <-. reflexivity. }
  rewrite SG in *. destruct (cfg3_square c th g w G1 G3 G4 Eg) as (N1&N2&N3).
  destruct (setup_fields _ _ _ _ Eg) as (_&_&_&_&_&_&F7&_&_&F10&_&F12&F13&_).
  assert (PY : padY g = pad) by (rewrite F10, F7; reflexivity).
  rewrite C1, C2, F12, F13, N2, N3, N1, PY. auto.
Qed.
