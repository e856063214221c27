From Coq Require Import Reals Lra List Bool Arith ZArith Lia.
From Verif Require Import PyFloat PyBase Arr PyNum MParams MKernels MAper2D SParams SKernels SAper2D SLos SLos2 PParams PAper2D PAper2DHist PAper2DGrid PAper2DShape PAper2DOk PAper2DVal PAper2DGeo PAper2DEx PKernels PKernels2 PLine PLos2.
Import ListNotations.
Local Open Scope R_scope.

Lemma mean_step l : (2 <= length l)%nat -> average (diffs (map Fin l)) = Fin ((last l 0 - hd 0 l) / (INR (length l) - 1)).
Proof.
  intros H. destruct l as [|x [|y l]]; [cbn in H; lia|cbn in H; lia|]. rewrite avg_step. do 2 f_equal.
  cbn [length]. rewrite (S_INR (S (length l))). lra.
Qed.

(* the two dispersion thresholds *)
Lemma sigma_thresholds c th a0 l lam : setup_calcs c th = Ok a0 -> g_wave (c_gal c) = map Fin l -> (2 <= length l)%nat ->
  o_spec (c_opt c) = Wave -> lam0_primary (s_grid (a_su a0)) = Fin lam -> lam <> 0 ->
  (o_adapt (c_opt c) = true -> o_factor (c_opt c) <> 0) ->
  let pix := pixel_velocity l lam / (235 / 100) in
  s_up (a_su a0) = (if o_adapt (c_opt c) then Some (Fin pix) else None) /\
  s_floor (a_su a0) = (if o_floor (c_opt c) then Some (Fin (if o_adapt (c_opt c) then 3 / 4 * (pix / o_factor (c_opt c)) else pix)) else None).
Proof.
  intros E Hl L Hs Hlam Nl Nf pix. unfold setup_calcs in E. destruct (setup_model_grid c th) as [[g w]|] eqn:Hg; [|discriminate].
  cbn [bind] in E. apply Ok_inj in E. subst a0. cbn [a_su s_grid s_up s_floor] in *.
  destruct (setup_fields _ _ _ _ Hg) as (_&_&_&_&_&_&_&_&_&_&_&_&_&_&_&_&_&_&_&_&_&_&F23). rewrite F23. cbn [w_d]. rewrite Hl, mean_step, Hlam by exact L.
  assert (P : forall d, fdiv (fmul (fdiv (Fin d) (Fin lam)) (Fin c_kms)) (Fin (235 / 100)) = Fin (d / lam * c_kms / (235 / 100))).
  { intros d. rewrite fdiv_Fin by exact Nl. cbn [fmul]. now rewrite fdiv_Fin by lra. }
  unfold thresholds. rewrite Hs. destruct (o_adapt (c_opt c)), (o_floor (c_opt c)); cbn [andb negb fst snd]; rewrite ?P; (split; [reflexivity|]); try reflexivity.
  specialize (Nf eq_refl). rewrite (fdiv_Fin _ (o_factor (c_opt c))) by exact Nf. rewrite fdiv_Fin by exact Nl. cbn [fmul]. rewrite fdiv_Fin by lra.
  do 2 f_equal. unfold pix, pixel_velocity. change light_speed with c_kms. field.
  assert (1 < INR (length l)) by (apply (lt_INR 1); lia). repeat split; auto; lra.
Qed.

(* when the wavelength grid is refined *)
Lemma refined_iff c th a0 a l lam f sg : setup_calcs c th = Ok a0 -> g_wave (c_gal c) = map Fin l -> (2 <= length l)%nat -> increasing l ->
  o_spec (c_opt c) = Wave -> lam0_primary (s_grid (a_su a0)) = Fin lam -> lam <> 0 ->
  o_adapt (c_opt c) = true -> (2 <= f)%nat -> o_factor (c_opt c) = INR f ->
  p_ndisp (c_prof c) = 1%nat -> nth_error th (p_nvel (c_prof c)) = Some (Fin sg) ->
  bindS (update_theta c) (fun _ => check_do_upsample_wave c) a0 = (a, Ok tt) ->
  (w_n (a_wv a) = (length l * f)%nat \/ w_n (a_wv a) = length l) /\
  (w_n (a_wv a) <> length l <-> Rabs sg < pixel_velocity l lam / (235 / 100)).
Proof.
  intros Es Hl L Hinc Hs Hlam Nl Ha F2 Hf Hnd Hsg E.
  destruct (sigma_thresholds c th a0 l lam Es Hl L Hs Hlam Nl) as [Up _].
  { intros _. rewrite Hf. apply not_0_INR. lia. }
  rewrite Ha in Up.
  assert (exists w, s_real (a_su a0) = Some w /\ a_wv a0 = w /\ w_arr w = map Fin l /\ w_n w = length l /\ w_d w = average (diffs (map Fin l)) /\ a_theta a0 = th) as (w&R1&R2&R3&R3'&R4&R5).
  { unfold setup_calcs in Es. destruct (setup_model_grid c th) as [[g w]|] eqn:Hg; [|discriminate]. cbn [bind] in Es. apply Ok_inj in Es. subst a0.
    rewrite Ha. exists w. destruct (setup_fields _ _ _ _ Hg) as (_&_&_&_&_&_&_&_&_&_&_&_&_&_&_&_&_&_&_&_&_&_&F23). rewrite F23.
    cbn [a_su s_real a_wv w_arr w_d w_n a_theta]. rewrite Hl, map_length. repeat split. }
  unfold update_theta, modS in E. unfold bindS at 1 in E. rewrite R5, Hnd in E.
  set (a1 := set_prof _ _ a0) in E.
  assert (D : a_disp a1 = [Fin sg]).
  { unfold a1. cbn [set_prof a_disp]. apply nth_error_split in Hsg. destruct Hsg as (l1&l2&->&<-). rewrite skipn_app, skipn_all, Nat.sub_diag. reflexivity. }
  destruct (Rlt_le_dec (Rabs sg) (pixel_velocity l lam / (235 / 100))) as [T|T].
  - destruct (upsample_triggered c (a_su a0) w a1 l f eq_refl R1 R2) as (a'&E'&_&_&_&_&_&N1&_); auto; try lia.
    { rewrite D, Up. cbn [abs_lt_truth fabs fltb]. now rewrite (proj2 (Rltb_true _ _) T). }
    rewrite E' in E. inversion E. subst a'. rewrite N1. split; [now left|]. split; [intros _; exact T|]. intros _. nia.
  - rewrite (upsample_not_triggered c a1 sg _ D Up T) in E. inversion E. subst a. unfold a1. cbn [set_prof a_wv]. rewrite R2, R3'.
    split; [now right|]. split; [congruence|lra].
Qed.

Lemma getz_tail {A} (x y : A) (pre post : list A) k : (1 <= k <= length post)%nat -> getz (pre ++ x :: post) (- Z.of_nat k) = getz (pre ++ y :: post) (- Z.of_nat k).
Proof.
  intros H. assert (L : forall u, length (pre ++ u :: post) = (length pre + S (length post))%nat) by (intros; rewrite app_length; reflexivity).
  rewrite (getz_neg _ x) by (rewrite L; lia). rewrite (getz_neg (pre ++ y :: post) x) by (rewrite L; lia). rewrite !L. f_equal.
  rewrite !app_nth2 by lia. replace (length pre + S (length post) - k - length pre)%nat with (S (length post - k)) by lia. reflexivity.
Qed.

Lemma sigma_step c pre sg F B : (o_floor (c_opt c) = true -> s_floor (a_su B) = Some (Fin F)) ->
  let used := if o_floor (c_opt c) then (if Rltb (Rabs sg) F then F else if o_abs (c_opt c) then Rabs sg else sg)
              else if o_abs (c_opt c) then Rabs sg else sg in
  sigma_options c (set_prof pre [Fin sg] B) = (set_prof pre [Fin used] (set_prof pre [Fin sg] B), Ok tt).
Proof.
  destruct B as [su t0 v0 d0 w0 dv iw cu co ou mo st]. cbn [a_su]. intros Hfl. cbv zeta. unfold sigma_options, set_prof; ub.
  destruct (o_abs (c_opt c)), (o_floor (c_opt c)); try reflexivity;
  cbv beta iota delta [a_su a_theta a_vel a_disp a_wv a_dvel a_idw a_cube a_conv a_out a_model a_stamp map fabs abs_lt_truth];
  rewrite (Hfl eq_refl); unfold fltb; rewrite ?Rabs_Rabsolu; destruct (Rltb (Rabs sg) F); reflexivity.
Qed.

Lemma upd_step c (k : unit -> ST aper unit) a : bindS (update_theta c) k a =
  k tt (set_prof (firstn (p_nvel (c_prof c)) (a_theta a)) (firstn (p_ndisp (c_prof c)) (skipn (p_nvel (c_prof c)) (a_theta a))) a).
Proof. reflexivity. Qed.

Lemma sigma_used c pre post sg F a0 b :
  let th := pre ++ Fin sg :: post in
  length pre = p_nvel (c_prof c) -> (2 <= length post)%nat -> p_ndisp (c_prof c) = 1%nat ->
  setup_calcs c th = Ok a0 -> (o_floor (c_opt c) = true -> s_floor (a_su a0) = Some (Fin F)) ->
  cube_run c a0 = (b, Ok tt) ->
  let used := if o_floor (c_opt c) then (if Rltb (Rabs sg) F then F else if o_abs (c_opt c) then Rabs sg else sg)
              else if o_abs (c_opt c) then Rabs sg else sg in
  exists a0' b', setup_calcs (plain_sigma c) (pre ++ Fin used :: post) = Ok a0' /\
    cube_run (plain_sigma c) a0' = (b', Ok tt) /\
    a_cube b' = a_cube b.
Proof.
  intros th Lp L2 Hnd Es Hfl Eb used. unfold cube_run in *. set (th' := pre ++ Fin used :: post).
  assert (Eg : setup_model_grid (plain_sigma c) th' = setup_model_grid c th).
  { unfold setup_model_grid. unfold plain_sigma at 1 2 3. cbn [c_gal c_ins c_opt c_prof o_nsub o_pad o_xc o_spec].
    change (-1)%Z with (- Z.of_nat 1)%Z. change (-2)%Z with (- Z.of_nat 2)%Z. unfold th, th'.
    rewrite (getz_tail (Fin used) (Fin sg) pre post 1) by lia. rewrite (getz_tail (Fin used) (Fin sg) pre post 2) by lia. reflexivity. }
  pose proof Es as Es1. unfold setup_calcs in Es1 |- *. rewrite Eg. destruct (setup_model_grid c th) as [[g w]|] eqn:Hg; [|discriminate].
  cbn [bind] in Es1 |- *. apply Ok_inj in Es1. eexists. 
  assert (SL : forall x, firstn (p_nvel (c_prof c)) (pre ++ x :: post) = pre /\ firstn 1 (skipn (p_nvel (c_prof c)) (pre ++ x :: post)) = [x]).
  { intros x. rewrite <- Lp, firstn_app, firstn_all, Nat.sub_diag, skipn_app, skipn_all, Nat.sub_diag. cbn. now rewrite app_nil_r. }
  assert (Eb2 : exists b', bindS (update_theta (plain_sigma c)) (fun _ => calculate_spectral_cube (plain_sigma c))
     (mkaper (mksetup g (fst (thresholds (c_opt (plain_sigma c)) (w_d w) (lam0_primary g))) (snd (thresholds (c_opt (plain_sigma c)) (w_d w) (lam0_primary g)))
         (if o_adapt (c_opt (plain_sigma c)) then Some w else None)) th' [] [] w None IdwNone None None None None (make_stamp (c_ins (plain_sigma c)) g)) = (b', Ok tt) /\ a_cube b' = a_cube b).
  2: { destruct Eb2 as (b'&E1&E2). exists b'. split; [reflexivity|]. split; [exact E1|exact E2]. }
  subst a0. revert Eb. rewrite !upd_step. cbn [a_theta]. change (c_prof (plain_sigma c)) with (c_prof c).
  rewrite Hnd. unfold th, th'. destruct (SL (Fin sg)) as [-> ->]. destruct (SL (Fin used)) as [-> ->].
  set (A := set_prof pre [Fin sg] _). set (A' := set_prof pre [Fin used] _).
  rewrite !calc_unfold. unfold calc_tail.
  assert (SO : sigma_options c A = (set_prof pre [Fin used] A, Ok tt)).
  { apply sigma_step. exact Hfl. }
  assert (SO' : sigma_options (plain_sigma c) A' = (A', Ok tt)) by reflexivity.
  rewrite (bindS_Ok _ _ _ _ _ SO), (bindS_Ok _ _ _ _ _ SO'). unfold calc_tail2.
  change (a_disp (set_prof pre [Fin used] A)) with [Fin used]. change (a_disp A') with [Fin used].
  change (c_gal (plain_sigma c)) with (c_gal c). change (c_prof (plain_sigma c)) with (c_prof c). change (c_ins (plain_sigma c)) with (c_ins c).
  change (o_spec (c_opt (plain_sigma c))) with (o_spec (c_opt c)).
  assert (SC : shift_cache (plain_sigma c) = shift_cache c) by reflexivity.
  assert (T3 : calc_tail3 (plain_sigma c) = calc_tail3 c) by reflexivity.
  assert (VC : V_cube (plain_sigma c) A' = V_cube c A) by reflexivity. rewrite SC, T3, VC. clear SC T3 VC SO SO'.
  set (V := V_cube c A). clearbody V. change (s_grid (a_su A)) with g. change (s_grid (a_su A')) with g.
  unfold shift_cache, calc_tail3, shift_V, A, A', set_prof, set_dvel, set_cube.
  cbv beta iota zeta delta [bindS getS putS modS liftR ret raise a_su a_theta a_vel a_disp a_wv a_dvel a_idw a_cube a_conv a_out a_model a_stamp s_grid].
  change (c_ins (plain_sigma c)) with (c_ins c).
  destruct (o_shift (c_opt c) || o_eff (c_opt c)) eqn:Eo; cbv beta iota.
  - destruct (eff_inst_res c g (make_stamp (c_ins c) g)) as [[v ds]|]; [|discriminate]. cbn [fst snd]. cbv beta iota.
    match goal with |- context [if o_shift (c_opt c) then ?x else ?y] => destruct (if o_shift (c_opt c) then x else y) as [V2|]; [|discriminate] end. cbv beta iota.
    destruct (add_sigma_collapse_z _ _ _ _ _ _ _ _ _ _ _ _ _ _ _) as [cube|]; [|discriminate].
    intros E. apply pair_equal_spec in E. destruct E as [<- _]. eexists. split; reflexivity.
  - apply orb_false_elim in Eo. destruct Eo as [-> _]. cbv beta iota.
    destruct (add_sigma_collapse_z _ _ _ _ _ _ _ _ _ _ _ _ _ _ _) as [cube|]; [|discriminate].
    intros E. apply pair_equal_spec in E. destruct E as [<- _]. eexists. split; reflexivity.
Qed.

(* two pixels of 183 km/s each at the line; dispersion of 10 km/s, floor and refinement switched on or off *)
Definition f_ins : instr := mkinstr 1 1 0 (Fin 30) false (fun _ _ => Fin 1).
Definition f_cfg (adapt flo : bool) : cfg := mkcfg u_gal f_ins (mkopts 1 0 true false false 0 Wave true adapt 3 flo) u_prof.
Definition f_th : list fl := [Fin 200; Fin (1/2)] ++ Fin (-10) :: [Fin 0; Fin 1].

Lemma f_posed ad fo : well_posed (f_cfg ad fo) f_th [13126; 13134].
Proof.
  unfold well_posed. cbn. repeat split; try lia; try lra; try discriminate; auto.
  - intros i j H. destruct i as [|[|i]], j as [|[|j]]; cbn in *; try lia; lra.
  - intros _. exists 3%nat. split; [lia|cbn; lra].
Qed.

Lemma f_pix : pixel_velocity [13126; 13134] 13130 / (235/100) > 10.
Proof. unfold pixel_velocity, light_speed. cbn. lra. Qed.

Lemma f_setup ad fo : exists a0, setup_calcs (f_cfg ad fo) f_th = Ok a0 /\ lam0_primary (s_grid (a_su a0)) = Fin 13130.
Proof.
  destruct (setup_ok _ _ _ (f_posed ad fo)) as (g&w&Hg). unfold setup_calcs. rewrite Hg. cbn [bind]. eexists. split; [reflexivity|]. cbn [a_su s_grid].
  destruct (setup_fields _ _ _ _ Hg) as (_&_&_&_&_&_&_&_&_&_&_&_&_&_&_&_&_&F18&_).
  pose proof (getz_neg f_th NaN 1 ltac:(cbn; lia)) as G. change (- Z.of_nat 1)%Z with (-1)%Z in G. rewrite G in F18. cbn in F18.
  destruct (setup_cubes _ _ _ _ Hg) as (_&CL&_). destruct (CL eq_refl) as (r0&Er0&EL). cbn in Er0. injection Er0 as <-.
  rewrite EL. replace (gz g) with (Fin 1) by congruence. cbn [fadd fmul]. f_equal. lra.
Qed.

Lemma f_refined : exists a0 a, setup_calcs (f_cfg true false) f_th = Ok a0 /\ lam0_primary (s_grid (a_su a0)) = Fin 13130 /\
  bindS (update_theta (f_cfg true false)) (fun _ => check_do_upsample_wave (f_cfg true false)) a0 = (a, Ok tt) /\ w_n (a_wv a) = 6%nat.
Proof.
  destruct (f_setup true false) as (a0&Es&El). 
  assert (E : exists a, bindS (update_theta (f_cfg true false)) (fun _ => check_do_upsample_wave (f_cfg true false)) a0 = (a, Ok tt)).
  { destruct (sigma_thresholds _ _ _ [13126; 13134] 13130 Es eq_refl ltac:(cbn; lia) eq_refl El ltac:(lra)) as [Up _]; [cbn; intros; lra|].
    pose proof Es as Es'. unfold setup_calcs in Es'. destruct (setup_model_grid _ _) as [[g w]|] eqn:Hg; [|discriminate]. cbn [bind] in Es'. apply Ok_inj in Es'.
    destruct (setup_fields _ _ _ _ Hg) as (_&_&_&_&_&_&_&_&_&_&_&_&_&_&_&_&_&_&_&_&_&_&F23).
    rewrite upd_step. set (a1 := set_prof _ _ a0).
    destruct (upsample_triggered (f_cfg true false) (a_su a0) w a1 [13126; 13134] 3 eq_refl) as (a'&E'&_); eauto; subst a0; try reflexivity; try lia.
    all: try (rewrite F23; reflexivity).
    all: try (cbn; lra).
    { cbn [a_su s_up] in Up |- *. unfold a1. cbn [set_prof a_disp].
      cbn [a_su s_up set_prof a_disp a_theta] . rewrite Up. cbn. rewrite (proj2 (Rltb_true _ _)); [reflexivity|]. pose proof f_pix. rewrite Rabs_left by lra. lra. }
    intros i j H. destruct i as [|[|i]], j as [|[|j]]; cbn in *; try lia; lra. }
  destruct E as (a&E). exists a0, a. repeat split; auto.
  destruct (refined_iff (f_cfg true false) f_th a0 a [13126; 13134] 13130 3 (-10) Es eq_refl) as [[N|N] I]; auto; cbn; try lra; try lia.
  { intros i j H. destruct i as [|[|i]], j as [|[|j]]; cbn in *; try lia; lra. }
  exfalso. apply I; [|exact N]. pose proof f_pix. rewrite Rabs_left by lra. lra.
Qed.

Lemma f_floor : exists a0 b F, setup_calcs (f_cfg false true) f_th = Ok a0 /\ s_floor (a_su a0) = Some (Fin F) /\ Rabs (-10) < F /\
  cube_run (f_cfg false true) a0 = (b, Ok tt).
Proof.
  destruct (f_setup false true) as (a0&Es&El).
  destruct (sigma_thresholds _ _ _ [13126; 13134] 13130 Es eq_refl ltac:(cbn; lia) eq_refl El ltac:(lra)) as [_ Fl]; [discriminate|].
  cbn [c_opt f_cfg o_floor o_adapt] in Fl.
  pose proof Es as Es'. unfold setup_calcs in Es'. destruct (setup_model_grid _ _) as [[g w]|] eqn:Hg; [|discriminate]. cbn [bind] in Es'. apply Ok_inj in Es'.
  destruct (calc_ok (f_cfg false true) (set_prof (firstn (p_nvel (c_prof (f_cfg false true))) (a_theta a0))
     (firstn (p_ndisp (c_prof (f_cfg false true))) (skipn (p_nvel (c_prof (f_cfg false true))) (a_theta a0))) a0) (Fin (-10))) as [b Eb]; try reflexivity.
  { discriminate. }
  { destruct (setup_fields _ _ _ _ Hg) as (F1&F2&F3&F4&F5&F6&F7&F8&F9&F10&F11&F12&F13&F14&F15&F16&F17&F18&F19&F20&F21&F22&F23). subst a0.
    cbn [set_prof a_su s_grid]. cbn [c_gal f_cfg u_gal g_rows] in F3, F4. change (o_nsub (c_opt (f_cfg false true))) with 1%nat in F1, F4.
    unfold geom_ok. rewrite F3. change (o_nsub (c_opt (f_cfg false true))) with 1%nat. repeat split; auto; lia. }
  { destruct (setup_fields _ _ _ _ Hg) as (F1&F2&F3&F4&F5&F6&F7&F8&F9&F10&F11&F12&F13&F14&F15&F16&F17&F18&F19&F20&F21&F22&F23). subst a0.
    unfold wave_ok. rewrite F23. cbn. auto. }
  { subst a0. reflexivity. }
  { intros _. cbn [set_prof a_su]. rewrite Fl. discriminate. }
  exists a0, b. eexists. split; [exact Es|]. split; [exact Fl|]. split; [|unfold cube_run; rewrite upd_step; exact Eb]. pose proof f_pix. rewrite Rabs_left by lra. lra.
Qed.
