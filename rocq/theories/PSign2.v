(* Proofs: two evaluations whose dispersions differ in sign, stage by stage and over whole fits. *)
From Coq Require Import Reals Lra Lia List Bool Arith ZArith FunctionalExtensionality.
From Verif Require Import PyFloat PyBase Arr PyNum MParams MKernels MAper2D SParams SMirror SSign PParams PKernels PAper2D PMirror PMirror2 PBright PBright2 PSign.
Import ListNotations.
Local Open Scope R_scope.

Definition usd (d d' : list fl) : Prop := us (map fneg) d d'.
Notation o2 := (option_map N2). Notation o3 := (option_map N3).
Lemma us_some {A} (f : A -> A) x y : us f x y -> us (option_map f) (Some x) (Some y).
Proof. intros [->| ->]; [left|right]; reflexivity. Qed.
Lemma us_opt {A} (f : A -> A) x y : us (option_map f) x y -> match x, y with Some a, Some b => us f a b | None, None => True | _, _ => False end.
Proof. intros [->| ->]; destruct x; cbn; auto; [now left|now right]. Qed.

Lemma nth_error_firstn_lt {A} (l : list A) : forall n i, (i < n)%nat -> nth_error (firstn n l) i = nth_error l i.
Proof. induction l as [|x l IH]; intros [|n] [|i] H; try lia; try reflexivity. cbn. apply IH. lia. Qed.

Section Sign.
Variable c : cfg.
Hypothesis Hodd : odd_profile (p_disp (c_prof c)).
Definition U (x y : aper) : Prop :=
  exists th d cu cv ou mo, y = mkaper (a_su x) th (a_vel x) d (a_wv x) (a_dvel x) (a_idw x) cu cv ou mo (a_stamp x) /\
    usd (a_disp x) d /\ us o3 (a_cube x) cu /\ us o3 (a_conv x) cv /\ us o2 (a_out x) ou /\ us o2 (a_model x) mo.
Definition Ur {A} (p q : aper * res A) : Prop := U (fst p) (fst q) /\ snd p = snd q.
Definition Um {A} (m m' : ST aper A) : Prop := forall x y, U x y -> Ur (m x) (m' y).
Lemma Um_bind {A D} (m m' : ST aper A) (f f' : A -> ST aper D) : Um m m' -> (forall r, Um (f r) (f' r)) -> Um (bindS m f) (bindS m' f').
Proof.
  intros H1 H2 x y K. unfold bindS. destruct (H1 x y K) as [P Q]. destruct (m x) as [x1 [r|e]], (m' y) as [y1 [r'|e']]; cbn [fst snd] in *; try discriminate.
  - injection Q as <-. now apply H2.
  - injection Q as <-. now split.
Qed.
Lemma Um_ret : Um (ret tt) (ret tt). Proof. intros x y H. now split. Qed.
Ltac op := intros [q1 q2 q3 q4 q5 q6 q7 q8 q9 q10 q11 q12] y (th & d & cu & cv & ou & mo & -> & HD & HC & HV & HO & HM);
  cbn [a_su a_theta a_vel a_disp a_wv a_dvel a_idw a_cube a_conv a_out a_model a_stamp] in *; ub; cl0
with cl0 := unfold set_theta, set_prof, set_wv, set_dvel, set_cube, set_conv, set_out, set_model; cbn [a_su a_theta a_vel a_disp a_wv a_dvel a_idw a_cube a_conv a_out a_model a_stamp fst snd].
Ltac fin := split; cbn [fst snd]; [eexists _, _, _, _, _, _; split; [reflexivity|]; cbn [a_su a_theta a_vel a_disp a_wv a_dvel a_idw a_cube a_conv a_out a_model a_stamp]; repeat split; first [assumption | now left]|reflexivity].

Lemma u_truth d d' v : usd d d' -> abs_lt_truth d' v = abs_lt_truth d v.
Proof.
  intros [->| ->]; [reflexivity|]. unfold abs_lt_truth. destruct v; [|reflexivity]. destruct d as [|x [|y l]]; cbn [map]; try reflexivity. now rewrite n_abs.
Qed.
Lemma um_check : Um (check_do_upsample_wave c) (check_do_upsample_wave c).
Proof.
  op. unfold check_do_upsample_wave. ub. cl0. rewrite (u_truth _ _ _ HD). destruct (abs_lt_truth _ _) as [[]|]; [|fin|fin].
  destruct (s_real q1) as [re|]; [|fin]. destruct (np_min _); [|cl0; fin]. destruct (np_max _); [|cl0; fin]. destruct (int_round _); [|cl0; fin]. destruct (_ <? 0)%Z; cl0; fin.
Qed.
Lemma um_sigma : Um (sigma_options c) (sigma_options c).
Proof.
  op. assert (HA : us (map fneg) (map fabs q4) (map fabs d)).
  { left. destruct HD as [->| ->]; [reflexivity|]. rewrite map_map. apply map_ext. intros. apply n_abs. }
  unfold sigma_options. destruct (o_abs (c_opt c)), (o_floor (c_opt c)); ub; cl0; try fin.
  - rewrite (u_truth _ _ _ HA). destruct (abs_lt_truth _ _) as [[]|]; [destruct (s_floor q1)|..]; cl0; fin.
  - rewrite (u_truth _ _ _ HD). destruct (abs_lt_truth _ _) as [[]|]; [destruct (s_floor q1)|..]; cl0; fin.
Qed.
Lemma um_cache : Um (shift_cache c) (shift_cache c).
Proof.
  op. unfold shift_cache. destruct (_ || _); [|fin]. ub. cl0.
  destruct q6, q7; cl0; try fin; destruct (eff_inst_res _ _ _); cl0; fin.
Qed.
Lemma add_sigma_neg I V sg wave z rest ratio nW nz ny nx dz I4 wref sp :
  ro N3 (add_sigma_collapse_z I V sg wave z rest ratio nW nz ny nx dz I4 wref sp) (add_sigma_collapse_z I V (N3 sg) wave z rest ratio nW nz ny nx dz I4 wref sp).
Proof.
  assert (E : map fabs (flat_list3 (N3 sg)) = map fabs (flat_list3 sg)).
  { assert (M : forall (f g : nat -> list fl) l, (forall i, map fabs (f i) = map fabs (g i)) -> map fabs (flat_map f l) = map fabs (flat_map g l)).
    { intros f g l H. induction l as [|i l IH]; [reflexivity|]. cbn [flat_map]. now rewrite !map_app, H, IH. }
    unfold flat_list3, map3. cbn [dim0 dim1 dim2 at3]. apply M. intros m. apply M. intros j. rewrite !map_map. apply map_ext. intros l. apply n_abs. }
  unfold add_sigma_collapse_z. cbv zeta. rewrite E. destruct sp.
  - destruct (Nat.eqb _ 0); [now left|]. destruct (np_max _) as [mx|]; [|reflexivity]. cbn [bind]. destruct (_ && _); [reflexivity|]. destruct (Nat.ltb _ _); [reflexivity|]. cbn [ro].
    destruct (fgtb mx (Fin 0)); [|now left]. right. unfold map3 at 2. cbn [dim0 dim1 dim2 at3]. apply mk3_ext. intros w j l. rewrite <- n_sumn. apply fsumn_ext. intros i _.
    rewrite n_gauss; [|intros x; now rewrite n_div, n_mul]. apply n_mul.
  - destruct (np_max _) as [mx|]; [|reflexivity]. cbn [bind]. destruct (fgtb mx (Fin 0)); [|reflexivity]. destruct (_ && _); [|reflexivity].
    right. now apply n_gauss.
  - now left.
Qed.
Lemma um_tail_b V g v1 v2 : usd v1 v2 -> Um (tail_b c V g v1) (tail_b c V g v2).
Proof.
  intros Q. op. unfold tail_b. ub. cl0.
  match goal with |- context [shift_V c ?a V] => assert (ES : forall b, a_dvel b = a_dvel a -> a_su b = a_su a -> shift_V c b V = shift_V c a V) end.
  { intros b B1 B2. unfold shift_V. now rewrite B1, B2. }
  match goal with |- Ur _ (match shift_V c ?b V with _ => _ end) => rewrite (ES b eq_refl eq_refl) end. clear ES.
  destruct (shift_V c _ V) as [V2|e]; [|fin].
  match goal with |- context [add_sigma_collapse_z ?I ?W ?sg] =>
    assert (S1 : ro N3 (add_sigma_collapse_z I W sg (w_arr q5) (gz g) (g_rest (c_gal c)) (g_ratio (c_gal c)) (w_n q5) (nZ g) (nY g) (nX g) (Fin (delt_z g)) (w_I4 q5) (w_ref q5) (o_spec (c_opt c)))
       (add_sigma_collapse_z I W (mk3 (nZ g) (nY g) (nX g) (fun m j k => p_disp (c_prof c) v2 (at3 (r_cube g) m j k) (at3 (zint g) m j k))) (w_arr q5) (gz g) (g_rest (c_gal c)) (g_ratio (c_gal c)) (w_n q5) (nZ g) (nY g) (nX g) (Fin (delt_z g)) (w_I4 q5) (w_ref q5) (o_spec (c_opt c)))) end.
  { destruct Q as [->| ->]; [apply ro_refl|].
    replace (mk3 (nZ g) (nY g) (nX g) (fun m j k => p_disp (c_prof c) (map fneg v1) (at3 (r_cube g) m j k) (at3 (zint g) m j k)))
      with (N3 (mk3 (nZ g) (nY g) (nX g) (fun m j k => p_disp (c_prof c) v1 (at3 (r_cube g) m j k) (at3 (zint g) m j k)))).
    - apply add_sigma_neg.
    - unfold map3. cbn [dim0 dim1 dim2 at3]. apply mk3_ext. intros i j l. symmetry. apply Hodd. }
  destruct (add_sigma_collapse_z _ _ _ _ _ _ _ _ _ _ _ _ _ _ _) as [c1|e1], (add_sigma_collapse_z _ _ (mk3 _ _ _ (fun m j k => p_disp _ v2 _ _)) _ _ _ _ _ _ _ _ _ _ _ _) as [c2|e2]; cbn [ro] in S1; try contradiction.
  - apply us_some in S1. fin.
  - subst e2. fin.
Qed.
Lemma um_calc : Um (calculate_spectral_cube c) (calculate_spectral_cube c).
Proof.
  intros x y H. rewrite !calc_pieces.
  assert (E : V_cube c y = V_cube c x /\ s_grid (a_su y) = s_grid (a_su x)).
  { destruct H as (th & d & cu & cv & ou & mo & -> & _). split; reflexivity. }
  destruct E as [-> ->]. generalize (V_cube c x), (s_grid (a_su x)). intros V g.
  refine (Um_bind _ _ (fun _ => tail_a c V g) (fun _ => tail_a c V g) um_sigma _ x y H). intros _ b b' Hb.
  change (Ur (bindS (shift_cache c) (fun _ => tail_b c V g (a_disp b)) b) (bindS (shift_cache c) (fun _ => tail_b c V g (a_disp b')) b')).
  refine (Um_bind _ _ (fun _ => tail_b c V g (a_disp b)) (fun _ => tail_b c V g (a_disp b')) um_cache _ b b' Hb). intros _. apply um_tail_b.
  destruct Hb as (th & d & cu & cv & ou & mo & -> & Hd & _). exact Hd.
Qed.
Lemma um_conv : Um (convolve_spectral_cube_PSF c) (convolve_spectral_cube_PSF c).
Proof.
  op. unfold convolve_spectral_cube_PSF. ub. cl0. pose proof (us_opt _ _ _ HC) as K. destruct q8 as [k1|], cu as [k2|]; try contradiction; [|fin].
  pose proof (u_PSF k1 k2 (Fin (i_fwhm (c_ins c))) q12 K) as S1. destruct (PSF_convolve k1 _ _), (PSF_convolve k2 _ _); cbn [ro] in S1; try contradiction; cl0; [fin|subst; fin].
Qed.
Lemma um_trim : Um (trim_downsample_spectral_cube c) (trim_downsample_spectral_cube c).
Proof.
  op. unfold trim_downsample_spectral_cube. ub. cl0. destruct (i_slitmask _); [fin|]. pose proof (us_opt _ _ _ HV) as K. destruct q9 as [k1|], cv as [k2|]; try contradiction; [|fin].
  assert (D : dim0 k2 = dim0 k1 /\ dim1 k2 = dim1 k1 /\ dim2 k2 = dim2 k1) by (destruct K as [->| ->]; repeat split; reflexivity).
  destruct D as (-> & -> & ->). destruct (cut (dim1 k1) _ _) as [y0 ny]. destruct (cut (dim2 k1) _ _) as [x0 nx].
  set (t1 := mk3 (dim0 k1) ny nx (fun w j k => at3 k1 w (y0 + j) (x0 + k))). set (t2 := mk3 (dim0 k1) ny nx (fun w j k => at3 k2 w (y0 + j) (x0 + k))).
  assert (T : us N3 t1 t2). { destruct K as [->| ->]; [left|right]; reflexivity. }
  set (u1 := mk2 (dim0 k1) ny (fun w j => fmul (fsumn nx (fun k => at3 t1 w j k)) (Fin (delt_x (s_grid q1))))).
  set (u2 := mk2 (dim0 k1) ny (fun w j => fmul (fsumn nx (fun k => at3 t2 w j k)) (Fin (delt_x (s_grid q1))))).
  assert (W : us N2 u1 u2).
  { destruct T as [T|T]; [left|right]; unfold u2; rewrite T; [reflexivity|]. unfold u1, map2. cbn [rows cols at2]. apply mk2_ext. intros w j. rewrite <- n_mul. f_equal. apply n_sumn. }
  clearbody u1 u2 t1 t2. apply us_some in T. pose proof (us_some _ _ _ W) as W'. destruct (o_rebin _); [|cl0; fin].
  pose proof (u_rebin u1 u2 (w_n q5) (n_pix_y_whole (s_grid q1)) W) as S1. destruct (rebin2 u1 _ _), (rebin2 u2 _ _); cbn [ro] in S1; try contradiction; cl0.
  - apply us_some in S1. fin.
  - subst. fin.
Qed.
Lemma um_rest f : Um (inst_rest f) (inst_rest f).
Proof.
  op. unfold inst_rest. ub. cl0. destruct (f q7) as [mn|e]; [|fin]. unfold irun. destruct (fgtb mn (Fin 0)); [|fin]. cl0. pose proof (us_opt _ _ _ HO) as K.
  destruct q10 as [k1|], ou as [k2|]; try contradiction; [|fin]. ub. cl0.
  pose proof (u_inst k1 k2 (w_arr q5) q7 K) as S1. destruct (inst_convol_complete k1 _ _), (inst_convol_complete k2 _ _); cbn [ro] in S1; try contradiction; cl0.
  - apply us_some in S1. fin.
  - subst. fin.
Qed.
Lemma um_dvel w : Um (modS (fun a => set_dvel (a_dvel a) (IdwFloat w) a)) (modS (fun a => set_dvel (a_dvel a) (IdwFloat w) a)).
Proof. op. fin. Qed.
Lemma um_inst : Um (convolve_instrument_resolution c) (convolve_instrument_resolution c).
Proof.
  intros x y H. rewrite !inst_pieces. assert (E : s_grid (a_su y) = s_grid (a_su x)). { destruct H as (th & d & cu & cv & ou & mo & -> & _). reflexivity. }
  rewrite E. generalize (lam0_primary (s_grid (a_su x))). intros l. cbv zeta. revert x y H E.
  match goal with |- forall x y, U x y -> _ -> Ur (?f x) _ => assert (G : Um f f); [|intros x y H _; exact (G x y H)] end.
  destruct (o_shift (c_opt c)).
  - destruct (o_spec (c_opt c)); [|intros x y H; now split|]; (apply Um_bind; [destruct (o_eff (c_opt c)); cbn [negb]; [exact Um_ret|apply um_dvel]|intros []; apply um_rest]).
  - apply Um_bind; [apply um_dvel|intros []; apply um_rest].
Qed.
Lemma um_down : Um (downsample_to_real_wave c) (downsample_to_real_wave c).
Proof.
  op. unfold downsample_to_real_wave. ub. cl0. pose proof (us_opt _ _ _ HO) as K. destruct (s_real q1) as [re|]; [|fin]. destruct q10 as [k1|], ou as [k2|]; try contradiction; [|fin].
  pose proof (u_rebin k1 k2 (w_n re) (n_pix_y_whole (s_grid q1)) K) as S1. destruct (rebin2 k1 _ _), (rebin2 k2 _ _); cbn [ro] in S1; try contradiction; cl0.
  - apply us_some in S1. fin.
  - subst. fin.
Qed.
Lemma um_after : Um (after_theta c) (after_theta c).
Proof.
  unfold after_theta.
  repeat (apply Um_bind; [first [exact um_calc | exact um_conv | exact um_trim | exact um_inst
    | destruct (o_adapt (c_opt c)); [first [exact um_check | exact um_down] | exact Um_ret]]|intros []]).
  op. pose proof (us_opt _ _ _ HO) as K. destruct q10 as [k1|], ou as [k2|]; try contradiction; cl0; [|fin].
  assert (T : us o2 (Some (transpose k1)) (Some (transpose k2))). { destruct K as [->| ->]; [left|right]; reflexivity. }
  fin.
Qed.

(* from parameters *)
Variable n : nat.
Hypothesis Hn : p_nvel (c_prof c) = n.
Hypothesis Hd : p_ndisp (c_prof c) = 1%nat.
Definition par (th th' : list fl) : Prop := sign_at n th th' /\ (n + 3 <= length th)%nat.
Lemma par_slices th th' : par th th' -> firstn n th' = firstn n th /\ usd (firstn 1 (skipn n th)) (firstn 1 (skipn n th')).
Proof.
  intros [(L & E & S1) B]. split.
  - apply nth_error_ext. intros i. destruct (lt_dec i n) as [H|H].
    + rewrite !nth_error_firstn_lt by lia. symmetry. apply E. lia.
    + rewrite !(proj2 (nth_error_None _ _)); [reflexivity|rewrite firstn_length; lia|rewrite firstn_length; lia].
  - assert (P : forall l : list fl, firstn 1 (skipn n l) = match nth_error l n with Some x => [x] | None => [] end).
    { clear. intros l. revert l. induction n as [|m IH]; intros [|x l]; try reflexivity. cbn [skipn nth_error]. apply IH. }
    rewrite !P. destruct S1 as [->| ->]; [now left|]. right. destruct (nth_error th n); reflexivity.
Qed.
Lemma par_getz th th' i : par th th' -> (i = -1 \/ i = -2)%Z -> getz th' i = getz th i.
Proof.
  intros [(L & E & _) B] I. unfold getz. rewrite <- L. assert (X : (i <? 0)%Z = true) by (apply Z.ltb_lt; lia). rewrite X. destruct (0 <=? _)%Z; [|reflexivity].
  unfold getn. rewrite E; [reflexivity|]. lia.
Qed.
Lemma u_do th th' x y : U x y -> par th th' -> Ur (do_model_calcs c (set_theta th x)) (do_model_calcs c (set_theta th' y)).
Proof.
  intros H P. change (do_model_calcs c ?z) with (after_theta c (fst (update_theta c z))). apply um_after. destruct (par_slices _ _ P) as [P1 P2].
  destruct H as (t & d & cu & cv & ou & mo & -> & HD & HC & HV & HO & HM). unfold update_theta. ub. cl0. rewrite Hn, Hd, P1. eexists _, _, _, _, _, _. split; [reflexivity|]. cl0. repeat split; assumption.
Qed.
Lemma u_update th th' : par th th' -> Um (aper_update c th) (aper_update c th').
Proof. intros P x y H. exact (u_do th th' x y H P). Qed.
Lemma u_new th th' st : par th th' -> match aper_new c th st, aper_new c th' st with (s1, Ok x), (s2, Ok y) => s1 = s2 /\ U x y | (s1, Err e), (s2, Err e') => s1 = s2 /\ e = e' | _, _ => False end.
Proof.
  intros P. unfold aper_new.
  assert (E : setup_calcs c th' = rmap (set_theta th') (setup_calcs c th)).
  { unfold setup_calcs. assert (G : setup_model_grid c th' = setup_model_grid c th).
    { unfold setup_model_grid. cbv zeta. rewrite (par_getz th th' (-1) P), (par_getz th th' (-2) P) by auto. reflexivity. }
    rewrite G. destruct (setup_model_grid c th) as [[g w]|]; reflexivity. }
  rewrite E. destruct (setup_calcs c th) as [x|e] eqn:F; [|now split]. cbn [rmap].
  assert (X : set_theta th x = x).
  { unfold setup_calcs in F. destruct (setup_model_grid c th) as [[g w]|]; [|discriminate]. injection F as <-. reflexivity. }
  assert (R : Ur (do_model_calcs c (set_theta th x)) (do_model_calcs c (set_theta th' x))).
  { apply u_do; [|exact P]. destruct x. eexists _, _, _, _, _, _. split; [reflexivity|]. repeat split; now left. }
  rewrite X in R. destruct R as [R1 R2]. destruct (do_model_calcs c x) as [x1 [[]|e]], (do_model_calcs c (set_theta th' x)) as [y1 [[]|e']]; cbn [fst snd] in *; try discriminate.
  - split; [|exact R1]. destruct R1 as (t & d & cu & cv & ou & mo & -> & _). reflexivity.
  - injection R2 as <-. split; [|reflexivity]. destruct R1 as (t & d & cu & cv & ou & mo & -> & _). reflexivity.
Qed.
Lemma scale_neg d m : scale_model d (N2 m) = scale_model d m.
Proof.
  unfold scale_model. cbn [map2 rows cols]. destruct (negb _); [reflexivity|]. destruct (negb _); [reflexivity|]. destruct (negb _); [reflexivity|]. destruct (negb _); [reflexivity|].
  f_equal. apply mk2_ext. intros i j. cbn [at2].
  assert (R : scale_ratio d (N2 m) i = fneg (scale_ratio d m i)).
  { unfold scale_ratio. cbv zeta. cbn [at2 map2].
    replace (map (fun c0 => fdiv (fsq (fneg (at2 m i c0))) (fsq (at2 (ferr d) i c0))) (wh_nosky d)) with (map (fun c0 => fdiv (fsq (at2 m i c0)) (fsq (at2 (ferr d) i c0))) (wh_nosky d)) by (apply map_ext; intros; now rewrite n_sq).
    replace (fsum (map (fun c0 => fdiv (fmul (at2 (flux d) i c0) (fneg (at2 m i c0))) (fsq (at2 (ferr d) i c0))) (wh_nosky d)))
      with (fneg (fsum (map (fun c0 => fdiv (fmul (at2 (flux d) i c0) (at2 m i c0)) (fsq (at2 (ferr d) i c0))) (wh_nosky d)))).
    2:{ rewrite <- n_sum, map_map. f_equal. apply map_ext. intros q. now rewrite n_mul_r, n_div. }
    rewrite n_finite, <- n_div. f_equal. destruct (feqb _ _); [cbn; now rewrite Ropp_0|]. destruct (isfinite _); [reflexivity|]. cbn. now rewrite Ropp_0. }
  cbn [map2 rows cols at2] in R |- *. rewrite R. rewrite n_mul, n_mul_r, n_n. reflexivity.
Qed.

Definition kU (k k' : kinmodel) : Prop :=
  k_noscale k = false /\ length (k_vary k) = length (k_theta k) /\ par (k_theta k) (k_theta k') /\
  exists ap m, k' = mkkm (k_theta k') (k_vary k) (k_noscale k) ap m (k_stamp k) /\
    match k_aper k, ap with Some x, Some y => U x y | None, None => True | _, _ => False end.
Definition kUr (p q : kinmodel * res unit) : Prop := kU (fst p) (fst q) /\ snd p = snd q /\ (snd p = Ok tt -> k_model (fst p) = k_model (fst q)).
Lemma store_u k k' x y : kU k k' -> U x y -> kUr (store_model c k x) (store_model c k' y).
Proof.
  intros (N & L & P & ap & m & E & A) (th & d & cu & cv & ou & mo & -> & HD & HC & HV & HO & HM). destruct k as [kt kv kn ka km ks]. cbn [k_noscale k_vary k_theta k_aper k_stamp] in *. subst kn.
  destruct k' as [t' v' n' a' m' s']. cbn [k_theta] in *. injection E as -> -> -> -> ->.
  pose proof (us_opt _ _ _ HM) as K. unfold store_model. cbn [a_model k_noscale k_theta k_vary k_aper k_stamp]. destruct (a_model x) as [i1|], mo as [i2|]; try contradiction.
  - assert (S1 : scale_model (g_data (c_gal c)) i2 = scale_model (g_data (c_gal c)) i1) by (destruct K as [->| ->]; [reflexivity|apply scale_neg]). rewrite S1; clear S1.
    destruct (scale_model (g_data (c_gal c)) i1); (split; [split; [reflexivity|]; split; [exact L|]; split; [exact P|]; eexists _, _; split; [reflexivity|exact A]|]); (split; [reflexivity|]); intros Q; [reflexivity|discriminate Q].
  - split; [split; [reflexivity|]; split; [exact L|]; split; [exact P|]; eexists _, _; split; [reflexivity|exact A]|]. split; [reflexivity|]. intros Q; discriminate Q.
Qed.
Lemma update_aper_u k k' : kU k k' -> kUr (km_update_aper c k) (km_update_aper c k').
Proof.
  intros (N & L & P & ap & m & E & A). destruct k as [kt kv kn ka km ks]. cbn [k_noscale k_vary k_theta k_aper k_stamp] in *. subst kn.
  destruct k' as [t' v' n' a' m' s']. cbn [k_theta] in *. injection E as -> -> -> -> ->.
  unfold km_update_aper. cbn [k_aper k_theta k_vary k_noscale k_model k_stamp]. destruct ka as [x|], ap as [y|]; try contradiction.
  - destruct (u_update _ _ P x y A) as [R1 R2]. assert (ST : a_stamp (fst (aper_update c t' y)) = a_stamp (fst (aper_update c kt x))).
    { destruct R1 as (t & d & cu & cv & ou & mo & -> & _). reflexivity. }
    destruct (aper_update c kt x) as [x1 [[]|e]], (aper_update c t' y) as [y1 [[]|e']]; cbn [fst snd] in *; try discriminate; rewrite ST.
    + apply store_u; [|exact R1]. split; [reflexivity|]. split; [exact L|]. split; [exact P|]. eexists _, _. split; [reflexivity|exact R1].
    + injection R2 as <-. split; [|split; [reflexivity|intros Q; discriminate Q]]. split; [reflexivity|]. split; [exact L|]. split; [exact P|]. eexists _, _. split; [reflexivity|exact R1].
  - split; [|split; [reflexivity|intros Q; discriminate Q]]. split; [reflexivity|]. split; [exact L|]. split; [exact P|]. eexists _, _. split; [reflexivity|exact I].
Qed.
Definition frees (vary : list bool) (tf tf' : list fl) : Prop := tf' = tf \/ (free vary n /\ sign_at (rank vary n) tf tf').
Lemma frees_length vary tf tf' : frees vary tf tf' -> length tf' = length tf.
Proof. intros [->|(_ & L & _)]; auto. Qed.
Lemma rank_inj v i j : free v i -> free v j -> rank v i = rank v j -> i = j.
Proof.
  assert (M : forall i j, free v i -> (i < j)%nat -> (j <= length v)%nat -> (rank v i < rank v j)%nat).
  { clear i j. unfold free, rank. induction v as [|b v' IH]; intros i j F H B.
    - destruct i; discriminate F.
    - destruct i, j; try lia.
      + injection F as ->. cbn. lia.
      + cbn in B. cbn [firstn]. pose proof (IH i j F ltac:(lia) ltac:(lia)). destruct b; cbn; lia. }
  intros F G E. destruct (lt_eq_lt_dec i j) as [[H|H]|H]; auto.
  - pose proof (M i j F H). assert (j < length v)%nat by (apply nth_error_Some; rewrite G; discriminate). lia.
  - pose proof (M j i G H). assert (i < length v)%nat by (apply nth_error_Some; rewrite F; discriminate). lia.
Qed.
Lemma update_parameters_u th th' vary tf tf' : length vary = length th -> par th th' -> frees vary tf tf' -> length tf = n_free_param vary ->
  exists t t', update_parameters th vary tf = (t, Ok tt) /\ update_parameters th' vary tf' = (t', Ok tt) /\ length vary = length t /\ par t t'.
Proof.
  intros L P F B. rewrite n_free_param_nfree in B. pose proof P as [(L1 & E1 & S1) B1].
  destruct (update_parameters_spec th vary tf) as (t & E & Lt & H1 & H2); [exact L|lia|].
  destruct (update_parameters_spec th' vary tf') as (t' & E' & Lt' & H1' & H2'); [lia|rewrite (frees_length _ _ _ F); lia|].
  exists t, t'. split; [exact E|]. split; [exact E'|]. split; [lia|]. split; [|lia]. split; [lia|].
  assert (D : forall i, free vary i \/ ~ free vary i). { intros i. unfold free. destruct (nth_error vary i) as [[|]|]; [left; reflexivity|right; discriminate|right; discriminate]. }
  split.
  - intros i Hi. destruct (D i) as [Y|Y].
    + rewrite H1, H1' by exact Y. destruct F as [->|(Y0 & _ & G & _)]; [reflexivity|]. apply G. intros Q. apply Hi. now apply (rank_inj vary).
    + rewrite H2, H2' by exact Y. now apply E1.
  - destruct (D n) as [Y|Y].
    + rewrite H1, H1' by exact Y. destruct F as [->|(_ & _ & _ & G)]; [now left|exact G].
    + rewrite H2, H2' by exact Y. exact S1.
Qed.
Lemma update_u k k' tf tf' : kU k k' -> frees (k_vary k) tf tf' -> kUr (km_update c tf k) (km_update c tf' k') /\ k_vary (fst (km_update c tf k)) = k_vary k.
Proof.
  intros H F. split.
  2:{ unfold km_update. destruct (negb _); [reflexivity|]. destruct (update_parameters _ _ _) as [t [|]]; [|reflexivity]. unfold km_update_aper. cbn [k_aper]. destruct (k_aper k) as [x|]; [|reflexivity].
      cbn [k_theta k_vary k_noscale k_model k_stamp]. destruct (aper_update c t x) as [x1 [|]]; [|reflexivity]. unfold store_model. destruct (a_model x1); [|reflexivity]. cbn [k_noscale]. destruct (k_noscale k); [reflexivity|]. destruct (scale_model _ _); reflexivity. }
  pose proof H as (N & L & P & ap & m & E & A). destruct k' as [t0 v' n' a' m' s']. cbn [k_theta] in *. injection E as -> -> -> -> ->. unfold km_update. rewrite (frees_length _ _ _ F).
  cbn [k_theta k_vary k_noscale k_aper k_model k_stamp].
  destruct (Nat.eqb (length tf) (n_free_param (k_vary k))) eqn:X; cbn [negb].
  - apply Nat.eqb_eq in X. destruct (update_parameters_u _ _ _ _ _ L P F X) as (t & t' & -> & -> & L' & P').
    apply update_aper_u. split; [exact N|]. split; [exact L'|]. split; [exact P'|]. cbn [k_theta k_vary k_noscale k_aper k_model k_stamp]. eexists _, _. split; [reflexivity|exact A].
  - split; [exact H|]. split; [reflexivity|intros Q; discriminate Q].
Qed.
Lemma make_u k k' tf tf' : kU k k' -> frees (k_vary k) tf tf' -> kUr (km_make c tf k) (km_make c tf' k') /\ k_vary (fst (km_make c tf k)) = k_vary k.
Proof.
  intros H F. split.
  2:{ unfold km_make. destruct (negb _); [reflexivity|]. destruct (update_parameters _ _ _) as [t [|]]; [|reflexivity]. cbn [k_aper]. destruct (k_aper k) as [x|].
      - unfold km_update_aper. cbn [k_aper k_theta k_vary k_noscale k_model k_stamp]. destruct (aper_update c t x) as [x1 [|]]; [|reflexivity]. unfold store_model. destruct (a_model x1); [|reflexivity]. cbn [k_noscale]. destruct (k_noscale k); [reflexivity|]. destruct (scale_model _ _); reflexivity.
      - destruct (aper_new _ _ _) as [st [x1|]]; [|reflexivity]. unfold store_model. destruct (a_model x1); [|reflexivity]. cbn [k_noscale]. destruct (k_noscale k); [reflexivity|]. destruct (scale_model _ _); reflexivity. }
  pose proof H as (N & L & P & ap & m & E & A). destruct k' as [t0 v' n' a' m' s']. cbn [k_theta] in *. injection E as -> -> -> -> ->. unfold km_make. rewrite (frees_length _ _ _ F).
  cbn [k_theta k_vary k_noscale k_aper k_model k_stamp].
  destruct (Nat.eqb (length tf) (n_free_param (k_vary k))) eqn:X; cbn [negb].
  - apply Nat.eqb_eq in X. destruct (update_parameters_u _ _ _ _ _ L P F X) as (t & t' & -> & -> & L' & P').
    revert A; destruct (k_aper k) as [x|] eqn:W, ap as [y|]; intros A; try contradiction.
    + apply update_aper_u. split; [exact N|]. split; [exact L'|]. split; [exact P'|]. cbn [k_theta k_vary k_noscale k_aper k_model k_stamp]. eexists _, _. split; [reflexivity|exact A].
    + pose proof (u_new t t' (k_stamp k) P') as R. destruct (aper_new c t _) as [s1 [x1|e1]], (aper_new c t' _) as [s2 [y1|e2]]; try contradiction.
      * destruct R as [<- R]. apply store_u; [|exact R]. split; [exact N|]. split; [exact L'|]. split; [exact P'|]. cbn [k_theta k_vary k_noscale k_aper k_model k_stamp]. eexists _, _. split; [reflexivity|exact R].
      * destruct R as [<- <-]. split; [|split; [reflexivity|intros Q; discriminate Q]]. split; [exact N|]. split; [exact L'|]. split; [exact P'|]. cbn [fst k_theta k_vary k_noscale k_aper k_model k_stamp]. eexists _, _. split; [reflexivity|exact I].
  - split; [exact H|]. split; [reflexivity|intros Q; discriminate Q].
Qed.
Lemma llike_u k k' tf tf' : kU k k' -> frees (k_vary k) tf tf' ->
  kU (fst (km_llike c k tf)) (fst (km_llike c k' tf')) /\ snd (km_llike c k tf) = snd (km_llike c k' tf') /\ k_vary (fst (km_llike c k tf)) = k_vary k.
Proof.
  intros H F. unfold km_llike. destruct (update_u k k' tf tf' H F) as ((X & Y & M) & V).
  destruct (km_update c tf k) as [y [[]|e]], (km_update c tf' k') as [y' [[]|e']]; cbn [fst snd] in *; try discriminate.
  - rewrite (M eq_refl) in *. destruct (k_model y'); (split; [exact X|]; split; [reflexivity|exact V]).
  - injection Y as <-. split; [exact X|]. split; [reflexivity|exact V].
Qed.
Lemma seq_u vary tfs tfs' : Forall2 (frees vary) tfs tfs' -> forall k k', k_vary k = vary -> kU k k' -> likelihoods c k tfs = likelihoods c k' tfs'.
Proof.
  induction 1 as [|tf tf' tfs tfs' F _ IH]; intros k k' V H; [reflexivity|]. cbn [likelihoods]. rewrite <- V in F. destruct (llike_u k k' tf tf' H F) as (X & Y & V').
  destruct (km_llike c k tf) as [y r], (km_llike c k' tf') as [y' r']. cbn [fst snd] in *. subst r'. f_equal. apply IH; [congruence|exact X].
Qed.
End Sign.
