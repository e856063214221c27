(* Proofs: aperture corrections depend on ratios of lengths only. *)
From Coq Require Import Reals Lra Lia List Bool Arith ZArith FunctionalExtensionality.
From Verif Require Import PyFloat PyBase Arr PyNum MParams MKernels MAper2D MProf MAper1D SScale SAper1D PKernels PAper2D PMirror PBright PBright2 PBright3 PFrame PUnits PLine PAper1D4 PAper1D6 PAper1D7.
Import ListNotations.
Local Open Scope R_scope.

Section U.
Variable u : R.
Hypothesis Hu : 0 < u.
Notation s := (fmul (Fin u)).
Notation s2 := (fmul (Fin (u * u))).
Let H2 : 0 < u * u := Huu u Hu.

Lemma z_gt0 k x : 0 < k -> fgtb (fmul (Fin k) x) (Fin 0) = fgtb x (Fin 0).
Proof. intros Hk. unfold fgtb. rewrite <- (s_0 k) at 1. now rewrite (s_ltb k Hk). Qed.
Lemma z_leb x y : fleb (s x) (s y) = fleb x y.
Proof.
  destruct x as [a| | |], y as [b| | |]; try reflexivity; rewrite ?(s_PInf u Hu), ?(s_NInf u Hu), ?(s_Fin u); try reflexivity.
  cbn [fleb]. unfold Rleb. destruct (Rle_dec (u * a) (u * b)), (Rle_dec a b); try reflexivity; exfalso; nra.
Qed.
Lemma z_pydiv x y : py_div (s x) (s y) = py_div x y.
Proof. unfold py_div. now rewrite (s_eqb0 u Hu), (s_div_both u Hu). Qed.
Lemma z_pydiv_l x n : py_div (s x) n = rmap s (py_div x n).
Proof. unfold py_div. rewrite (s_div u Hu). now destruct (feqb n (Fin 0)). Qed.

Lemma z_rint x y q dPA : r_int_ellip (s x) (s y) q dPA = s (r_int_ellip x y q dPA).
Proof.
  unfold r_int_ellip. cbv zeta. rewrite !(s_mul_r u Hu), (s_add u Hu), (s_sub u Hu), !(s_fsq u Hu), !(s_mul_r (u * u) H2), (s_add (u * u) H2). apply (s_sqrt u Hu).
Qed.
Lemma z_core r re rc : fdiv (fadd (s r) (fmul rc (s re))) (s re) = fdiv (fadd r (fmul rc re)) re.
Proof. now rewrite (s_mul_r u Hu), (s_add u Hu), (s_div_both u Hu). Qed.
Lemma z_sigma r re d rc : sigma_profile (s r) (s re) d rc = sigma_profile r re d rc.
Proof. unfold sigma_profile. cbv zeta. now rewrite !z_core. Qed.
Lemma z_sersic r re n Ie rc : I_sersic (s r) (s re) n Ie rc = I_sersic r re n Ie rc.
Proof. unfold I_sersic. cbv zeta. now rewrite z_core. Qed.
Lemma z_disp x y q dPA re rc : disp_square (s x) (s y) q dPA (s re) rc = disp_square x y q dPA re rc.
Proof. unfold disp_square. now rewrite z_rint, z_sigma. Qed.
Lemma z_Igal x y re n q dPA rc : Igal (s x) (s y) (s re) n q dPA rc = Igal x y re n q dPA rc.
Proof. unfold Igal. now rewrite z_rint, z_sersic. Qed.

Lemma z_width re q dPA f : default_width (s re) q dPA (s f) = s (default_width re q dPA f).
Proof.
  unfold default_width, y_proj_major. cbv zeta.
  assert (E : forall a b, fmul (Fin (1/2)) (fsqrt (fadd (fsq (s a)) (fsq (s b)))) = s (fmul (Fin (1/2)) (fsqrt (fadd (fsq a) (fsq b))))).
  { intros a b. rewrite !(s_fsq u Hu), (s_add (u * u) H2), (s_sqrt u Hu). apply (s_mul_r u Hu). }
  rewrite !(s_mul_r u Hu _ re), !E. set (rc := fmul (Fin (1/2)) (fsqrt (fadd (fsq (fmul (Fin 2) re)) (fsq f)))).
  set (mc := fmul (Fin (1/2)) (fsqrt (fadd (fsq (fmul (fmul (Fin 2) q) re)) (fsq f)))).
  rewrite (s_div_both u Hu mc rc), !(s_mul u Hu rc), (s_abs u Hu), (s_ltb u Hu). destruct (fltb _ _); apply (s_mul_r u Hu).
Qed.

(** Stamps. *)
Definition sst (k : R) (st : stamp) : stamp := match st with Stamp2 a => Stamp2 (map2 (fmul (Fin k)) a) | Stamp3 a => Stamp3 (map3 (fmul (Fin k)) a) | NoStamp => NoStamp end.
Lemma map2_one a : map2 (fmul (Fin 1)) a = a.
Proof. destruct a as [r c f]. unfold map2. cbn. f_equal. extensionality i. extensionality j. apply one_s. Qed.
Lemma z_gpt sig x y d : gauss_pt (s sig) (s x) (s y) (s d) = gauss_pt sig x y d.
Proof. unfold gauss_pt. rewrite (s_add u Hu), !(s_fsq u Hu), (s_add (u * u) H2), (s_neg (u * u)), (s_mul_r (u * u) H2), (s_div_both (u * u) H2). reflexivity. Qed.
Lemma map_repeat_s a k : map s (repeat a k) = repeat (s a) k.
Proof. induction k as [|k IH]; [reflexivity|]. cbn [repeat map]. now rewrite IH. Qed.
Lemma lnth_flat l k i : lnth (np_repeat (map s l) k) i = s (lnth (np_repeat l k) i).
Proof.
  replace (np_repeat (map s l) k) with (map s (np_repeat l k)); [apply lnth_map_s|].
  unfold np_repeat. induction l as [|a l IH]; [reflexivity|]. cbn [map flat_map]. rewrite map_app, IH. f_equal. apply map_repeat_s.
Qed.
Lemma z_xa x y j i : at2 (xarr_flat (map s x) (map s y)) j i = s (at2 (xarr_flat x y) j i).
Proof. unfold xarr_flat, transpose, reshape2. cbn [at2]. rewrite !map_length. apply lnth_flat. Qed.
Lemma z_ya x y j i : at2 (yarr_flat (map s x) (map s y)) j i = s (at2 (yarr_flat x y) j i).
Proof. unfold yarr_flat, reshape2. cbn [at2]. rewrite !map_length. apply lnth_flat. Qed.
Lemma z_gauss x y f d : psf_stamp_gauss (map s x) (map s y) (s f) (option_map s d) = psf_stamp_gauss x y f d.
Proof.
  unfold psf_stamp_gauss. cbv zeta. rewrite !map_length. apply mk2_ext. intros j i. rewrite z_xa, z_ya, (s_div u Hu). destruct d as [d|]; cbn [option_map].
  - rewrite (s_neg u d). rewrite !z_gpt. rewrite <- (s_0 u) at 1. now rewrite z_gpt.
  - rewrite <- (s_0 u) at 1. now rewrite z_gpt.
Qed.
Lemma z_mpt al be x y d : moffat_pt (s al) be (s x) (s y) (s d) = fmul (Fin (/ (u * u))) (moffat_pt al be x y d).
Proof.
  unfold moffat_pt. rewrite (s_add u Hu), !(s_fsq u Hu), (s_add (u * u) H2), (s_div_both (u * u) H2), (s_mul_r (u * u) H2), (s_div_r (u * u)) by exact H2.
  now rewrite (s_mul (/ (u * u))) by (now apply Rinv_0_lt_compat).
Qed.
Lemma z_moffat x y al be : psf_stamp_moffat (map s x) (map s y) (s al) be None = map2 (fmul (Fin (/ (u * u)))) (psf_stamp_moffat x y al be None).
Proof.
  unfold psf_stamp_moffat, map2. cbv zeta. cbn [rows cols at2]. rewrite !map_length. apply mk2_ext. intros j i. rewrite z_xa, z_ya. rewrite <- (s_0 u) at 1. apply z_mpt.
Qed.
Lemma z_stamp p x y : exists k, 0 < k /\ generate_conv_stamp (psf_in u p) (map s x) (map s y) None = rmap (option_map (map2 (fmul (Fin k)))) (generate_conv_stamp p x y None).
Proof.
  unfold generate_conv_stamp, psf_in. cbv zeta. cbn [psf_fam psf_fwhm psf_dither]. destruct (psf_fam p) as [| |b].
  - exists 1. split; [lra|reflexivity].
  - exists 1. split; [lra|]. destruct (psf_fwhm p) as [f|]; [|reflexivity]. cbn [option_map rmap]. now rewrite z_gauss, map2_one.
  - exists (/ (u * u)). split; [now apply Rinv_0_lt_compat|]. destruct (psf_fwhm p) as [f|]; [|reflexivity]. cbn [option_map]. destruct b as [b|]; [|reflexivity].
    destruct (py_inv b) as [iv|]; [|reflexivity]. cbn [bind rmap option_map]. now rewrite (s_div u Hu), z_moffat.
Qed.
Lemma ker_conv2 k a ker : 0 < k -> conv2 a (map2 (fmul (Fin k)) ker) = map2 (fmul (Fin k)) (conv2 a ker).
Proof.
  intros Hk. unfold conv2. rewrite (s_allfin2 k Hk). cbn [map2 rows cols]. destruct (allfin2 a && allfin2 ker); unfold map2; cbn [rows cols at2]; apply mk2_ext; intros i j.
  - rewrite <- (s_sumn k Hk). apply fsumn_ext. intros p _. rewrite <- (s_sumn k Hk). apply fsumn_ext. intros q _. rewrite <- (s_mul_r k Hk). f_equal.
    unfold opt_at. destruct (same_idx (rows ker) i p); [|now rewrite (s_0 k)]. destruct (same_idx (cols ker) j q); [reflexivity|now rewrite (s_0 k)].
  - reflexivity.
Qed.
Lemma z_flat st k : 0 < k -> forall f, exists k', 0 < k' /\ forall im,
  PSF_convolve_flat im (s f) (sst k st) = rmap (option_map (map2 (fmul (Fin k')))) (PSF_convolve_flat im f st).
Proof.
  intros Hk f. destruct (fgtb f (Fin 0)) eqn:E.
  - exists k. split; [exact Hk|]. intros im. unfold PSF_convolve_flat. rewrite (z_gt0 u f Hu), E. destruct st as [|a|a]; try reflexivity. cbn [sst].
    change (size2 (map2 (fmul (Fin k)) a)) with (size2 a). destruct (_ || _); [reflexivity|]. cbn [rmap option_map]. now rewrite (ker_conv2 k _ _ Hk).
  - exists 1. split; [lra|]. intros im. unfold PSF_convolve_flat. rewrite (z_gt0 u f Hu), E. cbn [rmap option_map]. now rewrite map2_one.
Qed.
Lemma im_flat k im f st : 0 < k -> PSF_convolve_flat (map2 (fmul (Fin k)) im) f st = rmap (option_map (map2 (fmul (Fin k)))) (PSF_convolve_flat im f st).
Proof.
  intros Hk. unfold PSF_convolve_flat. destruct (fgtb f (Fin 0)); [|reflexivity]. destruct st as [|a|a]; try reflexivity.
  change (size2 (map2 (fmul (Fin k)) im)) with (size2 im). destruct (_ || _); [reflexivity|]. cbn [rmap option_map]. now rewrite (s_conv2 k Hk).
Qed.
Lemma sub_map k a y0 y1 x0 x1 : sub2o (option_map (map2 (fmul (Fin k))) a) y0 y1 x0 x1 = rmap (map2 (fmul (Fin k))) (sub2o a y0 y1 x0 x1).
Proof. destruct a; reflexivity. Qed.

(** The weighted ratio. *)
Lemma z_weights m ew dy nr : row_weights m (s ew) (s dy) nr = row_weights m ew dy nr.
Proof. unfold row_weights. destruct m; try reflexivity. cbv zeta. now rewrite (s_mul_r u Hu), (s_div_both u Hu). Qed.
Lemma z_prod k a w dx dy : 0 < k -> fmul (fmul (fmul (fmul (Fin k) a) w) (s dx)) (s dy) = fmul (Fin (k * u * u)) (fmul (fmul (fmul a w) dx) dy).
Proof.
  intros Hk. rewrite (s_mul k Hk a w). set (x := fmul a w). rewrite (s_mul_r u Hu (fmul (Fin k) x) dx), (s_mul k Hk x dx). set (y := fmul x dx).
  rewrite (s_mul_r u Hu _ dy), (s_mul u Hu), (s_mul k Hk y dy). set (z := fmul y dy). rewrite (fmul_Fin2 u k) by assumption. rewrite (fmul_Fin2 u) by nra. f_equal. f_equal. ring.
Qed.
Lemma z_aperture m ew dx dy k sI I : 0 < k ->
  aperture_sigma m (s ew) (s dx) (s dy) (map2 (fmul (Fin k)) sI) (map2 (fmul (Fin k)) I) = aperture_sigma m ew dx dy sI I.
Proof.
  intros Hk. unfold aperture_sigma. rewrite z_weights. cbn [map2 rows cols]. destruct (row_weights m ew dy (rows I)) as [w|]; [|reflexivity]. cbn [bind]. cbv zeta. do 2 f_equal.
  assert (Hp : 0 < k * u * u) by nra.
  assert (E : forall a, sum2 (mk2 (rows a) (cols a) (fun j i => fmul (fmul (fmul (fmul (Fin k) (at2 a j i)) (lnth w j)) (s dx)) (s dy))) =
    fmul (Fin (k * u * u)) (sum2 (mk2 (rows a) (cols a) (fun j i => fmul (fmul (fmul (at2 a j i) (lnth w j)) dx) dy)))).
  { intros a. rewrite <- (s_sum2 _ Hp). f_equal. unfold map2. cbn [rows cols at2]. apply mk2_ext. intros j i.
    now apply z_prod. }
  change (at2 (map2 (fmul (Fin k)) sI)) with (fun j i => fmul (Fin k) (at2 sI j i)). cbn [at2 map2]. rewrite !E. now rewrite (s_div_both _ Hp).
Qed.

(** The grid of the dispersion models. *)
Definition sgrid (g : grid1) : grid1 :=
  mkgrid1 (u_n g) (u_nX g) (u_nY g) (u_padX g) (u_padY g) (s (u_ew g)) (s (u_aper g)) (s (u_dx g)) (s (u_dy g)) (map s (u_x g)) (map s (u_y g)).
Lemma map_sub c l : map (fun x => fsub x (s c)) (map s l) = map s (map (fun x => fsub x c) l).
Proof. rewrite !map_map. apply map_ext. intros x. apply (s_sub u Hu). Qed.
Lemma z_grid o ins re q dPA : same_sampling u re -> grid_1D (dopt_in u o) (ins_in u ins) (s re) q dPA = rmap sgrid (grid_1D o ins re q dPA).
Proof.
  intros Hs. unfold grid_1D, same_sampling in *. cbn [dopt_in ins_in d_npix d_ew d_xc d_yc j_slit j_psf psf_in psf_fwhm]. rewrite Hs.
  set (n := if fleb re (Fin (1/10)) then (2 * d_npix o)%nat else d_npix o).
  assert (E : forall w, (do ew <- Ok (s w); Ok (mkgrid1 n (4 * n + 3) (4 * n + 3) (n + 1) (n + 1) ew (s (j_slit ins)) (fdiv (fmul (Fin (1/2)) (s (j_slit ins))) (Fin (INR n + 1/2))) (fdiv (fmul (Fin (1/2)) ew) (Fin (INR n + 1/2)))
      (map (fun x => fsub x (s (d_xc o))) (linspace (fmul (Fin (- 2 * INR n - 1)) (fdiv (fmul (Fin (1/2)) (s (j_slit ins))) (Fin (INR n + 1/2)))) (fmul (Fin (2 * INR n + 1)) (fdiv (fmul (Fin (1/2)) (s (j_slit ins))) (Fin (INR n + 1/2)))) (4 * n + 3)))
      (map (fun y => fsub y (s (d_yc o))) (linspace (fmul (Fin (- 2 * INR n - 1)) (fdiv (fmul (Fin (1/2)) ew) (Fin (INR n + 1/2)))) (fmul (Fin (2 * INR n + 1)) (fdiv (fmul (Fin (1/2)) ew) (Fin (INR n + 1/2)))) (4 * n + 3))))) =
    rmap sgrid (do ew <- Ok w; Ok (mkgrid1 n (4 * n + 3) (4 * n + 3) (n + 1) (n + 1) ew (j_slit ins) (fdiv (fmul (Fin (1/2)) (j_slit ins)) (Fin (INR n + 1/2))) (fdiv (fmul (Fin (1/2)) ew) (Fin (INR n + 1/2)))
      (map (fun x => fsub x (d_xc o)) (linspace (fmul (Fin (- 2 * INR n - 1)) (fdiv (fmul (Fin (1/2)) (j_slit ins)) (Fin (INR n + 1/2)))) (fmul (Fin (2 * INR n + 1)) (fdiv (fmul (Fin (1/2)) (j_slit ins)) (Fin (INR n + 1/2)))) (4 * n + 3)))
      (map (fun y => fsub y (d_yc o)) (linspace (fmul (Fin (- 2 * INR n - 1)) (fdiv (fmul (Fin (1/2)) ew) (Fin (INR n + 1/2)))) (fmul (Fin (2 * INR n + 1)) (fdiv (fmul (Fin (1/2)) ew) (Fin (INR n + 1/2)))) (4 * n + 3)))))).
  { intros w. cbn [bind rmap]. unfold sgrid. cbn [u_n u_nX u_nY u_padX u_padY u_ew u_aper u_dx u_dy u_x u_y].
    assert (D : forall a, fdiv (fmul (Fin (1/2)) (s a)) (Fin (INR n + 1/2)) = s (fdiv (fmul (Fin (1/2)) a) (Fin (INR n + 1/2)))) by (intros a; now rewrite (s_mul_r u Hu), (s_div u Hu)).
    rewrite !D, !(s_mul_r u Hu _ (fdiv _ _)), !(s_linspace u Hu), !map_sub. reflexivity. }
  destruct (d_ew o) as [w|]; cbn [option_map].
  - apply E.
  - destruct (psf_fwhm (j_psf ins)) as [f|]; cbn [option_map need]; [|reflexivity]. cbn [bind]. rewrite z_width. apply E.
Qed.
Lemma z_stamp1D ins g : exists k, 0 < k /\ stamp_1D (ins_in u ins) (sgrid g) = rmap (sst k) (stamp_1D ins g).
Proof.
  unfold stamp_1D. cbv zeta. cbn [sgrid u_x u_y ins_in j_psf]. rewrite !(s_average u Hu), !map_sub.
  destruct (z_stamp (j_psf ins) (map (fun x => fsub x (average (u_x g))) (u_x g)) (map (fun y => fsub y (average (u_y g))) (u_y g))) as (k & Hk & E).
  exists k. split; [exact Hk|]. rewrite E. clear E. destruct (generate_conv_stamp _ _ _ _) as [[a|]|]; reflexivity.
Qed.
Lemma z_sig2 g q dPA re rc : sig2_image (sgrid g) q dPA (s re) rc = sig2_image g q dPA re rc.
Proof. unfold sig2_image. cbn [sgrid u_x u_y]. rewrite !map_length. apply mk2_ext. intros j i. rewrite !lnth_map_s. apply z_disp. Qed.
Lemma z_I g q dPA re n rc : I_image (sgrid g) q dPA (s re) n rc = I_image g q dPA re n rc.
Proof. unfold I_image. cbn [sgrid u_x u_y]. rewrite !map_length. destruct (py_inv n); [|reflexivity]. cbn [bind]. f_equal. apply mk2_ext. intros j i. now rewrite !lnth_map_s, z_Igal. Qed.
Lemma need_s o : need (option_map s o) = rmap s (need o).
Proof. destruct o; reflexivity. Qed.
Lemma z_sigma_aper o ins g st k n re rm : 0 < k -> sigma_aper (dopt_in u o) (ins_in u ins) (sgrid g) (sst k st) n (s re) (s rm) = sigma_aper o ins g st n re rm.
Proof.
  intros Hk. unfold sigma_aper. cbv zeta. cbn [dopt_in ins_in j_psf psf_in psf_fwhm d_rcore d_method]. rewrite z_sig2, z_I, need_s.
  destruct (I_image _ _ _ _ _ _) as [I|]; [|reflexivity]. cbn [bind]. destruct (need _) as [f|]; [|reflexivity]. cbn [rmap bind].
  destruct (z_flat st k Hk f) as (k' & Hk' & E). rewrite !E. destruct (PSF_convolve_flat _ f st) as [a|]; [|reflexivity]. cbn [rmap bind].
  destruct (PSF_convolve_flat I f st) as [b|]; [|reflexivity]. cbn [rmap bind sgrid u_n u_ew u_dx u_dy]. rewrite !sub_map.
  destruct (sub2o a _ _ _ _) as [a'|]; [|reflexivity]. cbn [rmap bind]. destruct (sub2o b _ _ _ _) as [b'|]; [|reflexivity]. cbn [rmap bind]. now apply z_aperture.
Qed.
Lemma z_sigma_aper_mis o ins g st k gal re rm : 0 < k ->
  sigma_aper_misalign (dopt_in u o) (ins_in u ins) (sgrid g) (sst k st) (gal_in u gal) (s re) (s rm) = sigma_aper_misalign o ins g st gal re rm.
Proof.
  intros Hk. unfold sigma_aper_misalign. cbv zeta. cbn [dopt_in ins_in j_psf psf_in psf_fwhm d_rcore d_method gal_in l_q l_dPA l_n]. rewrite z_sig2, z_I, need_s.
  destruct (I_image _ _ _ _ _ _) as [I|]; [|reflexivity]. cbn [bind]. destruct (need _) as [f|]; [|reflexivity]. cbn [rmap bind].
  destruct (z_flat st k Hk f) as (k' & Hk' & E). rewrite !E. destruct (PSF_convolve_flat _ f st) as [a|]; [|reflexivity]. cbn [rmap bind].
  destruct (PSF_convolve_flat I f st) as [b|]; [|reflexivity]. cbn [rmap bind sgrid u_n u_ew u_dx u_dy u_aper u_padY]. rewrite (s_mul_r u Hu), (s_div_both u Hu).
  destruct (int_round _) as [z|]; [|reflexivity]. cbn [bind]. rewrite !sub_map, (s_div u Hu).
  destruct (sub2o a _ _ _ _) as [a'|]; [|reflexivity]. cbn [rmap bind]. destruct (sub2o b _ _ _ _) as [b'|]; [|reflexivity]. cbn [rmap bind]. now apply z_aperture.
Qed.
Lemma z_sigma_e quad o n re rm rad : substitutes u quad -> sigma_e quad (dopt_in u o) n (s re) (s rm) (s rad) = sigma_e quad o n re rm rad.
Proof.
  intros Hq. unfold sigma_e. cbn [dopt_in d_Ie d_slope d_rcore].
  rewrite (Hq (sigsq_I_integrand re n (d_Ie o) (d_slope o) (d_rcore o) rm) _ rad).
  2: { intros x. unfold sigsq_I_integrand. rewrite z_sersic, z_sigma. destruct (I_sersic _ _ _ _ _); [|reflexivity]. cbn [bind times_res]. now rewrite (s_mul_r u Hu). }
  rewrite (Hq (I_integrand re n (d_Ie o) (d_rcore o)) _ rad).
  2: { intros x. unfold I_integrand. rewrite z_sersic. destruct (I_sersic _ _ _ _ _); [|reflexivity]. cbn [bind times_res]. now rewrite (s_mul_r u Hu). }
  destruct (quad _ _ _) as [a|]; [|reflexivity]. cbn [times_res bind]. destruct (quad _ _ _) as [b|]; [|reflexivity]. cbn [times_res bind]. now rewrite (s_div_both (u * u) H2).
Qed.
Lemma z_circ re q : circ (s re) q = s (circ re q).
Proof. apply (s_mul u Hu). Qed.
Lemma z_rad (o : option fl) re : (match option_map s o with Some r => r | None => s re end) = s (match o with Some r => r | None => re end).
Proof. now destruct o. Qed.
Lemma z_disp_1D quad o ins gal : substitutes u quad -> same_sampling u (circ (l_re gal) (l_q gal)) ->
  disp_1D quad (dopt_in u o) (ins_in u ins) (gal_in u gal) = disp_1D quad o ins gal.
Proof.
  intros Hq Hs. unfold disp_1D. cbv zeta. cbn [gal_in l_re l_q l_remass l_qmass l_n]. rewrite !z_circ, (z_grid _ _ _ _ _ Hs).
  destruct (grid_1D _ _ _ _ _) as [g|]; [|reflexivity]. cbn [rmap bind]. destruct (z_stamp1D ins g) as (k & Hk & E). rewrite E. destruct (stamp_1D ins g) as [st|]; [|reflexivity]. cbn [rmap bind].
  rewrite (z_sigma_aper _ _ _ _ _ _ _ _ Hk). destruct (sigma_aper _ _ _ _ _ _ _) as [ap|]; [|reflexivity]. cbn [bind].
  change (d_rad (dopt_in u o)) with (option_map s (d_rad o)). rewrite z_rad. now rewrite (z_sigma_e quad _ _ _ _ _ Hq).
Qed.
Lemma z_disp_mis quad o ins gal : substitutes u quad -> same_sampling u (l_re gal) ->
  disp_misalign_1D quad (dopt_in u o) (ins_in u ins) (gal_in u gal) = disp_misalign_1D quad o ins gal.
Proof.
  intros Hq Hs. unfold disp_misalign_1D. cbv zeta. change (l_re (gal_in u gal)) with (s (l_re gal)). change (l_remass (gal_in u gal)) with (s (l_remass gal)).
  change (l_q (gal_in u gal)) with (l_q gal). change (l_qmass (gal_in u gal)) with (l_qmass gal). change (l_dPA (gal_in u gal)) with (l_dPA gal). change (l_n (gal_in u gal)) with (l_n gal).
  rewrite !z_circ, (z_grid _ _ _ _ _ Hs).
  destruct (grid_1D _ _ _ _ _) as [g|]; [|reflexivity]. cbn [rmap bind]. destruct (z_stamp1D ins g) as (k & Hk & E). rewrite E. destruct (stamp_1D ins g) as [st|]; [|reflexivity]. cbn [rmap bind].
  rewrite (z_sigma_aper_mis _ _ _ _ _ _ _ _ Hk). destruct (sigma_aper_misalign _ _ _ _ _ _ _) as [ap|]; [|reflexivity]. cbn [bind].
  change (d_rad (dopt_in u o)) with (option_map s (d_rad o)). rewrite z_rad. now rewrite (z_sigma_e quad _ _ _ _ _ Hq).
Qed.

(** The rotation model. *)
Definition sgridr (I : arr3 fl) (g : grid1r) : grid1r :=
  mkgrid1r (e_sini g) (s (e_ew g)) (e_ny g) (e_nx g) (e_padX g) (e_padY g) (s (e_dx g)) (s (e_dy g)) (map s (e_x g)) (map s (e_y g))
    (map3 s (e_r g)) (map3 s (e_yint g)) (map3 s (e_zint g)) I.
Lemma z_transform x y z d i : transform_int_3d (s x) (s y) (s z) d i =
  (s (fst (fst (transform_int_3d x y z d i))), s (snd (fst (transform_int_3d x y z d i))), s (snd (transform_int_3d x y z d i))).
Proof. unfold transform_int_3d. cbv zeta. cbn [fst snd]. rewrite (s_neg u), !(s_mul u Hu), !(s_add u Hu), !(s_mul_r u Hu), !(s_add u Hu). reflexivity. Qed.
Lemma z_r a b : fsqrt (fadd (fsq (s a)) (fsq (s b))) = s (fsqrt (fadd (fsq a) (fsq b))).
Proof. now rewrite !(s_fsq u Hu), (s_add (u * u) H2), (s_sqrt u Hu). Qed.
Lemma z_gridr I' o ins gal : same_light u (t_int o) I' -> grid_1R (ropt_in u I' o) (ins_in u ins) (gal_in u gal) = rmap (fun g => sgridr (e_I g) g) (grid_1R o ins gal).
Proof.
  intros HI. unfold grid_1R. cbn [ropt_in ins_in gal_in j_psf j_slit psf_in psf_fwhm t_ew t_npix t_pad t_xc t_yc t_int l_re l_q l_q0 l_dPA]. rewrite need_s.
  destruct (need _) as [f|]; [|reflexivity]. cbn [rmap bind]. cbv zeta.
  replace (match option_map s (t_ew o) with Some w => w | None => default_width (s (l_re gal)) (l_q gal) (l_dPA gal) (s f) end)
    with (s (match t_ew o with Some w => w | None => default_width (l_re gal) (l_q gal) (l_dPA gal) f end)) by (destruct (t_ew o); [reflexivity|cbn [option_map]; now rewrite z_width]).
  set (ew := match t_ew o with Some w => w | None => _ end). rewrite z_pydiv_l. destruct (py_div ew _) as [dy|]; [|reflexivity]. cbn [rmap bind].
  rewrite z_pydiv. destruct (py_div _ dy) as [q|]; [|reflexivity]. cbn [bind]. destruct (int_ceil q) as [nx|]; [|reflexivity]. cbn [bind].
  rewrite z_pydiv_l. destruct (py_div (j_slit ins) (Fin (IZR nx))) as [dx|]; [|reflexivity]. cbn [rmap bind]. rewrite (s_mul u Hu f), !z_pydiv.
  destruct (py_div _ dy) as [py|]; [|reflexivity]. cbn [bind]. destruct (py_div _ dx) as [px|]; [|reflexivity]. cbn [bind].
  destruct (int_round py) as [pY|]; [|reflexivity]. cbn [bind]. destruct (int_round px) as [pX|]; [|reflexivity]. cbn [bind].
  destruct (_ || _ || _); [reflexivity|]. cbn [rmap]. f_equal. unfold sgridr, map3. cbn [e_sini e_ew e_ny e_nx e_padX e_padY e_dx e_dy e_x e_y e_r e_yint e_zint e_I dim0 dim1 dim2 at3].
  rewrite !(s_mul_r u Hu _ dx), !(s_mul_r u Hu _ dy), !(s_neg u), !(s_linspace u Hu), !map_sub.
  f_equal; apply mk3_ext; intros k j i; rewrite !lnth_map_s, z_transform; cbn [fst snd]; rewrite ?z_r; try reflexivity. apply HI.
Qed.
Lemma z_trim f l : filter (fun x => fleb (fabs (fsub x (average (map s l)))) (s f)) (map s l) = map s (filter (fun x => fleb (fabs (fsub x (average l))) f) l).
Proof.
  rewrite (s_average u Hu). set (c := average l). clearbody c. induction l as [|a l IH]; [reflexivity|]. cbn [map filter]. rewrite (s_sub u Hu), (s_abs u Hu), z_leb, IH.
  destruct (fleb _ _); reflexivity.
Qed.
Lemma z_stamp1R ins I g : exists k, 0 < k /\ stamp_1R (ins_in u ins) (sgridr I g) = rmap (sst k) (stamp_1R ins g).
Proof.
  unfold stamp_1R. cbn [ins_in j_psf psf_in psf_fwhm sgridr e_x e_y]. rewrite need_s. destruct (need _) as [f|]; [|exists 1; split; [lra|reflexivity]]. cbn [rmap bind]. cbv zeta. rewrite !z_trim.
  set (X := filter _ (e_x g)). set (Y := filter _ (e_y g)).
  destruct (z_stamp (j_psf ins) X Y) as (k & Hk & E). exists k. split; [exact Hk|]. fold (psf_in u (j_psf ins)). rewrite E. clear E. destruct (generate_conv_stamp _ _ _ _) as [[a|]|]; reflexivity.
Qed.
Lemma z_vel va rt r z z' : vel_arctan [va; s rt] (s r) z' = vel_arctan [va; rt] r z.
Proof. unfold vel_arctan. now rewrite (s_div_both u Hu). Qed.
Lemma z_0 r : fmul (Fin 0) (s r) = fmul (Fin 0) r.
Proof. destruct r as [a| | |]; [cbn; f_equal; ring|now rewrite (s_PInf u Hu)|now rewrite (s_NInf u Hu)|reflexivity]. Qed.
Lemma z_dc th r z z' : disp_const th (s r) z' = disp_const th r z.
Proof. destruct th; [reflexivity|]. cbn [disp_const]. now rewrite z_0. Qed.
Lemma z_kin I' o rad : exists v rt d, update_kinProfile o rad = ([v; rt], d) /\ update_kinProfile (ropt_in u I' o) (s rad) = ([v; s rt], d).
Proof.
  unfold update_kinProfile. cbn [ropt_in t_ratio t_va t_rt]. destruct (t_ratio o) as [a|]; [destruct (feqb a (Fin 0))|]; do 3 eexists; split; try reflexivity. now rewrite (z_vel (t_va o) (t_rt o) rad (Fin 0)).
Qed.
Lemma z_cube g v rt d : kin_cube (sgridr (e_I g) g) [v; s rt] d None = (map2 s (fst (kin_cube g [v; rt] d None)), map2 s (snd (kin_cube g [v; rt] d None))).
Proof.
  unfold kin_cube. cbv zeta. cbn [sgridr e_I e_r e_yint e_zint e_sini e_dy fst snd map3 at3]. unfold map2. cbn [rows cols at2]. f_equal; apply mk2_ext; intros j i; rewrite (s_mul_r u Hu); [|reflexivity].
  f_equal. f_equal. apply fsumn_ext. intros k _. rewrite (s_eqb0 u Hu), (s_div_both u Hu), (z_vel v rt _ (at3 (e_zint g) k j i)), (z_dc d _ (at3 (e_zint g) k j i)). reflexivity.
Qed.
Lemma z_rot_ap I' o ins I g st k a b : 0 < k -> rot_aperture (ropt_in u I' o) (ins_in u ins) (sgridr I g) (sst k st) (map2 s a) (map2 s b) = rot_aperture o ins g st a b.
Proof.
  intros Hk. unfold rot_aperture. cbn [ropt_in ins_in j_psf psf_in psf_fwhm t_method sgridr e_padY e_padX e_ny e_nx e_ew e_dx e_dy]. rewrite need_s. destruct (need _) as [f|]; [|reflexivity]. cbn [rmap bind]. cbv zeta.
  destruct (z_flat st k Hk f) as (k' & Hk' & E). rewrite !E, !(im_flat u _ _ _ Hu). destruct (PSF_convolve_flat a f st) as [a'|]; [|reflexivity]. cbn [rmap bind].
  destruct (PSF_convolve_flat b f st) as [b'|]; [|reflexivity]. cbn [rmap bind]. rewrite !sub_map.
  destruct (sub2o b' _ _ _ _) as [b''|]; [|reflexivity]. cbn [rmap bind]. destruct (sub2o a' _ _ _ _) as [a''|]; [|reflexivity]. cbn [rmap bind].
  assert (M : forall m, map2 (fmul (Fin k')) (map2 s m) = map2 (fmul (Fin (k' * u))) m) by (intros m; unfold map2; cbn [rows cols at2]; apply mk2_ext; intros; now apply fmul_Fin2).
  rewrite !M. apply z_aperture. nra.
Qed.
Lemma z_rot I' o ins gal sh sh' : same_light u (t_int o) I' -> t_shift o = false -> t_eff o = false ->
  rmap h_out (rot_new sh' (ropt_in u I' o) (ins_in u ins) (gal_in u gal)) = rmap h_out (rot_new sh o ins gal).
Proof.
  intros HI H1 H3. unfold rot_new. cbv zeta. rewrite (z_gridr _ _ _ _ HI). destruct (grid_1R o ins gal) as [g|]; [|reflexivity]. cbn [rmap bind].
  destruct (z_stamp1R ins (e_I g) g) as (k & Hk & E). rewrite E. clear E. destruct (stamp_1R ins g) as [st|]; [|reflexivity]. cbn [rmap bind].
  change (t_rad (ropt_in u I' o)) with (option_map s (t_rad o)). change (l_re (gal_in u gal)) with (s (l_re gal)). rewrite z_rad. set (rad := match t_rad o with Some r => r | None => _ end).
  unfold calc_aper_correction, getS, liftR, ret, modS. unfold bindS. cbn [h_g h_st h_rad h_dv h_out]. change (t_shift (ropt_in u I' o)) with (t_shift o). change (t_eff (ropt_in u I' o)) with (t_eff o). rewrite H1, H3. cbn [orb].
  destruct (z_kin I' o rad) as (v & rt & d & E1 & E2). rewrite E1, E2. cbn [fst snd]. rewrite z_cube. cbn [fst snd]. rewrite (z_rot_ap I' o ins _ _ _ _ _ _ Hk).
  destruct (rot_aperture _ _ _ _ _ _) as [ap|]; [|reflexivity]. cbn [rmap h_out]. now rewrite (z_vel v rt rad (Fin 0)), (z_dc d rad (Fin 0)).
Qed.
End U.

Lemma scale_disp : forall u quad o ins gal, 0 < u -> substitutes u quad ->
  (same_sampling u (circ (l_re gal) (l_q gal)) -> disp_1D quad (dopt_in u o) (ins_in u ins) (gal_in u gal) = disp_1D quad o ins gal) /\
  (same_sampling u (l_re gal) -> disp_misalign_1D quad (dopt_in u o) (ins_in u ins) (gal_in u gal) = disp_misalign_1D quad o ins gal).
Proof. intros u quad o ins gal Hu Hq. split; intros Hs; [now apply z_disp_1D|now apply z_disp_mis]. Qed.
Lemma scale_rot : forall u I o ins gal shift shift', 0 < u -> same_light u (t_int o) I -> t_shift o = false -> t_eff o = false ->
  reported (rot_new shift' (ropt_in u I o) (ins_in u ins) (gal_in u gal)) = reported (rot_new shift o ins gal).
Proof. intros. now apply z_rot. Qed.
Lemma scale_light : forall u Ie n re q0 r z, 0 < u ->
  int_fiducial Ie n (fmul (Fin u) re) q0 (fmul (Fin u) r) (fmul (Fin u) z) = int_fiducial Ie n re q0 r z /\
  int_expscale Ie n (fmul (Fin u) re) q0 (fmul (Fin u) r) (fmul (Fin u) z) = int_expscale Ie n re q0 r z.
Proof.
  intros u Ie n re q0 r z Hu. unfold int_fiducial, int_expscale, sersic_int, expz_int, expz_z0, expzscale_z0. cbv zeta.
  rewrite (s_div_both u Hu r re), (s_div u Hu re), !(s_mul_r u Hu q0), (s_abs u Hu), (s_neg u), !(s_div_both u Hu). split; reflexivity.
Qed.
Lemma scale_sampling : forall u o ins re q dPA g g', 0 < u -> 0 < re ->
  grid_1D o ins (Fin re) q dPA = Ok g -> grid_1D (dopt_in u o) (ins_in u ins) (Fin (u * re)) q dPA = Ok g' ->
  re <= 1 / 10 -> 1 / 10 < u * re -> u_n g = (2 * u_n g')%nat.
Proof.
  intros u o ins re q dPA g g' Hu Hre E E' A B.
  assert (D : forall o i r g, grid_1D o i (Fin r) q dPA = Ok g -> u_n g = if fleb (Fin r) (Fin (1/10)) then (2 * d_npix o)%nat else d_npix o).
  { clear. intros o i r g. unfold grid_1D. cbv zeta. destruct (match d_ew o with Some w => _ | None => _ end); [|discriminate]. cbn [bind]. intros H. apply Ok_inj in H. now rewrite <- H. }
  rewrite (D _ _ _ _ E), (D _ _ _ _ E'). cbn [fleb]. unfold Rleb. destruct (Rle_dec re (1/10)); [|lra]. destruct (Rle_dec (u * re) (1/10)); [lra|]. reflexivity.
Qed.
Lemma scale_refuted : exists u o ins re g g', 0 < u /\ grid_1D o ins (Fin re) (Fin 1) (Fin 0) = Ok g /\
  grid_1D (dopt_in u o) (ins_in u ins) (fmul (Fin u) (Fin re)) (Fin 1) (Fin 0) = Ok g' /\ u_n g = 4%nat /\ u_n g' = 2%nat.
Proof.
  exists 2, (ex_dopt (Fin 0)), ex_ins1, (1/10). unfold grid_1D. cbv zeta. cbn [ex_dopt dopt_in d_ew option_map bind]. do 2 eexists. split; [lra|]. split; [reflexivity|]. split; [reflexivity|]. cbn [u_n d_npix fmul fleb]. unfold Rleb.
  destruct (Rle_dec (1/10) (1/10)); [|lra]. destruct (Rle_dec (2 * (1/10)) (1/10)); [lra|]. split; reflexivity.
Qed.

Lemma midpoint_ok : forall u, 0 < u -> substitutes u midpoint.
Proof.
  intros u Hu f g b H. unfold midpoint. rewrite <- (s_0 u) at 1 2. rewrite (s_add u Hu), (s_mul_r u Hu), H, (s_sub u Hu). cbn [times_res]. f_equal. destruct (f _) as [v|]; cbn [times_res].
  - now rewrite (s_mul u Hu), (s_mul_r u Hu), fmul_Fin2.
  - rewrite (s_mul u Hu). destruct (fsub b (Fin 0)); reflexivity.
Qed.
Lemma scale_ex : (exists r, disp_1D midpoint (ex_dopt (Fin 1)) ex_ins1 ex_gal1 = Ok r /\ disp_1D midpoint (dopt_in 3 (ex_dopt (Fin 1))) (ins_in 3 ex_ins1) (gal_in 3 ex_gal1) = Ok r) /\
  (exists r, disp_misalign_1D midpoint (ex_dopt (Fin 1)) ex_ins1 ex_gal1 = Ok r /\ disp_misalign_1D midpoint (dopt_in 3 (ex_dopt (Fin 1))) (ins_in 3 ex_ins1) (gal_in 3 ex_gal1) = Ok r).
Proof.
  assert (S1 : same_sampling 3 (Fin 1)).
  { unfold same_sampling. cbn [fmul fleb]. unfold Rleb. destruct (Rle_dec (3 * 1) (1/10)); [lra|]. destruct (Rle_dec 1 (1/10)); [lra|reflexivity]. }
  assert (S : same_sampling 3 (circ (l_re ex_gal1) (l_q ex_gal1))).
  { unfold circ, ex_gal1. cbn [l_re l_q fsqrt]. replace (Rltb 1 0) with false by (symmetry; apply Rltb_false; lra). rewrite sqrt_1. cbn [fmul]. now rewrite Rmult_1_l. }
  assert (H3 : 0 < 3) by lra.
  destruct (scale_disp 3 midpoint (ex_dopt (Fin 1)) ex_ins1 ex_gal1 H3 (midpoint_ok 3 H3)) as [A B]. rewrite (A S), (B S1).
  destruct (disp_exists midpoint _ _ _ _ _ _ _ _ _ _ _ _ _ _ (ex_physical (Fin 1)) (fun f R0 => ex_intro _ _ eq_refl)) as [[r E] [r' E']]. split; [exists r|exists r']; split; assumption.
Qed.
Lemma scale_ex_rot : forall sh, exists x, reported (rot_new sh (ropt_in 3 (fun _ _ => Fin 1) (ex_ropt (Some (Fin 2)) false)) (ins_in 3 ex_ins1) (gal_in 3 ex_galr)) = Ok (Some x) /\
  reported (rot_new sh (ex_ropt (Some (Fin 2)) false) ex_ins1 ex_galr) = Ok (Some x).
Proof.
  intros sh. rewrite (scale_rot 3 _ _ _ _ sh sh); [|lra|intros r z; reflexivity|reflexivity|reflexivity].
  assert (U : exists v0 sg, update_kinProfile (ex_ropt (Some (Fin 2)) false) (Fin 1) = ([Fin v0; Fin (1/2)], [Fin sg])).
  { unfold update_kinProfile, ex_ropt. cbn [t_ratio t_va t_rt feqb]. replace (Reqb 2 0) with false by (symmetry; apply Reqb_false; lra). unfold vel_arctan. cbn [fmul fdiv fatan]. replace (Reqb (1/2) 0) with false by (symmetry; apply Reqb_false; lra). cbn [fmul fatan fdiv]. replace (Reqb 2 0) with false by (symmetry; apply Reqb_false; lra). eauto. }
  destruct U as (v0 & sg & U). destruct (rot_run sh _ _ _ _ _ _ _ _ _ _ _ _ _ _ _ 1 v0 sg (ex_physical_rot (Some (Fin 2))) eq_refl U) as (st & i & s' & E & _ & _ & H).
  rewrite E. cbn [reported]. rewrite H. eauto.
Qed.
