From Coq Require Import Reals Lra Lia List Bool Arith ZArith.
From Verif Require Import PyFloat PyBase Arr PyNum MProf MKernels MGeom MSlitPlot SKernels SGeom SSlitPlot PGeom PGeom2 PKernels PKernels2 PProf PLine PSlitPlot.
From Verif Require PAper1D PGeom5.
Import ListNotations.
Local Open Scope R_scope.

Lemma gprof_sigma s d : 0 < s -> gprof (s * fwhm_factor) d = exp (- d / (2 * s ^ 2)).
Proof.
  intros H. unfold gprof. f_equal. pose proof ln2_pos as L. unfold fwhm_factor.
  replace (s * (2 * sqrt (2 * ln 2)) * (s * (2 * sqrt (2 * ln 2)))) with (4 * s ^ 2 * (sqrt (2 * ln 2) * sqrt (2 * ln 2))) by ring.
  rewrite sqrt_sqrt by lra. field. split; lra.
Qed.
Lemma near_idx M r p : same_idx M r p = (if near M r p then Some (r + (M - 1) / 2 - p)%nat else None).
Proof.
  unfold same_idx, near. destruct (Nat.leb_spec p (r + (M - 1) / 2)); cbn [andb]; [|reflexivity].
  destruct (Nat.ltb_spec (r + (M - 1) / 2 - p) M), (Nat.ltb_spec (r + (M - 1) / 2) (M + p)); try reflexivity; lia.
Qed.
Lemma near_le M r p : near M r p = true -> (p <= r + (M - 1) / 2 /\ r + (M - 1) / 2 - p < M)%nat.
Proof. unfold near. intros H. apply andb_true_iff in H. destruct H as [A B]. apply Nat.leb_le in A. apply Nat.ltb_lt in B. lia. Qed.

Lemma total_sum2 a : total a = sum2 a.
Proof. reflexivity. Qed.

Lemma convolved interp g o rot m n F s slitPA ipix sg dith :
  rotate_pstamp interp g = Ok rot -> image_is rot m n F -> has_light m n F -> g_sci g = at_ (plus s (1, 1)) -> g_pa2 g = Some (Fin slitPA) ->
  o_ipix o = Fin ipix -> psf_fam (o_psf o) = PsfGaussian -> psf_dither (o_psf o) = dith -> dith = None -> 0 < sg ->
  let d := plus (about (middle (g_stamp g)) (- rad slitPA) s) (times (-1) (INR ((n - 1) / 2), INR ((m - 1) / 2))) in
  exists im A, convolve_rot_gal interp g o (Fin sg) = Ok im /\ 0 < A /\ image_is im m n (fun r c => A * smeared m n F ipix sg d r c) /\
    rsum2 m n (fun r c => A * smeared m n F ipix sg d r c) = rsum2 m n F.
Proof.
  intros R (I1&I2&I3) (L1&i0&j0&Li&Lj&L2) G1 G2 O1 O2 O3 O4 Hs d. rewrite O4 in O3.
  unfold convolve_rot_gal. assert (SS : slit_on_sky g = Ok (Fin slitPA)) by (unfold slit_on_sky; now rewrite G2).
  rewrite SS, G1, less1_at, cent_at. cbn [bind]. rewrite turned_at, R. cbn [bind]. set (k := about (middle (g_stamp g)) (- ang slitPA) s).
  rewrite I1, I2, O1. unfold generate_conv_stamp. rewrite O2, O3. cbn [bind].
  change (fmul (Fin sg) (Fin fwhm_factor)) with (Fin (sg * fwhm_factor)).
  pose proof fwhm_factor_pos as FP. assert (HF : 0 < sg * fwhm_factor) by (apply Rmult_lt_0_compat; lra).
  set (xs := map (fun i => (INR i - fst k) * ipix) (seq 0 n)). set (ys := map (fun i => (INR i - snd k) * ipix) (seq 0 m)).
  assert (EX : map (fun i => fmul (fsub (Fin (INR i)) (fst (at_ k))) (Fin ipix)) (seq 0 n) = map Fin xs) by (unfold xs; rewrite map_map; reflexivity).
  assert (EY : map (fun i => fmul (fsub (Fin (INR i)) (snd (at_ k))) (Fin ipix)) (seq 0 m) = map Fin ys) by (unfold ys; rewrite map_map; reflexivity).
  rewrite EX, EY. set (ker := psf_stamp_gauss (map Fin xs) (map Fin ys) (Fin (sg * fwhm_factor)) None).
  assert (LX : length xs = n) by (unfold xs; now rewrite map_length, seq_length). assert (LY : length ys = m) by (unfold ys; now rewrite map_length, seq_length).
  assert (NX : forall i, (i < n)%nat -> nth i xs 0 = (INR i - fst k) * ipix).
  { intros i Hi. unfold xs. rewrite (nth_indep _ 0 ((fun i => (INR i - fst k) * ipix) 0%nat)) by (rewrite map_length, seq_length; exact Hi). rewrite (map_nth (fun i => (INR i - fst k) * ipix)), seq_nth by exact Hi. reflexivity. }
  assert (NY : forall i, (i < m)%nat -> nth i ys 0 = (INR i - snd k) * ipix).
  { intros i Hi. unfold ys. rewrite (nth_indep _ 0 ((fun i => (INR i - snd k) * ipix) 0%nat)) by (rewrite map_length, seq_length; exact Hi). rewrite (map_nth (fun i => (INR i - snd k) * ipix)), seq_nth by exact Hi. reflexivity. }
  assert (KV : forall j i, (j < m)%nat -> (i < n)%nat -> at2 ker j i = Fin (exp (- (((INR i - fst k) * ipix) ^ 2 + ((INR j - snd k) * ipix) ^ 2) / (2 * sg ^ 2)))).
  { intros j i Hj Hi. unfold ker. assert (V := gauss_stamp_value xs ys (sg * fwhm_factor) None j i HF). cbn [option_map gauss_of] in V. rewrite V by (rewrite ?LX, ?LY; assumption).
    rewrite NX, NY, gprof_sigma by assumption. do 2 f_equal. unfold Rdiv. f_equal. ring. }
  assert (KR : rows ker = m) by (unfold ker, psf_stamp_gauss; cbn [rows]; now rewrite map_length). assert (KC : cols ker = n) by (unfold ker, psf_stamp_gauss; cbn [cols]; now rewrite map_length).
  assert (KN : nonneg2 ker).
  { intros j i Hj Hi. rewrite KR in Hj. rewrite KC in Hi. rewrite KV by assumption. eexists. split; [reflexivity|]. left. apply exp_pos. }
  assert (RN : nonneg2 rot).
  { intros j i Hj Hi. rewrite I1 in Hj. rewrite I2 in Hi. rewrite I3 by assumption. eexists. split; [reflexivity|]. auto. }
  assert (RF : finite2 rot) by now apply nonneg2_finite. assert (KF : finite2 ker) by now apply nonneg2_finite.
  assert (TR : total2 rot = rsum2 m n F).
  { unfold total2. rewrite I1, I2. apply rsumn_ext. intros i Hi. apply rsumn_ext. intros j Hj. unfold val2. now rewrite I3. }
  assert (TP : 0 < total2 rot) by (rewrite TR; apply PAper1D.rsum2_pos; [exact L1|eauto]).
  assert (H0 : ((m - 1) / 2 < m)%nat) by (apply Nat.div_lt_upper_bound; lia). assert (H1 : ((n - 1) / 2 < n)%nat) by (apply Nat.div_lt_upper_bound; lia).
  assert (TC : 0 < total2 (conv2 rot ker)).
  { apply conv2_positive; auto; rewrite ?KR, ?KC; try lia. unfold val2. rewrite KV by assumption. apply exp_pos. }
  destruct (conv2_dims rot ker) as [D1 D2]. cbv zeta. rewrite (total_sum2 rot), (total_sum2 (conv2 rot ker)), (sum2_total rot) by exact RF. rewrite (sum2_total (conv2 rot ker)) by now apply conv2_finite.
  rewrite fdiv_Fin by lra. set (A := total2 rot / total2 (conv2 rot ker)).
  assert (SM : forall r c, rconv2 rot ker r c = smeared m n F ipix sg d r c).
  { intros r c. unfold rconv2, smeared. rewrite I1, I2. apply rsumn_ext. intros p Hp. apply rsumn_ext. intros q Hq. unfold val2. rewrite I3 by assumption. f_equal.
    unfold ker2. rewrite KR, KC, !near_idx. destruct (near m r p) eqn:E1; cbn [andb]; [|reflexivity]. destruct (near n c q) eqn:E2; [|reflexivity].
    apply near_le in E1, E2. unfold val2. rewrite KV by lia. unfold Rdiv. unfold d. rewrite rad_ang. fold k. unfold plus, times. cbn [fst snd].
    rewrite !minus_INR, !plus_INR by lia. cbn [val]. f_equal. f_equal. ring. }
  eexists. exists A. split; [reflexivity|]. assert (PA : 0 < A) by (unfold A; apply Rdiv_lt_0_compat; lra). split; [exact PA|]. split.
  - split; [cbn [rows]; congruence|]. split; [cbn [cols]; congruence|]. intros r c _ _. cbn [at2]. rewrite conv2_Fin by assumption. cbn [fmul]. f_equal. rewrite SM. ring.
  - transitivity (A * total2 (conv2 rot ker)); [|unfold A; rewrite <- TR; field; lra].
    rewrite total2_conv by assumption. rewrite I1, I2. rewrite rsum2_scal. f_equal. apply rsumn_ext. intros i _. apply rsumn_ext. intros j _. symmetry. apply SM.
Qed.

Lemma single m n (F : nat -> nat -> R) p q (H : forall i j, (i < m)%nat -> (j < n)%nat -> (i, j) <> (p, q) -> F i j = 0) : (p < m)%nat -> (q < n)%nat -> rsum2 m n F = F p q.
Proof.
  intros Hp Hq. unfold rsum2.
  assert (K : forall k (f : nat -> R) a, (a < k)%nat -> (forall i, (i < k)%nat -> i <> a -> f i = 0) -> rsumn k f = f a).
  { induction k as [|k IH]; intros f a Ha Hf; [lia|]. cbn [rsumn]. destruct (Nat.eq_dec a k) as [->|N].
    - rewrite (rsumn_ext k f (fun _ => 0)) by (intros; apply Hf; lia). assert (Z : rsumn k (fun _ => 0) = 0) by (clear; induction k; cbn [rsumn]; lra). lra.
    - rewrite (IH f a) by (try lia; intros; apply Hf; lia). rewrite (Hf k) by lia. lra. }
  rewrite (K m _ p Hp).
  - apply (K n _ q Hq). intros j Hj N. apply H; auto. congruence.
  - intros i Hi N. rewrite (rsumn_ext n _ (fun _ => 0)); [clear; induction n; cbn [rsumn]; lra|]. intros j Hj. apply H; auto. congruence.
Qed.

(* a point source *)
Lemma point_source interp g o rot m n F s slitPA ipix sg p q :
  rotate_pstamp interp g = Ok rot -> image_is rot m n F -> g_sci g = at_ (plus s (1, 1)) -> g_pa2 g = Some (Fin slitPA) ->
  o_ipix o = Fin ipix -> psf_fam (o_psf o) = PsfGaussian -> psf_dither (o_psf o) = None -> 0 < sg -> 0 < ipix ->
  (p < m)%nat -> (q < n)%nat -> 0 < F p q -> (forall i j, (i < m)%nat -> (j < n)%nat -> (i, j) <> (p, q) -> F i j = 0) ->
  let d := plus (about (middle (g_stamp g)) (- rad slitPA) s) (times (-1) (INR ((n - 1) / 2), INR ((m - 1) / 2))) in
  let far r c := (INR c - (INR q + fst d)) ^ 2 + (INR r - (INR p + snd d)) ^ 2 in
  exists im f, convolve_rot_gal interp g o (Fin sg) = Ok im /\ image_is im m n f /\
    forall r c r' c', (r < m)%nat -> (c < n)%nat -> (r' < m)%nat -> (c' < n)%nat -> near m r p = true -> near n c q = true -> near m r' p = true -> near n c' q = true ->
      far r c < far r' c' -> f r' c' < f r c.
Proof.
  intros R I G1 G2 O1 O2 O3 Hs Hx Hp Hq H1 H0 d far. assert (HL : has_light m n F).
  { split; [|eauto]. intros i j Hi Hj. destruct (Nat.eq_dec i p) as [->|N]; [destruct (Nat.eq_dec j q) as [->|N]; [lra|]|]; rewrite H0 by (auto; congruence); lra. }
  destruct (convolved interp g o rot m n F s slitPA ipix sg None R I HL G1 G2 O1 O2 O3 eq_refl Hs) as (im&A&E&HA&V&_). fold d in V.
  eexists. eexists. split; [exact E|]. split; [exact V|]. intros r c r' c' _ _ _ _ N1 N2 N3 N4 L. cbv beta.
  assert (SV : forall r c, near m r p = true -> near n c q = true -> smeared m n F ipix sg d r c = F p q * exp (- (far r c * ipix ^ 2) / (2 * sg ^ 2))).
  { intros a b Na Nb. unfold smeared. rewrite (single m n _ p q); auto.
    - rewrite Na, Nb. cbn [andb]. unfold far. f_equal. f_equal. unfold Rdiv. f_equal. ring.
    - intros i j Hi Hj N. rewrite H0 by auto. ring. }
  rewrite !SV by assumption. apply Rmult_lt_compat_l; [exact HA|]. apply Rmult_lt_compat_l; [exact H1|]. apply exp_increasing.
  assert (0 < / (2 * sg ^ 2)) by (apply Rinv_0_lt_compat; nra). assert (0 < ipix ^ 2) by nra. unfold Rdiv. apply Rmult_lt_compat_r; [assumption|]. nra.
Qed.

(* no displacement for an object in the middle of a stamp with odd sides *)
Lemma centred (a : arr2 fl) m n slitPA : rows a = S (2 * m) -> cols a = S (2 * n) ->
  plus (about (middle a) (- rad slitPA) (middle a)) (times (-1) (INR ((S (2 * n) - 1) / 2), INR ((S (2 * m) - 1) / 2))) = (0, 0).
Proof.
  intros E1 E2. assert (B : about (middle a) (- rad slitPA) (middle a) = middle a).
  { unfold about. destruct (middle a). unfold plus, times, turn. cbn [fst snd]. apply pair_eq; ring. }
  rewrite B. unfold middle. rewrite E1, E2. replace (S (2 * n) - 1)%nat with (n * 2)%nat by lia. replace (S (2 * m) - 1)%nat with (m * 2)%nat by lia. rewrite !Nat.div_mul by lia.
  unfold plus, times. cbn [fst snd]. rewrite !S_INR, !mult_INR. cbn [INR]. apply pair_eq; field.
Qed.

Lemma spread interp g o rot m n F s slitPA ipix sg :
  rotate_pstamp interp g = Ok rot -> image_is rot m n F -> has_light m n F -> g_sci g = at_ (plus s (1, 1)) -> g_pa2 g = Some (Fin slitPA) ->
  o_ipix o = Fin ipix -> psf_fam (o_psf o) = PsfGaussian -> psf_dither (o_psf o) = None -> 0 < sg ->
  let d := plus (about (middle (g_stamp g)) (- rad slitPA) s) (times (-1) (INR ((n - 1) / 2), INR ((m - 1) / 2))) in
  exists im A, convolve_rot_gal interp g o (Fin sg) = Ok im /\ 0 < A /\ image_is im m n (fun r c => A * smeared m n F ipix sg d r c) /\
    rsum2 m n (fun r c => A * smeared m n F ipix sg d r c) = rsum2 m n F.
Proof. intros; eapply convolved; eauto. Qed.

Lemma spread_centred interp g o rot m n F slitPA ipix sg :
  rotate_pstamp interp g = Ok rot -> rows (g_stamp g) = S (2 * m) -> cols (g_stamp g) = S (2 * n) ->
  image_is rot (S (2 * m)) (S (2 * n)) F -> has_light (S (2 * m)) (S (2 * n)) F -> g_sci g = at_ (plus (middle (g_stamp g)) (1, 1)) -> g_pa2 g = Some (Fin slitPA) ->
  o_ipix o = Fin ipix -> psf_fam (o_psf o) = PsfGaussian -> psf_dither (o_psf o) = None -> 0 < sg ->
  exists im A, convolve_rot_gal interp g o (Fin sg) = Ok im /\ 0 < A /\ image_is im (S (2 * m)) (S (2 * n)) (fun r c => A * smeared (S (2 * m)) (S (2 * n)) F ipix sg (0, 0) r c).
Proof.
  intros R E1 E2 I L G1 G2 O1 O2 O3 Hs. destruct (spread _ _ _ _ _ _ _ _ _ _ _ R I L G1 G2 O1 O2 O3 Hs) as (im&A&E&HA&V&_).
  rewrite (centred _ _ _ _ E1 E2) in V. eauto.
Qed.

Lemma near_self n q : (q < n)%nat -> near n q q = true.
Proof. intros H. unfold near. assert ((n - 1) / 2 < n)%nat by (apply Nat.div_lt_upper_bound; lia). apply andb_true_iff. split; [apply Nat.leb_le|apply Nat.ltb_lt]; lia. Qed.
Lemma near_next n q : (S q < n)%nat -> near n (S q) q = true.
Proof. intros H. unfold near. assert ((n - 1) / 2 < n - 1)%nat by (apply Nat.div_lt_upper_bound; lia). apply andb_true_iff. split; [apply Nat.leb_le|apply Nat.ltb_lt]; lia. Qed.
Lemma displaced interp g o rot m n F s slitPA ipix sg p q :
  rotate_pstamp interp g = Ok rot -> image_is rot m n F -> g_sci g = at_ (plus s (1, 1)) -> g_pa2 g = Some (Fin slitPA) ->
  o_ipix o = Fin ipix -> psf_fam (o_psf o) = PsfGaussian -> psf_dither (o_psf o) = None -> 0 < sg -> 0 < ipix ->
  (p < m)%nat -> (S q < n)%nat -> 0 < F p q -> (forall i j, (i < m)%nat -> (j < n)%nat -> (i, j) <> (p, q) -> F i j = 0) ->
  1 / 2 < fst (plus (about (middle (g_stamp g)) (- rad slitPA) s) (times (-1) (INR ((n - 1) / 2), INR ((m - 1) / 2)))) ->
  exists im f, convolve_rot_gal interp g o (Fin sg) = Ok im /\ image_is im m n f /\ f p q < f p (S q).
Proof.
  intros R I G1 G2 O1 O2 O3 Hs Hx Hp Hq H1 H0 D.
  destruct (point_source interp g o rot m n F s slitPA ipix sg p q R I G1 G2 O1 O2 O3 Hs Hx Hp ltac:(lia) H1 H0) as (im&f&E&V&W).
  exists im, f. split; [exact E|]. split; [exact V|]. apply W; try lia; try (apply near_self; lia); try (apply near_next; lia).
  rewrite S_INR. set (d := plus _ _) in *. nra.
Qed.

(* examples *)
Definition ex_g : scene :=
  mkScene (mk2 6 6 (fun i j => Fin (INR (i + j)))) (Fin (3 + 1), Fin (2 + 1)) (Fin (5 / 2 + 1), Fin (5 / 2 + 1)) (Fin 10) (Fin 75) (Fin (1 / 2)) (Some (Fin 1)) (Some (Fin 8)) (Some (Fin 30)) (Some (Fin (1 / 10))) None.
Definition ex_o : optics := mkOptics (Fin 1) (Fin (7 / 10)) (Some (Fin 8)) (mkpsf PsfGaussian (Some (Fin (6 / 10))) None) (Fin (1 / 2)) (Fin (2 / 10)).
Definition ex_interp (a : arr2 fl) (y x : R) : fl := Fin (y + x).
Lemma ex_scene : scene_is ex_g (3, 2) (5 / 2, 5 / 2) 10 75 (1 / 2) 1 30 (1 / 10) /\ optics_are ex_o 1 (1 / 2) (7 / 10) 8.
Proof. split; [repeat split; reflexivity|]. repeat split; try reflexivity; lra. Qed.
Lemma ex_drawn : exists P Q, plot_image_slit ex_interp (fun _ => true) ex_g ex_o (Some (Fin 4)) true false None (Some 9%nat) false true = Ok P /\
  plot_image_slit ex_interp (fun _ => true) ex_g ex_o (Some (Fin 4)) false false None (Some 9%nat) false true = Ok Q.
Proof.
  destruct ex_scene as [G O]. destruct (drawn ex_interp (fun _ => true) ex_g ex_o (Some (Fin 4)) true None (Some 9%nat) _ _ _ _ _ _ _ _ _ _ _ _ G O Logic.I) as [P HP].
  destruct (drawn ex_interp (fun _ => true) ex_g ex_o (Some (Fin 4)) false None (Some 9%nat) _ _ _ _ _ _ _ _ _ _ _ _ G O Logic.I) as [Q HQ]. eauto.
Qed.
Lemma ex_rows : exists P, plot_image_slit ex_interp (fun _ => true) ex_g ex_o (Some (Fin 4)) false false None (Some 9%nat) true true = Ok P.
Proof.
  unfold plot_image_slit. cbn [g_re ex_g bind fst snd]. change (g_ser ex_g) with (at_ (plus (5 / 2, 5 / 2) (1, 1))). change (g_sci ex_g) with (at_ (plus (3, 2) (1, 1))). rewrite !less1_at.
  assert (D : exists w, downsampled ex_o (Some (Fin 4)) (g_stamp ex_g) (at_ (5 / 2, 5 / 2)) (at_ (3, 2)) = Ok w /\ snd w = (at_ (1, 4), at_ (5 / 4, 4 - 1 / 4))).
  { unfold downsampled. cbn [o_ipix o_pix ex_o rows cols g_stamp ex_g fst snd at_ fmul]. rewrite fdiv_Fin by lra. cbn [int_floor bind].
    assert (N : Int_part (INR 6 * (1 / 2) / 1) = 3%Z). { symmetry. assert (Z : (4 = up (INR 6 * (1/2) / 1))%Z) by (apply tech_up; cbn [INR]; simpl; lra). unfold Int_part. rewrite <- Z. reflexivity. }
    rewrite N. cbn [Z.ltb Z.compare bind Z.to_nat Pos.to_nat Pos.iter_op Nat.add]. unfold fsub. cbn [fneg fadd]. rewrite fdiv_Fin by lra. cbn [fneg fadd fmul].
    destruct (PGeom5.box_image (g_stamp ex_g) (map (fun i => Fin ((INR i + - (5 / 2)) * (1 / 2))) (seq 0 6)) (map (fun i => Fin ((INR i + - (5 / 2)) * (1 / 2))) (seq 0 6))
      (map (fun i => Fin ((INR i + - ((3 + - (1)) / 2)) * 1)) (seq 0 3)) (map (fun i => Fin ((INR i + - (4)) * 1)) (seq 0 3))
      (- (5 / 2) * (1 / 2)) (1 / 2) 6 (- (5 / 2) * (1 / 2)) (1 / 2) 6 (- (1)) 1 3 (- (4)) 1 3 (fun i j => INR (i + j))) as (r&E&_).
    1,2,3,4: split; [apply map_ext; intros i; f_equal; field|split; [lia|lra]].
    1,2: reflexivity. { intros; reflexivity. } 1,2: lra.
    match goal with |- context [box_integrate_pstamp ?a ?b ?c ?d ?e] => assert (E2 : box_integrate_pstamp a b c d e = Ok r) by exact E end. rewrite E2. cbn [bind]. eexists. split; [reflexivity|]. cbn [snd]. rewrite !fdiv_Fin by lra. cbn [fadd]. unfold at_. cbn [fst snd]. apply pair_eq; apply pair_eq; f_equal; field. }
  destruct D as (w&D&S). rewrite D. cbn [bind]. rewrite S. cbn [fst snd at_]. destruct ex_scene as [G O].
  destruct (draw_values (fun _ => true) ex_g ex_o (Some (Fin 4)) false false (Some 9%nat) 1 (fst w) (1, 4) (5 / 4, 4 - 1 / 4) _ _ _ _ _ _ _ _ _ _ _ _ 0 G O ltac:(lra) Logic.I eq_refl) as (P&E&_).
  exists P. exact E.
Qed.

Definition ex_s : scene := mkScene (mk2 3 3 (fun i j => Fin 0)) (Fin (2 + 1), Fin (1 + 1)) (Fin 2, Fin 2) (Fin 0) (Fin 75) (Fin (1 / 2)) (Some (Fin 1)) None (Some (Fin 0)) (Some (Fin 0)) None.
Definition ex_spot (a : arr2 fl) (y x : R) : fl := Fin (if Req_EM_T y 1 then (if Req_EM_T x 1 then 1 else 0) else 0).
Lemma ex_displaced : exists im f, convolve_rot_gal ex_spot ex_s ex_o (Fin (1 / 5)) = Ok im /\ image_is im 3 3 f /\ f 1%nat 1%nat < f 1%nat 2%nat.
Proof.
  assert (Z : rad 0 = 0) by (unfold rad; field).
  eapply (displaced ex_spot ex_s ex_o _ 3 3 (fun i j => if (Nat.eqb i 1 && Nat.eqb j 1)%bool then 1 else 0) (2, 1) 0 (1 / 2) (1 / 5) 1 1); try reflexivity; try lra; try lia.
  - split; [reflexivity|]. split; [reflexivity|]. intros i j Hi Hj. cbn [scipyrotate at2 rows cols g_stamp ex_s g_imgPA fsub fneg fadd]. replace ((0 + - 0) * (PI / 180)) with 0 by ring. rewrite cos_0, sin_0. unfold ex_spot. f_equal.
    replace (1 * (INR i - (INR 3 - 1) / 2) + 0 * (INR j - (INR 3 - 1) / 2) + (INR 3 - 1) / 2) with (INR i) by (cbn [INR]; field).
    replace (- 0 * (INR i - (INR 3 - 1) / 2) + 1 * (INR j - (INR 3 - 1) / 2) + (INR 3 - 1) / 2) with (INR j) by (cbn [INR]; field).
    assert (Q : forall k, (if Req_EM_T (INR k) 1 then true else false) = Nat.eqb k 1).
    { intros k. destruct (Req_EM_T (INR k) 1) as [E|E]; symmetry; [apply Nat.eqb_eq, INR_eq; rewrite E; reflexivity|apply Nat.eqb_neq; intros ->; apply E; reflexivity]. }
    rewrite <- !Q. destruct (Req_EM_T (INR i) 1), (Req_EM_T (INR j) 1); reflexivity.
  - cbn. lra.
  - intros i j Hi Hj N. destruct (Nat.eqb_spec i 1), (Nat.eqb_spec j 1); cbn [andb]; try reflexivity. subst. contradiction.
  - rewrite Z, Ropp_0, about_0. cbn. lra.
Qed.
