From Coq Require Import Reals Lra List Bool Arith ZArith Lia.
From Verif Require MProf PProf PGeom3.
From Verif Require Import PyFloat PyBase Arr PyNum MParams MKernels MAper2D MMock SParams SKernels SAper2D SAper1D SLine SLos SReach STruth SFinite PParams PKernels PData PAper2D PAper2DHist PAper2DGrid PAper2DShape PAper2DTop PAper2DOk PLos PReach2 PTruth PTruth2 PTruth3 PFinite PFinite2 PFinite3.
Import ListNotations.
Local Open Scope R_scope.

Lemma finite_llike n p F S W ok cs m : (forall i j, (i < n)%nat -> (j < p)%nat -> S i j <> 0) -> rows m = n -> cols m = p ->
  (forall i j, (i < n)%nat -> (j < p)%nat -> exists x, at2 m i j = Fin x) -> exists L, model_llike (findata n p F S W ok cs) m = Fin L.
Proof.
  intros HS R C H. unfold model_llike. erewrite sum2_val.
  - eexists. reflexivity.
  - intros i j Hi Hj. cbn [rows cols] in Hi, Hj. rewrite R in Hi. rewrite C in Hj. destruct (H i j Hi Hj) as (x & E). specialize (HS i j Hi Hj).
    cbn [at2 findata flux ferr smask fwt fin2]. rewrite E. unfold fsub. cbn [fneg fadd]. rewrite fdiv_Fin by exact HS. rewrite log_const by exact HS. reflexivity.
Qed.

Lemma finite_scale n p F S W ok cs m : cols_ok p cs -> (forall i j, (i < n)%nat -> (j < p)%nat -> S i j <> 0) -> rows m = n -> cols m = p -> nonneg2 m ->
  exists m2, scale_model (findata n p F S W ok cs) m = Ok m2 /\ rows m2 = n /\ cols m2 = p /\ forall i j, (i < n)%nat -> (j < p)%nat -> exists x, at2 m2 i j = Fin x.
Proof.
  intros Hc HS R C H. unfold scale_model. cbn [wh_nosky findata flux ferr fin2 cols rows]. rewrite R, C, (forallb_ltb p cs Hc), !Nat.eqb_refl. cbn [negb andb].
  eexists. split; [reflexivity|]. cbn [rows cols at2]. split; [reflexivity|]. split; [reflexivity|]. intros i j Hi Hj.
  change (mkdata (fin2 n p F) (fin2 n p S) (fin2 n p (fun i j => if ok i j then 1 else 0)) (fin2 n p W) cs) with (findata n p F S W ok cs).
  rewrite (scale_ratio_val n p F S W ok cs m (fun c => val (at2 m i c)) i).
  - destruct (H i j) as (x & E & _); [lia|lia|]. rewrite E. eexists. reflexivity.
  - intros c Hcc. apply HS; [exact Hi|now apply Hc].
  - intros c Hcc. destruct (H i c) as (x & E & _); [lia|rewrite C; now apply Hc|]. now rewrite E.
Qed.

Lemma finite_fit c n p F S W ok cs l kf tf th k : g_data (c_gal c) = findata n p F S W ok cs -> n = img_rows c -> p = length l ->
  cols_ok p cs -> (forall i j, (i < n)%nat -> (j < p)%nat -> S i j <> 0) ->
  offsets_fixed kf -> fresh kf -> length tf = nfree (k_vary kf) -> update_parameters (k_theta kf) (k_vary kf) tf = (th, Ok tt) -> shining c th l ->
  history c kf k -> exists k2 L, km_llike c k tf = (k2, Ok (Fin L)).
Proof.
  intros Hd Hn Hp Hc HS O Fr L U Sh H. destruct (eval_lit _ _ _ Sh) as (m & (a0 & b & Es & Eb & Em) & R & C & N & _). rewrite <- Hn in R. rewrite <- Hp in C.
  destruct (finite_scale n p F S W ok cs m Hc HS R C N) as (m2 & Sc & R2 & C2 & V2).
  assert (X : exists k2 m3, km_make c tf kf = (k2, Ok tt) /\ k_model k2 = Some m3 /\ rows m3 = n /\ cols m3 = p /\ forall i j, (i < n)%nat -> (j < p)%nat -> exists x, at2 m3 i j = Fin x).
  { unfold fresh in Fr. unfold km_make. rewrite n_free_param_nfree, L, Nat.eqb_refl. cbn [negb]. rewrite U. cbn [k_aper k_stamp]. rewrite Fr. unfold aper_new. rewrite Es, Eb. unfold store_model. rewrite Em. cbn [k_noscale].
    destruct (k_noscale kf).
    - eexists _, m. split; [reflexivity|]. split; [reflexivity|]. split; [exact R|]. split; [exact C|]. intros i j Hi Hj. destruct (N i j) as (x & E & _); [lia|lia|]. now exists x.
    - rewrite Hd, Sc. eexists _, m2. split; [reflexivity|]. split; [reflexivity|]. auto. }
  destruct X as (k2 & m3 & K2 & M3 & R3 & C3 & V3). destruct (finite_llike n p F S W ok cs m3 HS R3 C3 V3) as (LL & EL).
  exists k2, LL. apply (llike_fresh c kf k tf O Fr H). exists m3. split; [exact K2|]. split; [exact M3|]. rewrite Hd. now symmetry.
Qed.

Lemma finite_posterior c n p F S W ok cs l kf tf th k bounds : g_data (c_gal c) = findata n p F S W ok cs -> n = img_rows c -> p = length l ->
  cols_ok p cs -> (forall i j, (i < n)%nat -> (j < p)%nat -> S i j <> 0) ->
  offsets_fixed kf -> fresh kf -> length tf = nfree (k_vary kf) -> update_parameters (k_theta kf) (k_vary kf) tf = (th, Ok tt) -> shining c th l ->
  history c kf k -> log_prior (k_theta kf) (k_vary kf) bounds tf = Ok (Fin 0) ->
  exists L, snd (lnprob (log_prior (k_theta kf) (k_vary kf) bounds) (km_llike c) k tf) = Ok (Fin L).
Proof.
  intros Hd Hn Hp Hc HS O Fr L U Sh H P. destruct (finite_fit c n p F S W ok cs l kf tf th k Hd Hn Hp Hc HS O Fr L U Sh H) as (k2 & LL & E).
  exists (0 + LL). unfold lnprob. rewrite P, E. reflexivity.
Qed.

Lemma mock_sound a d mk l :
  MGeom.generate_mock (ma_z a) (ma_va a) (ma_rt a) (ma_sigma0 a) (ma_yshift a) (ma_dither a) (length (ma_wave a)) (Fin (ma_pix a)) (ma_slit_len a) (ma_nymin a) = Ok mk ->
  shining (mock_cfg a mk d) [ma_va a; ma_rt a; ma_sigma0 a; ma_yshift a; ma_z a] l ->
  exists m, mock_slit_obs a d = Ok (Some m) /\ sound_image (Z.to_nat (MGeom.k_rows mk)) (length l) m.
Proof.
  intros G Sh. destruct (eval_lit _ _ _ Sh) as (m & E & R). exists m. split; [|exact R].
  unfold mock_slit_obs. rewrite G. cbn [bind].
  assert (T : MGeom.k_theta mk = mock_theta a /\ MGeom.k_vary mk = [false; false; false; false; false]).
  { unfold MGeom.generate_mock in G. cbv zeta in G. destruct (PyNum.int_ceil _); [|discriminate]. cbn [bind] in G. injection G as <-. split; reflexivity. }
  destruct T as (T1 & T2). rewrite T1, T2.
  destruct (image_make (mock_cfg a mk d) (mock_theta a) m (mock_fixed a) [] E eq_refl eq_refl eq_refl eq_refl) as (k1 & K1 & K2 & _). unfold mock_fixed in K1. rewrite K1. cbn [bind]. now rewrite K2.
Qed.

Lemma ceil3 : Rceil 3 = 3%Z.
Proof. destruct (PGeom3.Rceil_spec 3) as (A & B). assert (IZR (Rceil 3) < IZR 4) by lra. assert (IZR 2 < IZR (Rceil 3)) by lra. apply lt_IZR in H, H0. lia. Qed.

(* a simulated observation with all the blurring on *)
Definition x_psf (x y : fl) : fl := fexp (fneg (fadd (fsq x) (fsq y))).
Definition x_mock (s : R) : mockargs :=
  mkma (Fin 1) (Fin 200) (Fin (1/2)) (Fin s) (Fin 0) (Fin (3/5)) (Fin (1/5)) (Fin 30) false (map Fin y_wide)
    (1/5) 1 (Fin (3/5)) 3 (1/2) x_psf (Fin 30) Wave [Fin 6565] [Fin 1] 2 (1/2) false false y_prof.
Definition x_mk (s : R) : MGeom.mock := MGeom.mkMock (Fin (3/5)) 3 4 (Fin 1) (Fin 1) false [Fin 200; Fin (1/2); Fin s; Fin 0; Fin 1] [false; false; false; false; false].
Lemma x_generate s : MGeom.generate_mock (Fin 1) (Fin 200) (Fin (1/2)) (Fin s) (Fin 0) false 4 (Fin (1/5)) (Fin (3/5)) 3 = Ok (x_mk s).
Proof.
  unfold MGeom.generate_mock. cbn [fmul fltb]. destruct (Rltb (3 / 5) (3 * (1 / 5))) eqn:E; [apply Rltb_true in E; lra|].
  rewrite !fdiv_Fin by lra. replace (3 / 5 / (1 / 5)) with 3 by field. cbn [MGeom.fceil int_ceil]. rewrite !ceil3. cbn [bind]. rewrite fdiv_Fin by lra. unfold fsub. cbn [fneg fadd].
  replace (3 / 2 + - (1 / 2)) with 1 by lra. reflexivity.
Qed.
Lemma x_shining s d : 0 <= s -> shining (mock_cfg (x_mock s) (x_mk s) d) [Fin 200; Fin (1/2); Fin s; Fin 0; Fin 1] y_wide.
Proof.
  intros Hs. split.
  - unfold well_posed. cbn [mock_cfg c_opt c_ins c_gal c_prof o_nsub i_slit i_pix g_rows g_wave ma_nsub ma_slit_w ma_pix ma_wave x_mock x_mk MGeom.k_rows o_spec ma_spec g_rest g_ratio ma_rest ma_ratio
       o_shift o_eff ma_shift ma_eff i_slitmask o_adapt o_factor o_pad ma_pad i_fwhm ma_fwhm g_m0 MGeom.k_m0 p_ndisp p_nvel y_prof ma_prof]. 
    repeat split; try (cbn; lia); try lra; try discriminate; auto.
    + intros i j H. unfold y_wide in *. destruct i as [|[|[|[|i]]]], j as [|[|[|[|j]]]]; cbn in *; try lia; lra.
    + exists 3%nat. split; [lia|]. cbn. lra.
    + right. split; [lra|]. split; [cbn; lra|]. eexists. reflexivity.
  - exists 30, (3/5), (1/5). repeat split; lra.
  - exists (1 + 0). reflexivity.
  - exists 1. split; [reflexivity|lra].
  - exists [6565]. split; [reflexivity|]. intros x [<-|[]]. lra.
  - exists [1]. split; [reflexivity|]. intros x [<-|[]]. lra.
  - intros r h. eexists. apply PProf.vel_Fin. lra.
  - intros r h. exists (exp (- r)). split; [reflexivity|apply exp_pos].
  - intros t Ht r h. exists t. cbn. split; [f_equal; lra|]. split; auto.
  - exists s. split; [reflexivity|]. now right.
  - exists 30. reflexivity.
  - intros _ x y. exists (exp (- (x * x + y * y))). split; [reflexivity|apply exp_pos].
Qed.

(* without the absolute value a negative dispersion gives a negative image *)
Lemma negative_image : exists c th l, well_posed c th l /\ o_abs (c_opt c) = false /\ (exists s, nth (p_nvel (c_prof c)) th NaN = Fin s /\ s < 0) /\
  exists m, image_is c th m /\ forall i t, (i < img_rows c)%nat -> (t < length l)%nat -> exists x, at2 m i t = Fin x /\ x < 0.
Proof.
  assert (Z : dispersion_is (y_wide_cfg 1) (y_flat (-50)) (fun _ _ => -50)) by (intros r h; cbn; split; [f_equal; lra|lra]).
  assert (D := y_wide_disc 1 (-50) ltac:(lra)). exists (y_wide_cfg 1), (y_flat (-50)), y_wide. split; [apply D|]. split; [reflexivity|]. split; [exists (-50); split; [reflexivity|lra]|].
  destruct (no_rotation _ _ _ _ _ _ _ _ _ _ _ _ _ D Z (or_introl eq_refl)) as (m & inc & n & nx & dx & E1 & E2 & E3 & E4 & E).
  exists m. split; [exact E1|]. intros i t Hi Ht. change (img_rows (y_wide_cfg 1)) with 3%nat in Hi. change (length y_wide) with 4%nat in Ht. eexists. split; [apply E; cbn; lia|].
  assert (P : 0 < row_sum (y_wide_cfg 1) nx dx 1 i (fun p => exp (- from_axis n p))) by (apply row_pos; [exact E4|cbn; lra|cbn; lia|cbn; lia|intros; apply exp_pos]).
  assert (S : spectrum [6565] [1] 1 0 (-50) (nth t y_wide 0) < 0).
  { unfold spectrum. cbn [combine map fold_right fst snd]. set (X := exp _). assert (0 < X) by apply exp_pos.
    assert (Q : 0 < sqrt (2 * PI)) by (apply sqrt_lt_R0; pose proof PI_RGT_0; lra).
    assert (N : 6565 * (1 + 1) * -50 / light_speed = - (656500 / light_speed)) by (unfold light_speed; field). rewrite N.
    assert (0 < 656500 / light_speed) by (unfold light_speed; lra).
    set (K := 656500 / light_speed) in *. set (Y := sqrt (2 * PI)) in *.
    replace (1 * (X / (- K * Y)) + 0) with (- (X / (K * Y))) by (field; lra).
    assert (0 < X / (K * Y)) by (apply Rdiv_lt_0_compat; [assumption|apply Rmult_lt_0_compat; assumption]). lra. }
  nra.
Qed.

(* a fit of such an observation *)
Definition x_kf : kinmodel := mkkm [Fin 100; Fin 1; Fin 30; Fin 0; Fin 1] [true; true; true; false; false] false None None NoStamp.
Definition x_data (F : nat -> nat -> R) : data2 := findata 3 4 F (fun _ _ => 1) (fun _ _ => 1) (fun _ _ => true) [0%nat; 1%nat; 2%nat; 3%nat].
Lemma x_fixed : offsets_fixed x_kf.
Proof. split; [reflexivity|]. split; [cbn; lia|]. intros i Hi. cbn in Hi. destruct i as [|[|[|[|[|i]]]]]; cbn; try lia; try discriminate. destruct i; discriminate. Qed.
Lemma x_start s F : 0 <= s -> exists k, history (mock_cfg (x_mock s) (x_mk s) (x_data F)) x_kf k.
Proof.
  intros Hs. set (c := mock_cfg (x_mock s) (x_mk s) (x_data F)).
  destruct (eval_lit _ _ _ (x_shining s (x_data F) Hs)) as (m & (a0 & b & Es & Eb & Em) & R & C & N & _). fold c in Es, Eb, R.
  destruct (finite_scale 3 4 F (fun _ _ => 1) (fun _ _ => 1) (fun _ _ => true) [0%nat; 1%nat; 2%nat; 3%nat] m) as (m2 & Sc & _); [intros x Hx; cbn in Hx; lia|intros; lra|exact R|exact C|exact N|].
  assert (NW : aper_new c [Fin 200; Fin (1/2); Fin s; Fin 0; Fin 1] NoStamp = (a_stamp b, Ok b)) by (unfold aper_new; now rewrite Es, Eb).
  destruct (make_intro c [Fin 200; Fin (1/2); Fin s] x_kf _ b m _ m2 eq_refl eq_refl eq_refl eq_refl NW Em Sc) as (k & E & _).
  exists k. exact (h_start _ _ _ _ E).
Qed.
Lemma image_example : shining (mock_cfg (x_mock 50) (x_mk 50) (x_data (fun _ _ => 1))) [Fin 200; Fin (1/2); Fin 50; Fin 0; Fin 1] y_wide /\
  shining (mock_cfg (x_mock 0) (x_mk 0) (x_data (fun _ _ => 1))) [Fin 200; Fin (1/2); Fin 0; Fin 0; Fin 1] y_wide.
Proof. split; apply x_shining; lra. Qed.
Lemma fit_example : let c := mock_cfg (x_mock 50) (x_mk 50) (x_data (fun _ _ => 1)) in
  3%nat = img_rows c /\ 4%nat = length y_wide /\ cols_ok 4 [0%nat; 1%nat; 2%nat; 3%nat] /\ offsets_fixed x_kf /\ fresh x_kf /\
  update_parameters (k_theta x_kf) (k_vary x_kf) [Fin 200; Fin (1/2); Fin 50] = ([Fin 200; Fin (1/2); Fin 50; Fin 0; Fin 1], Ok tt) /\
  shining c [Fin 200; Fin (1/2); Fin 50; Fin 0; Fin 1] y_wide /\ (exists k, history c x_kf k) /\
  log_prior (k_theta x_kf) (k_vary x_kf) [(Fin 0, Fin 1000); (Fin 0, Fin 10); (Fin 0, Fin 500); (Fin 0, Fin 1); (Fin 0, Fin 1)] [Fin 200; Fin (1/2); Fin 50] = Ok (Fin 0).
Proof.
  split; [reflexivity|]. split; [reflexivity|]. split; [intros x Hx; cbn in Hx; lia|]. split; [exact x_fixed|]. split; [reflexivity|]. split; [reflexivity|].
  split; [apply x_shining; lra|]. split; [apply x_start; lra|].
  unfold log_prior. cbn. unfold between. cbn [fst snd]. unfold fleb, fltb.
  repeat match goal with |- context [Rltb ?x ?y] => let H := fresh in assert (H : Rltb x y = true) by (apply Rltb_true; lra); rewrite H; clear H end.
  repeat match goal with |- context [Rleb ?x ?y] => let H := fresh in assert (H : Rleb x y = true) by (apply Rleb_true; lra); rewrite H; clear H end.
  reflexivity.
Qed.
Lemma mock_example : MGeom.generate_mock (ma_z (x_mock 50)) (ma_va (x_mock 50)) (ma_rt (x_mock 50)) (ma_sigma0 (x_mock 50)) (ma_yshift (x_mock 50)) (ma_dither (x_mock 50)) (length (ma_wave (x_mock 50))) (Fin (ma_pix (x_mock 50))) (ma_slit_len (x_mock 50)) (ma_nymin (x_mock 50)) = Ok (x_mk 50) /\
  forall d, shining (mock_cfg (x_mock 50) (x_mk 50) d) [ma_va (x_mock 50); ma_rt (x_mock 50); ma_sigma0 (x_mock 50); ma_yshift (x_mock 50); ma_z (x_mock 50)] y_wide.
Proof. split; [apply x_generate|]. intros d. apply x_shining. lra. Qed.
Lemma mock_truth_example : exists m F k, mock_slit_obs (x_mock 50) (x_data (fun _ _ => 0)) = Ok (Some m) /\
  usable 3 4 (fun _ _ => 1) (fun _ _ => 1) (fun _ _ => true) [0%nat; 1%nat; 2%nat; 3%nat] /\ noise_free 3 4 F [0%nat; 1%nat; 2%nat; 3%nat] (fun i => 2 + INR i) m /\
  offsets_fixed x_kf /\ fresh x_kf /\ k_noscale x_kf = false /\ k_stamp x_kf = NoStamp /\
  fst (update_parameters (k_theta x_kf) (k_vary x_kf) [Fin 200; Fin (1/2); Fin 50]) = [ma_va (x_mock 50); ma_rt (x_mock 50); ma_sigma0 (x_mock 50); ma_yshift (x_mock 50); ma_z (x_mock 50)] /\
  history (mock_cfg (x_mock 50) (x_mk 50) (x_data F)) x_kf k.
Proof.
  destruct mock_example as (G & Sh). destruct (mock_sound _ (x_data (fun _ _ => 0)) _ _ G (Sh _)) as (m & E & R & C & N & _).
  destruct (x_start 50 (fun i j => (2 + INR i) * val (at2 m i j)) ltac:(lra)) as (k & H).
  exists m, (fun i j => (2 + INR i) * val (at2 m i j)), k. split; [exact E|]. split; [exact f_usable|]. split.
  - split; [exact R|]. split; [exact C|]. intros i j Hi Hj. destruct (N i j) as (x & Ex & _); [rewrite R; exact Hi|rewrite C; exact Hj|]. exists x. split; [exact Ex|]. intros _. now rewrite Ex.
  - repeat (split; [first [exact x_fixed|reflexivity]|]). exact H.
Qed.
