From Coq Require Import Reals Lra Lia List Bool Arith ZArith.
From Verif Require Import PyFloat PyBase Arr PyNum MProf MKernels MGeom MSlitPlot SGeom SSlitPlot PGeom PGeom2 PKernels PLine.
From Verif Require PMask2.
Import ListNotations.
Local Open Scope R_scope.

Lemma pair_eq {A B} (a c : A) (b d : B) : a = c -> b = d -> (a, b) = (c, d).
Proof. intros; subst; reflexivity. Qed.

Lemma fsqrt_Fin r : 0 <= r -> fsqrt (Fin r) = Fin (sqrt r).
Proof. apply PMask2.fsqrt_Fin. Qed.

Lemma rot_at p th c : rot_coord_angle (at_ p) (Fin th) (Fin (fst c)) (Fin (snd c)) = at_ (about c th p).
Proof.
  destruct p as [x y], c as [a b]. unfold at_, about, plus, times, turn, rot_coord_angle, fsub. cbn [fst snd fneg fadd fmul fcos fsin].
  apply pair_eq; f_equal; ring.
Qed.

Definition ang (g : R) : R := g * (PI / 180).
Lemma turned_at p c d : turned (at_ p) (at_ c) (Fin d) = Ok (at_ (about c (- ang d) p)).
Proof.
  unfold turned, rot_object_center, rot_corner_coords. cbn [map]. unfold d2r. cbn [fmul].
  change (fst (at_ p), snd (at_ p)) with (at_ p). change (fst (at_ c)) with (Fin (fst c)). change (snd (at_ c)) with (Fin (snd c)). rewrite rot_at. cbn [bind].
  unfold ang. replace (-1 * d * (PI / 180)) with (- (d * (PI / 180))) by ring. reflexivity.
Qed.
Lemma less1_at p : less1 (at_ (plus p (1, 1))) = at_ p.
Proof. destruct p. unfold less1, at_, plus, fsub. cbn [fst snd fneg fadd]. apply pair_eq; f_equal; ring. Qed.
Lemma cent_at a : cent_pix a = at_ (middle a).
Proof. reflexivity. Qed.

Lemma ftan_ok pole t : cos t <> 0 -> ftan pole (Fin t) = Fin (tan t).
Proof. intros H. unfold ftan. destruct (Req_EM_T (cos t) 0); [contradiction|reflexivity]. Qed.
Lemma cos_shear : cos (378 / 100 * (PI / 180)) <> 0.
Proof. apply Rgt_not_eq. pose proof PI_RGT_0. apply cos_gt_0; lra. Qed.

Lemma galaxy_angle pole a : fdiv (fmul (fatan (ftan pole (fdiv (fmul (Fin a) (Fin PI)) (Fin 180)))) (Fin 180)) (Fin PI) = Fin (slit_angle pole (rad a)).
Proof.
  pose proof PI_RGT_0. cbn [fmul]. rewrite fdiv_Fin by lra. change (a * PI / 180) with (rad a).
  unfold slit_angle, ftan. destruct (Req_EM_T _ 0).
  - destruct (pole _); cbn [fatan fmul]; rewrite fdiv_Fin by lra; f_equal; field; lra.
  - cbn [fatan fmul]. rewrite fdiv_Fin by lra. reflexivity.
Qed.

Lemma points_at th c l : (2 <= length l)%nat -> exists k, rot_corner_coords (map at_ l) (Fin th) (Fin (fst c)) (Fin (snd c)) = Ok k /\ points k = map at_ (map (about c th) l).
Proof.
  intros L. rewrite rot_corners by (now rewrite map_length). eexists. split; [reflexivity|]. cbn [points]. clear L.
  induction l as [|p l IH]; [reflexivity|]. cbn [map combine]. rewrite IH, rot_at. f_equal.
Qed.

(* the drawing stage *)
Definition shear_of w ps : R := w / ps * tan (378 / 100 * (PI / 180)).
Definition corner_list (s : R * R) (yo w len ps : R) : list (R * R) :=
  let hw := 1 / 2 * w / ps in let hl := 1 / 2 * len / ps in let y := snd s - yo in
  [(fst s - hw, y - hl + shear_of w ps); (fst s + hw, y - hl); (fst s + hw, y + hl - shear_of w ps); (fst s - hw, y + hl); (fst s - hw, y - hl + shear_of w ps)].

Definition size_of (n : option nat) (pix ps : R) : R := match n with Some n => INR n * pix / ps | None => 2 / ps end.

Lemma draw_values pole g o m0 (rotate convolve : bool) n ps im f s sf ff imgPA serPA q re slitPA yoff pix ipix width len fw :
  scene_is g sf ff imgPA serPA q re slitPA yoff -> optics_are o pix ipix width len -> 0 < ps -> match m0 with Some (Fin _) => True | None => True | _ => False end ->
  (if convolve then psf_fwhm (o_psf o) = Some (Fin fw) else fw = 0) ->
  exists P, draw pole g o m0 rotate convolve true n (Fin ps) im (Fin (fst f)) (Fin (snd f)) (Fin (fst s)) (Fin (snd s)) = Ok P /\
    p_image P = im /\ p_scale P = Fin ps /\
    p_slit P = map at_ (map (about s (if rotate then 0 else ang (slitPA - imgPA))) (corner_list s (yoff / pix) width len ps)) /\
    let ga := slit_angle pole (rad (if rotate then serPA - (slitPA - imgPA) else serPA)) in
    let wide a := if convolve then sqrt ((fw / 2) ^ 2 + a ^ 2) else a in
    p_minor P = map at_ [about f (ang ga) (fst f - wide (re * q) / ps, snd f); about f (ang ga) (fst f + wide (re * q) / ps, snd f)] /\
    p_major P = map at_ [about f (ang ga) (fst f, snd f - wide re / ps); about f (ang ga) (fst f, snd f + wide re / ps)] /\
    (exists bar, p_ell P = Some ((at_ f, (Fin (2 * wide (re * q) / ps), Fin (2 * wide re / ps))), (Fin ga, bar)) /\
      match g_kpc g with Some (Fin k) => k <> 0 -> bar = Fin (re / k / ps) | None => bar = Fin (25 / 100 / ps) | _ => True end) /\
    p_xlim P = (Fin (fst f - size_of n pix ps / 2), Fin (fst f + size_of n pix ps / 2)) /\
    p_ylim P = (match m0 with Some (Fin m) => Fin (snd f - (m + 1 / 2) * pix / ps) | _ => Fin (snd f - size_of n pix ps / 2) end,
                match m0 with Some (Fin m) => Fin (snd f - (m + 1 / 2) * pix / ps + size_of n pix ps) | _ => Fin (snd f + size_of n pix ps / 2) end).
Proof.
  intros (G1&G2&G3&G4&G5&G6&G7&G8) (O1&O2&O3&O4&O5&O6) Hp Hm Hc. unfold draw, slit_on_image. rewrite G3, G4, G5, G6, G7, G8, O1, O3, O4.
  set (wide := fun a : R => if convolve then sqrt ((fw / 2) ^ 2 + a ^ 2) else a).
  set (ga0 := if rotate then serPA - (slitPA - imgPA) else serPA).
  assert (A : (if rotate then Ok (Fin 0) else Ok (fsub (Fin slitPA) (Fin imgPA))) = Ok (Fin (if rotate then 0 else slitPA - imgPA))) by (destruct rotate; reflexivity).
  rewrite A. clear A.
  assert (B : (if rotate then do a <- Ok (fsub (Fin slitPA) (Fin imgPA)); Ok (fsub (Fin serPA) a) else Ok (Fin serPA)) = Ok (Fin ga0)) by (unfold ga0; destruct rotate; reflexivity).
  rewrite B. clear B. cbn [bind].
  assert (SZ : match n with Some n0 => if feqb (fmul (fdiv (Fin 2) (Fin ps)) (Fin ps)) (fmul (Fin (INR n0)) (Fin pix)) then fdiv (Fin 2) (Fin ps) else fdiv (fmul (Fin (INR n0)) (Fin pix)) (Fin ps)
                | None => fdiv (Fin 2) (Fin ps) end = Fin (size_of n pix ps)).
  { unfold size_of. destruct n as [n|]; [|now rewrite fdiv_Fin by lra]. cbn [fmul]. rewrite !fdiv_Fin by lra. cbn [fmul feqb]. unfold Reqb.
    destruct (Req_EM_T (2 / ps * ps) (INR n * pix)) as [E|E]; [|reflexivity]. f_equal. rewrite <- E. field. lra. }
  rewrite SZ. rewrite (fdiv_Fin (size_of n pix ps) 2) by lra.
  assert (L2 : 0 < ln 2) by (rewrite <- ln_1; apply ln_increasing; lra).
  assert (S2 : fsqrt (fmul (Fin 2) (Fin (ln 2))) = Fin (sqrt (2 * ln 2))) by (cbn [fmul]; apply fsqrt_Fin; lra).
  assert (W : forall a, convolve = true -> fmul (fsqrt (fadd (fsq (fdiv (Fin fw) (Fin fwhm_factor))) (fsq (fdiv (Fin a) (Fin (sqrt (2 * ln 2))))))) (Fin (sqrt (2 * ln 2))) = Fin (wide a)).
  { intros a Ec. unfold wide. rewrite Ec. assert (Q : 0 < sqrt (2 * ln 2)) by (apply sqrt_lt_R0; lra).
    assert (F : fwhm_factor = 2 * sqrt (2 * ln 2)) by reflexivity. rewrite !fdiv_Fin by (try rewrite F; lra). unfold fsq. cbn [fmul fadd].
    rewrite fsqrt_Fin by nra. cbn [fmul]. f_equal. rewrite <- (sqrt_Rsqr (sqrt (2 * ln 2))) at 3 by lra. rewrite <- sqrt_mult_alt by nra. f_equal. unfold Rsqr. rewrite F. field. lra. }
  assert (AB : (if convolve then match psf_fwhm (o_psf o) with
                | Some f => Ok (fmul (fsqrt (fadd (fsq (fdiv f (Fin fwhm_factor))) (fsq (fdiv (Fin re) (fsqrt (fmul (Fin 2) (Fin (ln 2)))))))) (fsqrt (fmul (Fin 2) (Fin (ln 2)))),
                                fmul (fsqrt (fadd (fsq (fdiv f (Fin fwhm_factor))) (fsq (fdiv (fmul (Fin re) (Fin q)) (fsqrt (fmul (Fin 2) (Fin (ln 2)))))))) (fsqrt (fmul (Fin 2) (Fin (ln 2)))))
                | None => Err TypeError end else Ok (Fin re, fmul (Fin re) (Fin q))) = Ok (Fin (wide re), Fin (wide (re * q)))).
  { rewrite S2. destruct convolve; [|reflexivity]. rewrite Hc. change (fmul (Fin re) (Fin q)) with (Fin (re * q)). rewrite !W by reflexivity. reflexivity. }
  rewrite AB. clear AB. cbn [bind fst snd]. rewrite galaxy_angle. set (ga := slit_angle pole (rad ga0)).
  unfold d2r. rewrite (fdiv_Fin yoff pix) by lra. cbn [fmul]. rewrite (ftan_ok pole) by apply cos_shear. rewrite !(fdiv_Fin _ ps) by lra. cbn [bind fmul]. unfold fsub. cbn [fst snd fneg fadd fmul].
  destruct (points_at (if rotate then 0 else ang (slitPA - imgPA)) s (corner_list s (yoff / pix) width len ps)) as (k1&K1&K2); [cbn; lia|].
  match goal with |- context [rot_corner_coords ?l ?t (Fin (fst s)) _] => assert (E1 : rot_corner_coords l t (Fin (fst s)) (Fin (snd s)) = Ok k1) end.
  { rewrite <- K1. apply (f_equal4 rot_corner_coords); [|destruct rotate; unfold ang; f_equal; ring|reflexivity|reflexivity]. unfold corner_list, at_, shear_of. cbn [map fst snd]. repeat apply (f_equal2 cons); try reflexivity; apply pair_eq; f_equal; ring. }
  rewrite E1. cbn [bind]. clear E1 K1.
  destruct (points_at (ang ga) f [(fst f - wide (re * q) / ps, snd f); (fst f + wide (re * q) / ps, snd f)]) as (k2&K3&K4); [cbn; lia|].
  match goal with |- context [rot_corner_coords ?l ?t (Fin (fst f)) _] => assert (E1 : rot_corner_coords l t (Fin (fst f)) (Fin (snd f)) = Ok k2) end.
  { rewrite <- K3. reflexivity. }
  rewrite E1. cbn [bind]. clear E1 K3.
  destruct (points_at (ang ga) f [(fst f, snd f - wide re / ps); (fst f, snd f + wide re / ps)]) as (k3&K5&K6); [cbn; lia|].
  match goal with |- context [rot_corner_coords ?l ?t (Fin (fst f)) _] => assert (E1 : rot_corner_coords l t (Fin (fst f)) (Fin (snd f)) = Ok k3) end.
  { rewrite <- K5. reflexivity. }
  rewrite E1. cbn [bind]. clear E1 K5.
  eexists. split; [reflexivity|]. cbn [p_image p_scale p_slit p_minor p_major p_ell p_xlim p_ylim]. split; [reflexivity|]. split; [reflexivity|].
  split; [exact K2|]. split; [exact K4|]. split; [exact K6|]. split.
  { eexists. split; [reflexivity|]. destruct (g_kpc g) as [[k| | |]|]; try exact I; [|reflexivity]. intros Hk. rewrite fdiv_Fin by exact Hk. cbn [fmul]. f_equal. field. split; lra. }
  split; [reflexivity|]. destruct m0 as [[m| | |]|]; try contradiction; cbn [fadd]; [|reflexivity]. cbn [fmul]. rewrite fdiv_Fin by lra. cbn [fneg fadd]. apply pair_eq; f_equal; field; lra.
Qed.

(* stage one: image and positions *)
Definition seen (rotate : bool) (g : scene) (slitPA imgPA : R) (p : R * R) : R * R :=
  if rotate then about (middle (g_stamp g)) (- ang (slitPA - imgPA)) p else p.

Lemma plot_inv interp pole g o m0 (rotate convolve : bool) cs n (down show : bool) P s f imgPA serPA q re slitPA yoff :
  plot_image_slit interp pole g o m0 rotate convolve cs n down show = Ok P -> scene_is g s f imgPA serPA q re slitPA yoff ->
  show = true /\ exists im w, (if rotate then exists sg, (if convolve then convolve_rot_gal interp g o sg else rotate_pstamp interp g) = Ok im else im = g_stamp g) /\
    (if down then downsampled o m0 im (at_ (seen rotate g slitPA imgPA f)) (at_ (seen rotate g slitPA imgPA s)) else Ok (im, (at_ (seen rotate g slitPA imgPA f), at_ (seen rotate g slitPA imgPA s)))) = Ok w /\
    draw pole g o m0 rotate convolve true n (if down then o_pix o else o_ipix o) (fst w) (fst (fst (snd w))) (snd (fst (snd w))) (fst (snd (snd w))) (snd (snd (snd w))) = Ok P.
Proof.
  intros H (G1&G2&G3&G4&G5&G6&G7&G8). unfold plot_image_slit in H. rewrite G6 in H.
  match type of H with bind ?a _ = _ => destruct a as [sg|] eqn:ES; [|discriminate] end. cbn [bind] in H.
  assert (SI : slit_on_image g = Ok (Fin (slitPA - imgPA))) by (unfold slit_on_image; rewrite G7, G3; reflexivity).
  rewrite SI, G1, G2, !less1_at, cent_at in H.
  destruct show.
  - split; [reflexivity|]. destruct rotate; cbn [bind] in H.
    + destruct (if convolve then convolve_rot_gal interp g o sg else rotate_pstamp interp g) as [im|] eqn:EI; [|discriminate]. cbn [bind] in H.
      rewrite !turned_at in H. cbn [bind] in H. cbn [fst snd] in H.
      match type of H with bind ?a _ = _ => destruct a as [w|] eqn:EW; [|discriminate] end. cbn [bind] in H.
      exists im, w. split; [eauto|]. split; [exact EW|exact H].
    + cbn [fst snd] in H. match type of H with bind ?a _ = _ => destruct a as [w|] eqn:EW; [|discriminate] end. cbn [bind] in H.
      exists (g_stamp g), w. split; [reflexivity|]. split; [exact EW|exact H].
  - exfalso. destruct rotate; cbn [bind] in H; [|discriminate]. destruct (if convolve then convolve_rot_gal interp g o sg else rotate_pstamp interp g) as [im|]; discriminate.
Qed.

Lemma values interp pole g o m0 (rotate convolve : bool) cs n P s f imgPA serPA q re slitPA yoff pix ipix width len fw :
  plot_image_slit interp pole g o m0 rotate convolve cs n false true = Ok P -> scene_is g s f imgPA serPA q re slitPA yoff -> optics_are o pix ipix width len ->
  match m0 with Some (Fin _) => True | None => True | _ => False end -> (if convolve then psf_fwhm (o_psf o) = Some (Fin fw) else fw = 0) ->
  let ps := ipix in let f := seen rotate g slitPA imgPA f in let s := seen rotate g slitPA imgPA s in
    (if rotate then exists sg, (if convolve then convolve_rot_gal interp g o sg else rotate_pstamp interp g) = Ok (p_image P) else p_image P = g_stamp g) /\ p_scale P = Fin ps /\
    p_slit P = map at_ (map (about s (if rotate then 0 else ang (slitPA - imgPA))) (corner_list s (yoff / pix) width len ps)) /\
    let ga := slit_angle pole (rad (if rotate then serPA - (slitPA - imgPA) else serPA)) in
    let wide a := if convolve then sqrt ((fw / 2) ^ 2 + a ^ 2) else a in
    p_minor P = map at_ [about f (ang ga) (fst f - wide (re * q) / ps, snd f); about f (ang ga) (fst f + wide (re * q) / ps, snd f)] /\
    p_major P = map at_ [about f (ang ga) (fst f, snd f - wide re / ps); about f (ang ga) (fst f, snd f + wide re / ps)] /\
    (exists bar, p_ell P = Some ((at_ f, (Fin (2 * wide (re * q) / ps), Fin (2 * wide re / ps))), (Fin ga, bar)) /\
      match g_kpc g with Some (Fin k) => k <> 0 -> bar = Fin (re / k / ps) | None => bar = Fin (25 / 100 / ps) | _ => True end) /\
    p_xlim P = (Fin (fst f - size_of n pix ps / 2), Fin (fst f + size_of n pix ps / 2)) /\
    p_ylim P = (match m0 with Some (Fin m) => Fin (snd f - (m + 1 / 2) * pix / ps) | _ => Fin (snd f - size_of n pix ps / 2) end,
                match m0 with Some (Fin m) => Fin (snd f - (m + 1 / 2) * pix / ps + size_of n pix ps) | _ => Fin (snd f + size_of n pix ps / 2) end).
Proof.
  intros H G O Hm Hc ps f' s'. destruct (plot_inv _ _ _ _ _ _ _ _ _ _ _ _ _ _ _ _ _ _ _ _ H G) as (_&im&w&I&W&D). apply Ok_inj in W. subst w. cbn [fst snd at_] in D.
  destruct O as (O1&O2&O3&O4&O5&O6). rewrite O2 in D.
  destruct (draw_values pole g o m0 rotate convolve n ipix im f' s' s f imgPA serPA q re slitPA yoff pix ipix width len fw) as (P'&D'&V1&V2); auto.
  { repeat split; assumption. }
  fold f' s' in D. rewrite D in D'. inversion D'; subst P'. split; [rewrite V1; exact I|]. exact V2.
Qed.

Lemma drawn interp pole g o m0 rotate cs n s f imgPA serPA q re slitPA yoff pix ipix width len :
  scene_is g s f imgPA serPA q re slitPA yoff -> optics_are o pix ipix width len -> match m0 with Some (Fin _) => True | None => True | _ => False end ->
  exists P, plot_image_slit interp pole g o m0 rotate false cs n false true = Ok P.
Proof.
  intros G O Hm. pose proof G as (G1&G2&G3&G4&G5&G6&G7&G8). pose proof O as (O1&O2&O3&O4&O5&O6).
  assert (SI : slit_on_image g = Ok (Fin (slitPA - imgPA))) by (unfold slit_on_image; rewrite G7, G3; reflexivity).
  unfold plot_image_slit. rewrite G6. assert (S : exists sg, match cs with Some s => Ok s | None => Ok NaN end = Ok sg) by (destruct cs; eauto). destruct S as [sg S]. rewrite S. cbn [bind].
  unfold rotate_pstamp. rewrite SI, G1, G2, !less1_at, cent_at, O2. cbn [bind].
  destruct rotate; cbn [bind]; rewrite ?turned_at; cbn [bind fst snd]; unfold at_; cbv beta; cbn [fst snd];
  match goal with |- context [draw pole g o m0 ?r false true n _ ?im (Fin (fst ?f')) _ (Fin (fst ?s')) _] =>
    destruct (draw_values pole g o m0 r false n ipix im f' s' s f imgPA serPA q re slitPA yoff pix ipix width len 0 G O O6 Hm eq_refl) as (P&D&_) end; exists P; exact D.
Qed.

(* turning *)
Lemma turn_turn a b p : turn a (turn b p) = turn (a + b) p.
Proof. destruct p as [x y]. unfold turn. cbn [fst snd]. rewrite cos_plus, sin_plus. apply pair_eq; ring. Qed.
Lemma turn_0 p : turn 0 p = p.
Proof. destruct p as [x y]. unfold turn. cbn [fst snd]. rewrite cos_0, sin_0. apply pair_eq; ring. Qed.
Lemma turn_plus a p q : turn a (plus p q) = plus (turn a p) (turn a q).
Proof. destruct p, q. unfold turn, plus. cbn [fst snd]. apply pair_eq; ring. Qed.
Lemma about_about c a b p : about c a (about c b p) = about c (a + b) p.
Proof.
  unfold about. rewrite <- turn_turn. f_equal. f_equal. destruct c, (turn b _). unfold plus, times. cbn [fst snd]. apply pair_eq; ring.
Qed.
Lemma about_0 c p : about c 0 p = p.
Proof. unfold about. rewrite turn_0. destruct c, p. unfold plus, times. cbn [fst snd]. apply pair_eq; ring. Qed.
Lemma about_shift c a p d : about c a (plus p d) = plus (about c a p) (turn a d).
Proof. destruct c, p, d. unfold about, plus, times, turn. cbn [fst snd]. apply pair_eq; ring. Qed.
Lemma about_self c t d : about c t (plus c d) = plus c (turn t d).
Proof. destruct c, d. unfold about, plus, times, turn. cbn [fst snd]. apply pair_eq; ring. Qed.

Lemma seen_back rotate g slitPA imgPA p : about (middle (g_stamp g)) (if rotate : bool then ang (slitPA - imgPA) else 0) (seen rotate g slitPA imgPA p) = p.
Proof. unfold seen. destruct rotate; [rewrite about_about|]; [replace (ang (slitPA - imgPA) + - ang (slitPA - imgPA)) with 0 by ring|]; apply about_0. Qed.

(* 1: what is seen at a pixel *)
Lemma content interp pole g o m0 cs n P s f imgPA serPA q re slitPA yoff pix ipix width len :
  plot_image_slit interp pole g o m0 true false cs n false true = Ok P -> scene_is g s f imgPA serPA q re slitPA yoff -> optics_are o pix ipix width len ->
  match m0 with Some (Fin _) => True | None => True | _ => False end ->
  rows (p_image P) = rows (g_stamp g) /\ cols (p_image P) = cols (g_stamp g) /\
  exists e axes r, p_ell P = Some ((at_ e, axes), r) /\
  forall i j, let sky := plus f (turn (rad (slitPA - imgPA)) (plus (INR j, INR i) (times (-1) e))) in at2 (p_image P) i j = interp (g_stamp g) (snd sky) (fst sky).
Proof.
  intros H G O Hm. destruct (values _ _ _ _ _ _ _ _ _ _ _ _ _ _ _ _ _ _ _ _ _ _ 0 H G O Hm eq_refl) as ((sg&I)&_&_&_&_&(bar&E&_)&_).
  pose proof G as (_&_&G3&_&_&_&G7&_). unfold rotate_pstamp, slit_on_image in I. rewrite G7, G3 in I. cbn [bind] in I. apply Ok_inj in I. rewrite <- I. split; [reflexivity|]. split; [reflexivity|].
  exists (seen true g slitPA imgPA f). eexists. eexists. split; [exact E|]. intros i j sky. unfold sky, scipyrotate. cbn [at2 fsub fneg fadd].
  set (t := (slitPA + - imgPA) * (PI / 180)).
  assert (X : plus f (turn (rad (slitPA - imgPA)) (plus (INR j, INR i) (times (-1) (seen true g slitPA imgPA f)))) = about (middle (g_stamp g)) t (INR j, INR i)).
  { replace (rad (slitPA - imgPA)) with t by (unfold t, rad; field). assert (B := seen_back true g slitPA imgPA f). cbv beta iota in B. replace (ang (slitPA - imgPA)) with t in B by (unfold t, ang; ring).
    rewrite <- B at 1. rewrite <- about_shift. f_equal. destruct (seen true g slitPA imgPA f). unfold plus, times. cbn [fst snd]. apply pair_eq; ring. }
  rewrite X. unfold about, middle, plus, times, turn. cbn [fst snd]. f_equal; ring.
Qed.

(* 2: the slit outline *)
Lemma outline_at s t yo w len ps : outline (plus s (turn t (0, - yo))) t (w / ps) ((len - w * tan (378 / 100 * (PI / 180))) / ps) (w / ps * tan (378 / 100 * (PI / 180)))
  (map (about s t) (corner_list s yo w len ps)).
Proof.
  unfold outline, corner_list, shear_of. cbn [map]. set (k := tan _). destruct s as [a b]. unfold about, plus, times, turn, Rdiv. cbn [fst snd]. set (i := / ps).
  repeat apply (f_equal2 cons); try reflexivity; apply pair_eq; field.
Qed.
Lemma slit_shape interp pole g o m0 (rotate convolve : bool) cs n P s f imgPA serPA q re slitPA yoff pix ipix width len fw :
  plot_image_slit interp pole g o m0 rotate convolve cs n false true = Ok P -> scene_is g s f imgPA serPA q re slitPA yoff -> optics_are o pix ipix width len ->
  match m0 with Some (Fin _) => True | None => True | _ => False end -> (if convolve then psf_fwhm (o_psf o) = Some (Fin fw) else fw = 0) ->
  let t := if rotate then 0 else rad (slitPA - imgPA) in
  let k := tan (rad (378 / 100)) in
  exists s' l, about (middle (g_stamp g)) (if rotate then rad (slitPA - imgPA) else 0) s' = s /\
    outline (plus s' (turn t (0, - (yoff / pix)))) t (width / ipix) ((len - width * k) / ipix) (width / ipix * k) l /\ p_slit P = map at_ l.
Proof.
  intros H G O Hm Hc t k. destruct (values _ _ _ _ _ _ _ _ _ _ _ _ _ _ _ _ _ _ _ _ _ _ _ H G O Hm Hc) as (_&_&V&_).
  assert (R : forall a, rad a = ang a) by (intros; unfold rad, ang; field). exists (seen rotate g slitPA imgPA s). eexists. split; [|split; [|exact V]].
  - rewrite <- (seen_back rotate g slitPA imgPA s) at 2. rewrite R. reflexivity.
  - unfold t, k. rewrite !R. apply outline_at.
Qed.

(* 3: the axes *)
Lemma rad_ang a : rad a = ang a.
Proof. unfold rad, ang. field. Qed.
Lemma turn_pi t k : exists e, (e = 1 \/ e = -1) /\ forall p, turn (t - IZR k * PI) p = times e (turn t p).
Proof.
  destruct (cos_sub_pi t k) as (e&E&C&S). exists e. split; [exact E|]. intros p. unfold turn, times. cbn [fst snd]. rewrite C, S. apply pair_eq; ring.
Qed.
Lemma segment_at f t h pole p p1 p2 : p1 = plus f (times (- h) p) -> p2 = plus f (times h p) ->
  segment f h (turn t p) (map at_ [about f (ang (slit_angle pole t)) p1; about f (ang (slit_angle pole t)) p2]).
Proof.
  intros -> ->. destruct (slit_angle_reduced pole t) as (k&_&A&_). rewrite <- rad_ang. unfold rad. rewrite A. destruct (turn_pi t k) as (e&E&T).
  rewrite !about_self, !T. cbn [map]. assert (N : forall a, turn t (times a p) = times a (turn t p)) by (intros; unfold turn, times; cbn [fst snd]; apply pair_eq; ring).
  rewrite !N. destruct (turn t p) as [a b]. unfold segment, times, plus, at_. cbn [fst snd].
  destruct E as [-> | ->]; [left|right]; repeat apply (f_equal2 cons); try reflexivity; apply pair_eq; f_equal; ring.
Qed.
Lemma half_turns_angle pole a : half_turns (slit_angle pole (rad a)) a.
Proof.
  destruct (slit_angle_reduced pole (rad a)) as (k&_&A&_). exists (- k)%Z. rewrite opp_IZR. pose proof PI_RGT_0. unfold rad in A at 2.
  assert (E : (slit_angle pole (rad a) - a + 180 * IZR k) * PI = 0) by lra. apply Rmult_integral in E. lra.
Qed.
Lemma axes_at interp pole g o m0 (rotate convolve : bool) cs n P s f imgPA serPA q re slitPA yoff pix ipix width len fw :
  plot_image_slit interp pole g o m0 rotate convolve cs n false true = Ok P -> scene_is g s f imgPA serPA q re slitPA yoff -> optics_are o pix ipix width len ->
  match m0 with Some (Fin _) => True | None => True | _ => False end -> (if convolve then psf_fwhm (o_psf o) = Some (Fin fw) else fw = 0) ->
  let seen_PA := serPA - (if rotate then slitPA - imgPA else 0) in
  let wide a := if convolve then sqrt ((fw / 2) ^ 2 + a ^ 2) else a in
  exists f' ga bar, about (middle (g_stamp g)) (if rotate then rad (slitPA - imgPA) else 0) f' = f /\
    segment f' (wide re / ipix) (turn (rad seen_PA) (0, 1)) (p_major P) /\ segment f' (wide (re * q) / ipix) (turn (rad seen_PA) (1, 0)) (p_minor P) /\
    p_ell P = Some ((at_ f', (Fin (2 * (wide (re * q) / ipix)), Fin (2 * (wide re / ipix)))), (Fin ga, bar)) /\ half_turns ga seen_PA.
Proof.
  intros H G O Hm Hc sp wide. destruct (values _ _ _ _ _ _ _ _ _ _ _ _ _ _ _ _ _ _ _ _ _ _ _ H G O Hm Hc) as (_&_&_&V1&V2&(bar&V3&_)&_).
  assert (E : (if rotate then serPA - (slitPA - imgPA) else serPA) = sp) by (unfold sp; destruct rotate; ring). rewrite E in *.
  set (f' := seen rotate g slitPA imgPA f) in *. exists f', (slit_angle pole (rad sp)), bar.
  split; [unfold f'; rewrite <- (seen_back rotate g slitPA imgPA f) at 2; rewrite rad_ang; reflexivity|].
  split; [|split; [|split; [|apply half_turns_angle]]].
  - rewrite V2. apply segment_at; destruct f'; unfold plus, times; cbn [fst snd]; apply pair_eq; unfold wide; try ring.
  - rewrite V1. apply segment_at; destruct f'; unfold plus, times; cbn [fst snd]; apply pair_eq; unfold wide; try ring.
  - rewrite V3. fold (wide (re * q)) (wide re). unfold Rdiv. rewrite !Rmult_assoc. reflexivity.
Qed.

(* 4: both panels show one sky *)
Lemma corner_offs s yo w len ps : corner_list s yo w len ps = map (plus s) (corner_list (0, 0) yo w len ps).
Proof. unfold corner_list, plus. cbn [map fst snd]. repeat apply (f_equal2 cons); try reflexivity; apply pair_eq; ring. Qed.

Lemma one_sky interp pole g o m0 cs n P Q s f imgPA serPA q re slitPA yoff pix ipix width len :
  plot_image_slit interp pole g o m0 true false cs n false true = Ok P -> plot_image_slit interp pole g o m0 false false cs n false true = Ok Q ->
  scene_is g s f imgPA serPA q re slitPA yoff -> optics_are o pix ipix width len -> match m0 with Some (Fin _) => True | None => True | _ => False end ->
  let sky := about (middle (g_stamp g)) (rad (slitPA - imgPA)) in
  (exists l, p_slit P = map at_ l /\ p_slit Q = map at_ (map sky l)) /\
  (exists l, p_major P = map at_ l /\ (p_major Q = map at_ (map sky l) \/ p_major Q = rev (map at_ (map sky l)))) /\
  (exists l, p_minor P = map at_ l /\ (p_minor Q = map at_ (map sky l) \/ p_minor Q = rev (map at_ (map sky l)))) /\
  exists e axes a bar b bar', p_ell P = Some ((at_ e, axes), (Fin a, bar)) /\ p_ell Q = Some ((at_ (sky e), axes), (Fin b, bar')) /\ half_turns (a + (slitPA - imgPA)) b.
Proof.
  intros HP HQ G O Hm sky.
  destruct (values _ _ _ _ _ _ _ _ _ _ _ _ _ _ _ _ _ _ _ _ _ _ 0 HP G O Hm eq_refl) as (_&_&P1&_&_&(bP&PE&PB)&_).
  destruct (values _ _ _ _ _ _ _ _ _ _ _ _ _ _ _ _ _ _ _ _ _ _ 0 HQ G O Hm eq_refl) as (_&_&Q1&_&_&(bQ&QE&QB)&_).
  destruct (axes_at _ _ _ _ _ _ _ _ _ _ _ _ _ _ _ _ _ _ _ _ _ _ 0 HP G O Hm eq_refl) as (fP&gP&cP&FP&MP&NP&EP&AP).
  destruct (axes_at _ _ _ _ _ _ _ _ _ _ _ _ _ _ _ _ _ _ _ _ _ _ 0 HQ G O Hm eq_refl) as (fQ&gQ&cQ&FQ&MQ&NQ&EQ&AQ).
  cbv beta iota zeta in *. rewrite about_0 in FQ. subst fQ. fold sky in FP.
  assert (T : forall d p, sky (plus fP (times d p)) = plus f (times d (turn (rad (slitPA - imgPA)) p))).
  { intros d p. unfold sky. rewrite about_shift. fold (sky fP). rewrite FP. f_equal. unfold turn, times. cbn [fst snd]. apply pair_eq; ring. }
  assert (D : forall p, turn (rad (slitPA - imgPA)) (turn (rad (serPA - (slitPA - imgPA))) p) = turn (rad (serPA - 0)) p).
  { intros p. rewrite turn_turn. f_equal. unfold rad. field. }
  assert (SEG : forall h p l l', segment fP h (turn (rad (serPA - (slitPA - imgPA))) p) l -> segment f h (turn (rad (serPA - 0)) p) l' ->
    exists m, l = map at_ m /\ (l' = map at_ (map sky m) \/ l' = rev (map at_ (map sky m)))).
  { intros h p l l' [S|S] [S'|S']; subst l l'; [| | |];
      match goal with |- exists m, [at_ ?a; at_ ?b] = _ /\ _ => exists [a; b]; split; [reflexivity|]; cbn [map rev app]; rewrite !T, !D; auto end. }
  split; [|split; [exact (SEG _ _ _ _ MP MQ)|split; [exact (SEG _ _ _ _ NP NQ)|]]].
  - eexists. split; [exact P1|]. rewrite Q1. f_equal. unfold seen. rewrite corner_offs, (corner_offs (about _ _ _)). rewrite !map_map. apply map_ext. intros d.
    rewrite about_0. unfold sky. rewrite rad_ang, !about_self, about_shift, about_about. f_equal.
    replace (ang (slitPA - imgPA) + - ang (slitPA - imgPA)) with 0 by ring. now rewrite about_0.
  - exists fP. eexists. exists gP, cP, gQ, cQ. split; [exact EP|]. rewrite EQ, FP. split; [reflexivity|].
    destruct AP as [a AP], AQ as [b AQ]. exists (a - b)%Z. rewrite minus_IZR. lra.
Qed.

(* 5: window, scale bar *)
Lemma window interp pole g o m0 (rotate convolve : bool) cs n P s f imgPA serPA q re slitPA yoff pix ipix width len fw :
  plot_image_slit interp pole g o m0 rotate convolve cs n false true = Ok P -> scene_is g s f imgPA serPA q re slitPA yoff -> optics_are o pix ipix width len ->
  match m0 with Some (Fin _) => True | None => True | _ => False end -> (if convolve then psf_fwhm (o_psf o) = Some (Fin fw) else fw = 0) ->
  let side := match n with Some k => INR k * pix / ipix | None => 2 / ipix end in
  exists f' axes ga bar lo, p_ell P = Some ((at_ f', axes), (ga, bar)) /\ p_scale P = Fin ipix /\
    p_xlim P = (Fin (fst f' - side / 2), Fin (fst f' + side / 2)) /\ p_ylim P = (Fin lo, Fin (lo + side)) /\
    lo + match m0 with Some (Fin m) => (m + 1 / 2) * pix / ipix | _ => side / 2 end = snd f' /\
    match g_kpc g with Some (Fin k) => k <> 0 -> bar = Fin (re / k / ipix) | None => bar = Fin (25 / 100 / ipix) | _ => True end.
Proof.
  intros H G O Hm Hc side. destruct (values _ _ _ _ _ _ _ _ _ _ _ _ _ _ _ _ _ _ _ _ _ _ _ H G O Hm Hc) as (_&V0&_&_&_&(bar&V3&V4)&V5&V6).
  eexists. eexists. eexists. exists bar. exists (snd (seen rotate g slitPA imgPA f) - match m0 with Some (Fin m) => (m + 1 / 2) * pix / ipix | _ => side / 2 end).
  split; [exact V3|]. split; [exact V0|]. split; [exact V5|]. split; [|split; [ring|exact V4]].
  rewrite V6. destruct m0 as [[m| | |]|]; try contradiction; [reflexivity|]. apply pair_eq; [reflexivity|]. f_equal. unfold size_of, side. destruct n; lra.
Qed.

(* 6: on the pixels of the spectrograph *)
Lemma downsampled_inv o m im gal sci w pix ipix width len : downsampled o (Some (Fin m)) im (at_ gal) (at_ sci) = Ok w -> optics_are o pix ipix width len ->
  let nr := Z.to_nat (Int_part (INR (rows im) * ipix / pix)) in let c := ((INR nr - 1) / 2, m) in
  snd w = (at_ c, at_ (plus c (times (ipix / pix) (plus sci (times (-1) gal))))) /\
  box_integrate_pstamp im (map (fun i => Fin ((INR i - fst gal) * ipix)) (seq 0 (cols im))) (map (fun i => Fin ((INR i - snd gal) * ipix)) (seq 0 (rows im)))
     (map (fun i => Fin ((INR i - fst c) * pix)) (seq 0 nr)) (map (fun i => Fin ((INR i - m) * pix)) (seq 0 nr)) = Ok (fst w).
Proof.
  intros H (O1&O2&_&_&O5&O6) nr c. unfold downsampled in H. rewrite O1, O2 in H. cbn [fmul] in H. rewrite fdiv_Fin in H by lra. unfold int_floor in H. cbn [bind] in H.
  destruct (Z.ltb _ 0) eqn:L; [discriminate|]. cbn [bind] in H. apply Z.ltb_ge in L.
  assert (N : INR nr = IZR (Int_part (INR (rows im) * ipix / pix))) by (unfold nr; rewrite INR_IZR_INZ, Z2Nat.id by exact L; reflexivity).
  rewrite <- N in H. fold nr in H. unfold fsub in H. cbn [fneg fadd] in H. rewrite fdiv_Fin in H by lra. change (fst (at_ gal)) with (Fin (fst gal)) in H. change (snd (at_ gal)) with (Fin (snd gal)) in H.
  cbn [fneg fadd fmul] in H. match type of H with bind ?a _ = _ => destruct a as [im'|] eqn:E; [|discriminate] end. cbn [bind] in H. apply Ok_inj in H. subst w. cbn [fst snd].
  split; [|exact E]. unfold c, at_, plus, times. cbn [fst snd fneg fadd fmul]. rewrite !fdiv_Fin by lra. cbn [fadd]. apply pair_eq; apply pair_eq; f_equal; field; lra.
Qed.

Lemma on_rows interp pole g o m (rotate : bool) cs n P s f imgPA serPA q re slitPA yoff pix ipix width len :
  plot_image_slit interp pole g o (Some (Fin m)) rotate false cs (Some n) true true = Ok P -> scene_is g s f imgPA serPA q re slitPA yoff -> optics_are o pix ipix width len ->
  let nr := Z.to_nat (Int_part (INR (rows (g_stamp g)) * ipix / pix)) in let c := ((INR nr - 1) / 2, m) in
  exists im f' s' l ga bar, let back := about (middle (g_stamp g)) (if rotate then rad (slitPA - imgPA) else 0) in
    back f' = f /\ back s' = s /\
    (if rotate then rotate_pstamp interp g = Ok im else im = g_stamp g) /\
    box_integrate_pstamp im (map (fun i => Fin ((INR i - fst f') * ipix)) (seq 0 (cols im))) (map (fun i => Fin ((INR i - snd f') * ipix)) (seq 0 (rows im)))
     (map (fun i => Fin ((INR i - fst c) * pix)) (seq 0 nr)) (map (fun i => Fin ((INR i - m) * pix)) (seq 0 nr)) = Ok (p_image P) /\
    p_scale P = Fin pix /\ p_ell P = Some ((at_ c, (Fin (2 * (re * q / pix)), Fin (2 * (re / pix)))), (ga, bar)) /\
    p_xlim P = (Fin (fst c - INR n / 2), Fin (fst c + INR n / 2)) /\ p_ylim P = (Fin (- (1 / 2)), Fin (INR n - 1 / 2)) /\
    let t := if rotate then 0 else rad (slitPA - imgPA) in let k := tan (rad (378 / 100)) in
    outline (plus (plus c (times (ipix / pix) (plus s' (times (-1) f')))) (turn t (0, - (yoff / pix)))) t (width / pix) ((len - width * k) / pix) (width / pix * k) l /\ p_slit P = map at_ l.
Proof.
  intros H G O nr c. destruct (plot_inv _ _ _ _ _ _ _ _ _ _ _ _ _ _ _ _ _ _ _ _ H G) as (_&im&w&I&W&D).
  set (f' := seen rotate g slitPA imgPA f) in *. set (s' := seen rotate g slitPA imgPA s) in *.
  assert (RI : rows im = rows (g_stamp g)).
  { destruct rotate; [|now rewrite I]. destruct I as (sg&I). unfold rotate_pstamp in I. destruct (slit_on_image g); [|discriminate]. apply Ok_inj in I. now rewrite <- I. }
  destruct (downsampled_inv _ _ _ _ _ _ _ _ _ _ W O) as (S&B). rewrite RI in S, B. fold nr in S, B. cbv zeta in S, B. fold c in S, B.
  set (s2 := plus c (times (ipix / pix) (plus s' (times (-1) f')))) in *. rewrite S in D. cbn [fst snd at_] in D. pose proof O as (O1&_&_&_&O5&_). rewrite O1 in D.
  destruct (draw_values pole g o (Some (Fin m)) rotate false (Some n) pix (fst w) c s2 s f imgPA serPA q re slitPA yoff pix ipix width len 0 G O O5 Logic.I eq_refl) as (P'&D'&V1&V2&V3&_&_&(bar&V4&_)&V5&V6).
  unfold at_ in D. cbn [fst snd] in D. assert (E : P' = P) by (apply Ok_inj; rewrite <- D', <- D; reflexivity). rewrite E in *. clear P' E.
  exists im, f', s'. eexists. eexists. eexists. split; [unfold f'; rewrite <- (seen_back rotate g slitPA imgPA f) at 2; rewrite rad_ang; reflexivity|].
  split; [unfold s'; rewrite <- (seen_back rotate g slitPA imgPA s) at 2; rewrite rad_ang; reflexivity|].
  split; [destruct rotate; [destruct I as (sg&I)|]; exact I|]. split; [rewrite V1, RI; exact B|]. split; [exact V2|].
  split; [rewrite V4; unfold Rdiv; rewrite !Rmult_assoc; reflexivity|].
  split; [rewrite V5; apply pair_eq; f_equal; unfold size_of; field; lra|].
  split; [rewrite V6; apply pair_eq; f_equal; unfold size_of, c; cbn [snd]; field; lra|].
  split; [|exact V3]. rewrite !rad_ang. apply outline_at.
Qed.

(* refutations *)
Lemma no_fit interp pole g o m0 rotate convolve cs n down show P : show = false \/ g_re g = None -> plot_image_slit interp pole g o m0 rotate convolve cs n down show <> Ok P.
Proof.
  intros Hs H. unfold plot_image_slit in H. assert (F : match g_re g with Some _ => show | None => false end = false) by (destruct Hs as [-> | ->]; [now destruct (g_re g)|reflexivity]).
  rewrite F in H. match type of H with bind ?a _ = _ => destruct a as [sg|] end; [|discriminate]. cbn [bind] in H.
  destruct rotate; cbn [bind] in H; [|discriminate]. destruct (if convolve then _ else _); [|discriminate]. cbn [bind] in H. destruct (slit_on_image g); discriminate.
Qed.
Lemma needs_slit pole g o m0 rotate convolve pg n ps im x y xs ys P : draw pole g o m0 rotate convolve pg n ps im x y xs ys = Ok P -> g_yoff g <> None /\ o_len o <> None.
Proof.
  intros H. unfold draw in H. match type of H with bind ?a _ = _ => destruct a as [sg|] end; [|discriminate]. cbn [bind] in H.
  destruct (g_yoff g); [|discriminate]. cbn [bind] in H. destruct (o_len o); [|discriminate]. split; discriminate.
Qed.
Lemma no_length interp pole g o m0 rotate convolve cs n down show P : g_yoff g = None \/ o_len o = None -> plot_image_slit interp pole g o m0 rotate convolve cs n down show <> Ok P.
Proof.
  intros Hs H. unfold plot_image_slit in H. match type of H with bind ?a _ = _ => destruct a as [sg|] end; [|discriminate]. cbn [bind] in H.
  match type of H with bind ?a _ = _ => destruct a as [v|] end; [|discriminate]. cbn [bind] in H. match type of H with bind ?a _ = _ => destruct a as [w|] end; [|discriminate]. cbn [bind] in H.
  apply needs_slit in H. tauto.
Qed.
Lemma at_inj l m : map at_ l = map at_ m -> l = m.
Proof. revert m. induction l as [|[a b] l IH]; intros [|[c d] m] H; try discriminate; [reflexivity|]. cbn in H. injection H as A B C. rewrite A, B, (IH _ C). reflexivity. Qed.
Lemma outline_centre c t w h k l : outline c t w h k l -> plus (nth 0 l (0,0)) (nth 2 l (0,0)) = times 2 c.
Proof. intros ->. cbn [nth]. destruct c. unfold plus, times, turn. cbn [fst snd]. apply pair_eq; ring. Qed.
Lemma offset_wrong interp pole g o m0 (rotate : bool) cs n P s f imgPA serPA q re slitPA yoff pix ipix width len :
  plot_image_slit interp pole g o m0 rotate false cs n false true = Ok P -> scene_is g s f imgPA serPA q re slitPA yoff -> optics_are o pix ipix width len ->
  match m0 with Some (Fin _) => True | None => True | _ => False end -> yoff <> 0 -> pix <> ipix ->
  let t := if rotate then 0 else rad (slitPA - imgPA) in
  forall s' l w h k, about (middle (g_stamp g)) (if rotate then rad (slitPA - imgPA) else 0) s' = s -> p_slit P = map at_ l ->
    ~ outline (plus s' (turn t (0, - (yoff / ipix)))) t w h k l.
Proof.
  intros H G O Hm Hy Hp t s' l w h k B L U. destruct (slit_shape _ _ _ _ _ _ _ _ _ _ _ _ _ _ _ _ _ _ _ _ _ _ 0 H G O Hm eq_refl) as (s2&l2&B2&U2&L2). fold t in U2.
  rewrite L in L2. apply at_inj in L2. subst l2. pose proof O as (_&_&_&_&O5&O6).
  assert (s2 = s').
  { set (a := if rotate then _ else _) in B, B2. rewrite <- (about_0 (middle (g_stamp g)) s2), <- (about_0 (middle (g_stamp g)) s'). replace 0 with (- a + a) by ring. rewrite <- !about_about, B, B2. reflexivity. }
  subst s2. apply outline_centre in U, U2. rewrite U in U2. destruct s' as [a b]. unfold times, plus, turn in U2. cbn [fst snd] in U2. apply pair_equal_spec in U2. destruct U2 as [E1 E2].
  assert (D : yoff / ipix = yoff / pix).
  { assert (X : (yoff / ipix - yoff / pix) * sin t = 0) by lra. assert (Y : (yoff / ipix - yoff / pix) * cos t = 0) by lra.
    apply Rmult_integral in X. apply Rmult_integral in Y. destruct X as [X|X]; [lra|]. destruct Y as [Y|Y]; [lra|]. pose proof (sin2_cos2 t) as Z. rewrite X, Y in Z. unfold Rsqr in Z. lra. }
  apply Hp. assert (D2 : yoff * (/ ipix - / pix) = 0) by (unfold Rdiv in D; lra). apply Rmult_integral in D2. destruct D2 as [D2|D2]; [contradiction|].
  rewrite <- (Rinv_involutive pix), <- (Rinv_involutive ipix) by lra. f_equal. lra.
Qed.
