(* Proofs about the size of the emission along the slit. *)
From Coq Require Import String Reals List Bool Arith ZArith Lra Lia Psatz Sorted Permutation.
From Verif Require Import PyFloat PyBase Arr PyNum PKernels MMask MPost SPost PPost MFit1D SFit1D MVert PMask MTrim STrim PTrim MPrep PPrep4 MYprof SYprof PYprof.
Import ListNotations.
Local Open Scope R_scope.

Lemma ratio_pos : 0 < fwhm_ratio.
Proof.
  unfold fwhm_ratio. assert (0 < ln 2) by (rewrite <- ln_1; apply ln_increasing; lra). assert (0 < sqrt (2 * ln 2)) by (apply sqrt_lt_R0; lra). lra.
Qed.
Lemma ratio_same : std2fwhm = fwhm_ratio.
Proof. reflexivity. Qed.

Lemma intrinsic_spec F o : exists i, y_intrinsic (Fin F) (Fin o) = Fin i /\ deblurred F o i.
Proof.
  pose proof ratio_pos as P. unfold y_intrinsic. rewrite ratio_same, fdiv_Fin by lra. unfold fsq, fsub. cbn [fmul fneg fadd fsqrt].
  set (t := F / fwhm_ratio). destruct (Rltb (o * o + - (t * t)) 0) eqn:E.
  - apply Rltb_true in E. exists 0. split; [reflexivity|]. unfold deblurred. fold t. split; [lra|]. split; [intros; nra|auto].
  - apply Rltb_false in E. exists (sqrt (o * o + - (t * t))). split; [reflexivity|]. unfold deblurred. fold t.
    split; [apply sqrt_pos|]. split; [|intros; nra]. intros _. rewrite pow2_sqrt by lra. ring.
Qed.
Lemma deblurred_unique F o i j : deblurred F o i -> deblurred F o j -> i = j.
Proof.
  intros (P1 & A1 & B1) (P2 & A2 & B2). destruct (Rlt_or_le (o ^ 2) ((F / fwhm_ratio) ^ 2)) as [H|H]; [rewrite B1, B2 by exact H; reflexivity|].
  specialize (A1 H). specialize (A2 H). assert (i ^ 2 = j ^ 2) by lra. nra.
Qed.
Lemma deblurred_le F o i : 0 <= o -> deblurred F o i -> i <= o.
Proof.
  intros Ho (P & A & B). destruct (Rlt_or_le (o ^ 2) ((F / fwhm_ratio) ^ 2)) as [H|H]; [rewrite B by exact H; exact Ho|].
  specialize (A H). pose proof (pow2_ge_0 (F / fwhm_ratio)). nra.
Qed.

(** Scaling the samples scales the percentile. *)
Lemma rinsert_scale c x l : 0 < c -> rinsert (c * x) (map (fun v => c * v) l) = map (fun v => c * v) (rinsert x l).
Proof.
  intros Hc. induction l as [|y l IH]; [reflexivity|]. cbn [map rinsert]. destruct (Rleb x y) eqn:E.
  - apply Rleb_true in E. rewrite (proj2 (Rleb_true _ _)) by nra. reflexivity.
  - apply Rleb_false in E. rewrite (proj2 (Rleb_false _ _)) by nra. cbn [map]. now rewrite IH.
Qed.
Lemma rsort_scale c l : 0 < c -> rsort (map (fun v => c * v) l) = map (fun v => c * v) (rsort l).
Proof. intros Hc. induction l as [|x l IH]; [reflexivity|]. cbn. unfold rsort in IH. rewrite IH. now apply rinsert_scale. Qed.
Lemma lnth_Fin l k : (k < length l)%nat -> lnth (map Fin l) k = Fin (nth k l 0).
Proof. intros H. unfold lnth. rewrite nth_indep with (d' := Fin 0) by now rewrite map_length. apply map_nth. Qed.
Lemma rsort_length l : length (rsort l) = length l.
Proof. symmetry. apply Permutation_length, rsort_perm. Qed.
Lemma percentile_scale q c l v : 0 < c -> l <> [] -> 0 <= q <= 100 -> percentile q (map Fin l) = Fin v -> percentile q (map Fin (map (fun v => c * v) l)) = Fin (c * v).
Proof.
  intros Hc Hl Hq H. unfold percentile in *.
  assert (X : forall l, existsb isnan (map Fin l) = false) by (clear; induction l; auto). rewrite X in *. rewrite !map_length in *. rewrite !fsort_Fin in *. rewrite rsort_scale by exact Hc.
  set (h := q / 100 * INR (length l - 1)) in *. set (k := Z.to_nat (Int_part h)) in *.
  assert (Lp : (0 < length l)%nat) by (destruct l; [congruence|cbn; lia]).
  assert (H0 : 0 <= h) by (unfold h; apply Rmult_le_pos; [lra|apply pos_INR]).
  assert (H1 : h <= INR (length l - 1)) by (unfold h; pose proof (pos_INR (length l - 1)); nra).
  assert (Kl : (k < length l)%nat).
  { unfold k. destruct (base_Int_part h) as [B _]. assert (I : (Int_part h <= Z.of_nat (length l - 1))%Z).
    { apply le_IZR. rewrite <- INR_IZR_INZ. lra. } lia. }
  rewrite !lnth_Fin in * by (rewrite ?map_length, rsort_length; lia). cbn [fsub fneg fadd fmul] in *. match type of H with Fin ?x = _ => assert (V : x = v) by congruence end. rewrite <- V. clear H V. f_equal.
  assert (N : forall j, nth j (map (fun v => c * v) (rsort l)) 0 = c * nth j (rsort l) 0).
  { intros j. transitivity (nth j (map (fun v => c * v) (rsort l)) (c * 0)); [f_equal; ring|]. apply (map_nth (fun v => c * v)). }
  rewrite !N. ring.
Qed.

Lemma y_err_spec b l : l <> [] -> exists e, y_err (Fin b) (map Fin l) = Ok e /\ reaches b l e.
Proof.
  intros Hl. destruct (percentile_Fin (15865 / 1000) l Hl) as (lo & E1 & Q1); [lra|]. destruct (percentile_Fin (84135 / 1000) l Hl) as (hi & E2 & Q2); [lra|].
  unfold y_err. destruct l as [|a l]; [congruence|]. cbn [map] in *. rewrite E1, E2. eexists. split; [reflexivity|]. exists lo, hi.
  replace (15865 / 100000) with (15865 / 1000 / 100) by field. replace (84135 / 100000) with (84135 / 1000 / 100) by field. auto.
Qed.
Lemma y_err_scale b l c e1 e2 : 0 < c -> l <> [] -> y_err (Fin b) (map Fin l) = Ok (Fin e1, Fin e2) ->
  y_err (Fin (c * b)) (map Fin (map (fun v => c * v) l)) = Ok (Fin (c * e1), Fin (c * e2)).
Proof.
  intros Hc Hl H. destruct (percentile_Fin (15865 / 1000) l Hl) as (lo & E1 & _); [lra|]. destruct (percentile_Fin (84135 / 1000) l Hl) as (hi & E2 & _); [lra|].
  assert (F1 := percentile_scale (15865 / 1000) c l lo Hc Hl ltac:(lra) E1). assert (F2 := percentile_scale (84135 / 1000) c l hi Hc Hl ltac:(lra) E2).
  unfold y_err in *. destruct l as [|a l]; [congruence|]. cbn [map] in *. rewrite E1, E2 in H. rewrite F1, F2. cbn [fsub fneg fadd] in *. inversion H. f_equal. f_equal; f_equal; ring.
Qed.

Lemma draws_inv {A} (P : A -> Prop) k f l : y_draws k f = Ok l -> (forall i a, f i = Ok a -> P a) -> length l = k /\ Forall P l.
Proof.
  intros H Hf. revert l H. induction k as [|k IH]; intros l H; cbn [y_draws] in H; [inversion H; split; [reflexivity|constructor]|].
  destruct (y_draws k f) as [l'|]; [|discriminate]. cbn [bind] in H. destruct (f k) as [a|] eqn:Ea; [|discriminate]. cbn [bind] in H. inversion H; subst l.
  destruct (IH _ eq_refl) as [L F]. split; [rewrite app_length; cbn; lia|]. apply Forall_app. split; [exact F|]. constructor; [eapply Hf; exact Ea|constructor].
Qed.

Lemma y_fit_width M mu0 ymin ymax amp n w rf r : keeps_limits M -> y_fit M mu0 ymin ymax amp n (Fin w) rf = Ok r -> exists s, p_val (gp_sigma r) = Fin s /\ 0 <= s <= w.
Proof.
  intros K H. unfold y_fit in H. destruct (y_start mu0 ymin ymax amp n PInf) as [p|] eqn:Ep; [|discriminate]. cbn [bind] in H.
  destruct (M rf p) as [r1|] eqn:Er; [|discriminate]. cbn [bind] in H.
  assert (St : forall sm p, y_start mu0 ymin ymax amp n sm = Ok p -> p_lo (gp_sigma p) = Fin 0 /\ p_hi (gp_sigma p) = sm).
  { intros sm p' Q. unfold y_start in Q. destruct (lm_par mu0 _ _); [|discriminate]. cbn [bind] in Q. destruct (lm_par (fdiv _ _) _ _) as [sg|] eqn:Es; [|discriminate]. cbn [bind] in Q.
    inversion Q. apply lm_par_inv in Es. cbn [gp_sigma]. tauto. }
  destruct (fgtb (p_val (gp_sigma r1)) (Fin w)) eqn:E.
  - destruct (y_start mu0 ymin ymax amp n (Fin w)) as [p2|] eqn:Ep2; [|discriminate]. cbn [bind] in H. destruct (K _ _ _ H) as (_ & _ & (_ & _ & L & U)). destruct (St _ _ Ep2) as [S1 S2].
    rewrite S1 in L. rewrite S2 in U. destruct (p_val (gp_sigma r)) as [s| | |]; try discriminate. exists s. cbn [fleb] in L, U. apply Rleb_true in L, U. split; [reflexivity|lra].
  - inversion H; subst r1. destruct (K _ _ _ Er) as (_ & _ & (_ & _ & L & _)). destruct (St _ _ Ep) as [S1 _]. rewrite S1 in L. unfold fgtb, fltb in E.
    destruct (p_val (gp_sigma r)) as [s| | |]; try discriminate. exists s. cbn [fleb] in L. apply Rleb_true in L. apply Rltb_false in E. split; [reflexivity|lra].
Qed.

Lemma grid_Fin pix n : (0 < n)%nat -> y_grid (Fin pix) n = map Fin (map (fun i => INR i * pix) (seq 0 n)).
Proof.
  intros Hn. unfold y_grid. rewrite map_map. apply map_ext. intros i. cbn [fmul]. assert (0 < INR n) by (apply lt_0_INR; lia). rewrite fdiv_Fin by lra. cbn [fmul]. f_equal. field. lra.
Qed.
Lemma grid_ends pix n : 0 < pix -> (0 < n)%nat -> np_min (y_grid (Fin pix) n) = Ok (Fin 0) /\ np_max (y_grid (Fin pix) n) = Ok (Fin (window pix n)).
Proof.
  intros Hp Hn. rewrite grid_Fin by exact Hn. set (l := map (fun i => INR i * pix) (seq 0 n)).
  assert (Il : forall r, In r l <-> exists i, (i < n)%nat /\ r = INR i * pix).
  { intros r. unfold l. rewrite in_map_iff. split; [intros (i & <- & Hi); apply in_seq in Hi; exists i; split; [lia|reflexivity]|intros (i & Hi & ->); exists i; split; [reflexivity|apply in_seq; lia]]. }
  assert (F : forall x, In x (map Fin l) -> exists r, x = Fin r) by (intros x Hx; apply in_map_iff in Hx; destruct Hx as (r & <- & _); eauto).
  assert (J : forall r, In (Fin r) (map Fin l) <-> In r l).
  { intros r. rewrite in_map_iff. split; [intros (r' & E & H); congruence|eauto]. }
  destruct (map Fin l) as [|a t] eqn:E. { apply map_eq_nil in E. unfold l in E. apply map_eq_nil in E. destruct n; [lia|discriminate]. }
  destruct (fmin1_low t a F) as (mn & Emn & I1 & L1). destruct (fmax1_high t a F) as (mx & Emx & I2 & L2). cbn [np_min np_max]. rewrite Emn, Emx.
  assert (Z : In 0 l) by (apply Il; exists 0%nat; split; [lia|cbn; ring]). assert (W : In (window pix n) l) by (apply Il; exists (n - 1)%nat; split; [lia|reflexivity]).
  apply J in I1, I2. apply Il in I1, I2. destruct I1 as (i & Hi & ->). destruct I2 as (k & Hk & ->).
  specialize (L1 0 (proj2 (J 0) Z)). specialize (L2 _ (proj2 (J _) W)). pose proof (pos_INR i). unfold window in *.
  assert (INR k <= INR (n - 1)) by (apply le_INR; lia). split; f_equal; f_equal; nra.
Qed.

Lemma missing_none : none_measured ymissing.
Proof. repeat split. Qed.

Lemma rows_left n l i r : setdiff_range n l = i :: r -> (0 < n)%nat.
Proof. intros E. destruct n; [|lia]. discriminate. Qed.

Lemma try_measured M rnd k c mu0 ymin amp rw yy prof perr wh pix F n y : keeps_limits M -> yc_fwhm c = Some (Fin F) -> (0 < n)%nat -> 0 < pix ->
  y_try M rnd k c mu0 ymin (Fin (window pix n)) amp rw (Fin (window pix n / fwhm_ratio)) yy prof perr wh = Ok y -> measured pix F n k y.
Proof.
  intros K Ef Hn Hp H. pose proof ratio_pos as RP. unfold y_try in H. rewrite Ef in H. cbn [need bind] in H.
  destruct (feqb (Fin F) (Fin 0)); [discriminate|]. cbn [bind] in H. destruct (fltb _ (Fin (8 / 10))); [discriminate|]. cbn [bind] in H.
  destruct (y_fit M _ _ _ _ _ _ _) as [r|] eqn:Er; [|discriminate]. cbn [bind] in H. apply (y_fit_width _ _ _ _ _ _ _ _ _ K) in Er. destruct Er as (o & Eo & Bo).
  rewrite Eo in H. destruct (intrinsic_spec F o) as (i & Ei & Di). rewrite Ei in H. cbv zeta in H.
  destruct (y_draws k _) as [mc|] eqn:Em; [|discriminate]. cbn [bind] in H.
  apply (draws_inv (fun v => exists s, v = Fin s /\ 0 <= s <= window pix n / fwhm_ratio)) in Em.
  2:{ intros j a Ha. destruct (y_fit M _ _ _ _ _ _ _) as [r'|] eqn:Er'; [|discriminate]. cbn [bind] in Ha. inversion Ha; subst a. exact (y_fit_width _ _ _ _ _ _ _ _ _ K Er'). }
  destruct Em as [Lm Fm].
  assert (Mr : exists m, mc = map Fin m /\ Forall (fun v => 0 <= v <= window pix n / fwhm_ratio) m).
  { clear - Fm. induction Fm as [|v l (s & -> & B) _ (m & -> & IH)]; [exists []; split; [reflexivity|constructor]|]. exists (s :: m). split; [reflexivity|constructor; auto]. }
  destruct Mr as (m & -> & Bm). clear Fm. rewrite map_length in Lm.
  assert (Mi : exists mi, map (y_intrinsic (Fin F)) (map Fin m) = map Fin mi /\ Forall2 (deblurred F) m mi).
  { clear. induction m as [|v m (mi & E & IH)]; [exists []; split; [reflexivity|constructor]|]. destruct (intrinsic_spec F v) as (j & Ej & Dj). exists (j :: mi). cbn [map]. rewrite Ej, E. split; [reflexivity|constructor; auto]. }
  destruct Mi as (mi & Emi & Dm). rewrite Emi in H.
  destruct m as [|m0 m]; [discriminate|].
  destruct mi as [|i0 mi]; [inversion Dm|].
  destruct (y_err_spec o (m0 :: m)) as (e1 & E1 & R1); [discriminate|]. rewrite E1 in H. cbn [bind] in H.
  destruct (y_err_spec i (i0 :: mi)) as (e2 & E2 & R2); [discriminate|]. rewrite E2 in H. cbn [bind] in H.
  assert (X : exists a b, e2 = (Fin a, Fin b)) by (destruct R2 as (lo & hi & _ & _ & ->); eauto). destruct X as (a & b & ->).
  assert (E3 := y_err_scale i (i0 :: mi) fwhm_ratio a b RP ltac:(discriminate) E2).
  replace (map (fun v => fmul v (Fin std2fwhm)) (map Fin (i0 :: mi))) with (map Fin (map (fun v => fwhm_ratio * v) (i0 :: mi))) in H
    by (rewrite !map_map; apply map_ext; intros v; cbn [fmul]; rewrite ratio_same; f_equal; ring).
  replace (fmul (Fin i) (Fin std2fwhm)) with (Fin (fwhm_ratio * i)) in H by (cbn [fmul]; rewrite ratio_same; f_equal; ring).
  rewrite E3 in H. cbn [bind] in H. destruct (if yc_plot c then y_title c else Ok tt); [|discriminate]. cbn [bind] in H. inversion H; subst y.
  exists o, i, (m0 :: m), (i0 :: mi), a, b. split; [exact Lm|]. split; [constructor; [exact Bo|exact Bm]|]. split; [exact Di|]. split; [exact Dm|]. repeat (split; [first [reflexivity|exact R1|exact R2]|]). reflexivity.
Qed.

Lemma y_measured M rnd k c s pix F n y : keeps_limits M -> yc_pix c = Fin pix -> 0 < pix -> yc_fwhm c = Some (Fin F) -> q_mlims s = Some n ->
  y_profile M rnd k c s = Ok y -> none_measured y \/ measured pix F n k y.
Proof.
  intros K Ep Hp Ef En H. unfold y_profile in H.
  destruct (q_flux s) as [fx|]; [|discriminate]. destruct (q_err s) as [er|]; [|discriminate]. destruct (q_sky s) as [sk|]; [|discriminate]. cbn [need bind] in H.
  destruct (times2 fx sk) as [sp|]; [|discriminate]. cbn [bind] in H. destruct (times2 er sk) as [ee|]; [|discriminate]. cbn [bind] in H. rewrite En in H. cbn [need bind] in H.
  destruct (setdiff_range n (q_low_inds s)) as [|w0 wh] eqn:Ew; [inversion H; left; apply missing_none|].
  assert (Hn := rows_left _ _ _ _ Ew). rewrite Ep in H. destruct (grid_ends pix n Hp Hn) as [G1 G2]. rewrite G1, G2 in H. cbn [bind] in H.
  destruct (q_ypos s) as [y0|]; [|discriminate]. cbn [need bind] in H. destruct (np_max (row_flux sp)) as [amp|]; [|discriminate]. cbn [bind] in H.
  destruct (y_start _ _ _ _ _ _); [|discriminate]. cbn [bind] in H.
  assert (Mx : fdiv (fsub (Fin (window pix n)) (Fin 0)) (Fin std2fwhm) = Fin (window pix n / fwhm_ratio)).
  { pose proof ratio_pos. unfold fsub. cbn [fneg fadd]. rewrite ratio_same, fdiv_Fin by lra. f_equal. field. lra. }
  rewrite Mx in H. destruct (y_try _ _ _ _ _ _ _ _ _ _ _ _ _ _) as [r|] eqn:Et; inversion H; subst; [|left; apply missing_none].
  right. eapply try_measured; eauto.
Qed.

Lemma measured_bounds pix F n k y : measured pix F n k y -> exists o d, y_obs y = Fin o /\ y_d50 y = Fin d /\ 0 <= d <= window pix n /\ 0 <= o <= window pix n / fwhm_ratio /\
  (F ^ 2 <= (fwhm_ratio * o) ^ 2 -> d ^ 2 + F ^ 2 = (fwhm_ratio * o) ^ 2) /\ ((fwhm_ratio * o) ^ 2 < F ^ 2 -> d = 0).
Proof.
  intros (o & i & mc & mci & e1 & e2 & _ & B & D & _ & Eo & _ & _ & _ & _ & Ed & _). pose proof ratio_pos as RP. inversion_clear B as [|? ? Bo _].
  exists o, (fwhm_ratio * i). split; [exact Eo|]. split; [exact Ed|]. pose proof (deblurred_le _ _ _ (proj1 Bo) D) as Le. destruct D as (P & A & Z).
  assert (W : fwhm_ratio * (window pix n / fwhm_ratio) = window pix n) by (field; lra).
  assert (F2 : F ^ 2 = fwhm_ratio ^ 2 * (F / fwhm_ratio) ^ 2) by (field; lra). set (t := F / fwhm_ratio) in *. set (w := window pix n / fwhm_ratio) in *.
  assert (R2 : 0 < fwhm_ratio ^ 2) by nra.
  split; [split; [nra|]; rewrite <- W; nra|]. split; [exact Bo|]. split.
  - intros H. rewrite F2 in *. assert (t ^ 2 <= o ^ 2) by nra. specialize (A H0). nra.
  - intros H. rewrite F2 in H. rewrite Z by nra. ring.
Qed.

(** With two rows and a position nothing is raised. *)
Lemma y_total M rnd c s n p pix : q_prepared s = true -> measurable s n p -> yc_pix c = Fin pix -> / 10 ^ 12 <= pix ->
  exists y, fit_emission_y_profile M rnd c s = Ok y.
Proof.
  intros Pr (En & H2 & Y & fx & er & sk & Ef & Ee & Es & [F1 F2] & [E1 E2] & [S1 S2]) Ep Hp. unfold fit_emission_y_profile. rewrite Pr. generalize (Z.to_nat 500). intros k.
  unfold y_profile. rewrite Ef, Ee, Es. cbn [need bind]. unfold times2. rewrite !(proj2 (shape_eqb_true _ _)) by (split; congruence). cbn [bind]. rewrite En. cbn [need bind].
  destruct (setdiff_range n (q_low_inds s)) as [|w0 wh] eqn:Ew; [eauto|].
  assert (P0 : 0 < pix) by (assert (0 < / 10 ^ 12) by (apply Rinv_0_lt_compat; lra); lra).
  rewrite Ep. destruct (grid_ends pix n P0 ltac:(lia)) as [G1 G2]. rewrite G1, G2. cbn [bind]. destruct (q_ypos s) as [y0|]; [|congruence]. cbn [need bind].
  assert (Np : exists amp, np_max (row_flux (mk2 (rows fx) (cols fx) (fun i j => fmul (at2 fx i j) (at2 sk i j)))) = Ok amp).
  { unfold row_flux. cbn [rows cols]. rewrite F1. destruct n; [lia|]. cbn [seq map np_max]. eauto. }
  destruct Np as (amp & ->). cbn [bind].
  assert (W : 0 < window pix n). { unfold window. apply Rmult_lt_0_compat; [apply lt_0_INR; lia|exact P0]. }
  assert (W1 : pix <= window pix n). { unfold window. assert (1 <= INR (n - 1)) by (replace 1 with (INR 1) by reflexivity; apply le_INR; lia). nra. }
  assert (B : lm_bounds (Fin 0) (Fin (window pix n)) = Ok tt).
  { unfold lm_bounds, lm_close. rewrite (proj2 (Rleb_false _ _)); [reflexivity|]. rewrite (Rabs_left (0 - window pix n)) by lra. rewrite (Rabs_right (window pix n)) by lra.
    replace (/ 10 ^ 12) with (10 * / 10 ^ 13) in Hp by (field). set (u := / 10 ^ 13) in *. assert (0 < u) by (unfold u; apply Rinv_0_lt_compat; lra). assert (u < / 10) by (unfold u; apply Rinv_lt_contravar; lra). nra. }
  unfold y_start, lm_par. rewrite B. cbn [bind]. change (lm_bounds (Fin 0) PInf) with (@Ok unit tt). cbn [bind].
  destruct (y_try _ _ _ _ _ _ _ _ _ _ _ _ _ _); eauto.
Qed.
Lemma y_unprepared M rnd c s : q_prepared s = false -> fit_emission_y_profile M rnd c s = Err ValueError.
Proof. intros H. unfold fit_emission_y_profile. now rewrite H. Qed.

(** Without the attribute slitobjname a plot costs the measurement. *)
Lemma plot_loses M rnd k c s y : yc_plot c = true -> (yc_slit c = false \/ yc_id c <> IdInt) -> y_profile M rnd k c s = Ok y -> none_measured y.
Proof.
  intros Pl Sl H. unfold y_profile in H.
  destruct (q_flux s) as [fx|]; [|discriminate]. destruct (q_err s) as [er|]; [|discriminate]. destruct (q_sky s) as [sk|]; [|discriminate]. cbn [need bind] in H.
  destruct (times2 fx sk) as [sp|]; [|discriminate]. cbn [bind] in H. destruct (times2 er sk) as [ee|]; [|discriminate]. cbn [bind] in H.
  destruct (q_mlims s) as [n|]; [|discriminate]. cbn [need bind] in H.
  destruct (setdiff_range n (q_low_inds s)) as [|w0 wh] eqn:Ew; [inversion H; apply missing_none|].
  destruct (np_max (y_grid _ _)) as [mx|]; [|discriminate]. destruct (np_min (y_grid _ _)) as [mn|]; [|discriminate]. cbn [bind] in H.
  destruct (q_ypos s) as [y0|]; [|discriminate]. cbn [need bind] in H. destruct (np_max (row_flux sp)) as [amp|]; [|discriminate]. cbn [bind] in H.
  destruct (y_start _ _ _ _ _ _); [|discriminate]. cbn [bind] in H.
  destruct (y_try _ _ _ _ _ _ _ _ _ _ _ _ _ _) as [r|] eqn:Et; [|inversion H; apply missing_none]. exfalso.
  assert (T : exists e, y_title c = Err e).
  { unfold y_title. destruct Sl as [->|N]; destruct (yc_id c); cbn [bind]; eauto. congruence. }
  destruct T as (e & T). unfold y_try in Et. rewrite Pl, T in Et.
  repeat (match type of Et with bind ?x _ = _ => destruct x; cbn [bind] in Et; try discriminate end).
Qed.
Lemma plot_harmless M rnd k c s b : yc_slit c = true -> yc_id c = IdInt -> y_profile M rnd k (plotted c b) s = y_profile M rnd k c s.
Proof.
  intros Sl I. assert (T : forall x : bool, (if x then y_title c else Ok tt) = Ok tt) by (intros []; [unfold y_title; rewrite Sl, I; reflexivity|reflexivity]).
  assert (T' : forall x : bool, (if x then y_title (plotted c b) else Ok tt) = Ok tt) by (intros []; [unfold y_title, plotted; cbn; rewrite Sl, I; reflexivity|reflexivity]).
  assert (E : forall mu0 a d amp n w yy pr pe wh, y_try M rnd k (plotted c b) mu0 a d amp n w yy pr pe wh = y_try M rnd k c mu0 a d amp n w yy pr pe wh).
  { intros. unfold y_try. change (yc_fwhm (plotted c b)) with (yc_fwhm c). change (yc_pix (plotted c b)) with (yc_pix c). rewrite T, T'. reflexivity. }
  unfold y_profile. change (yc_pix (plotted c b)) with (yc_pix c).
  repeat (match goal with |- bind ?x _ = _ => destruct x; cbn [bind]; [|reflexivity] end).
  destruct (setdiff_range _ _); [reflexivity|]. repeat (match goal with |- bind ?x _ = _ => destruct x; cbn [bind]; [|reflexivity] end). now rewrite E.
Qed.

(** Sky columns do not matter. *)
Lemma same_rows sk a b : same_off_sky sk a b -> forall i j, (i < rows a)%nat -> (j < cols a)%nat -> fmul (at2 a i j) (at2 sk i j) = fmul (at2 b i j) (at2 sk i j).
Proof.
  intros (_ & _ & H) i j Hi Hj. destruct (H i j Hi Hj) as (A & B & C).
  destruct (at2 sk i j) as [r| | |] eqn:E; [|rewrite C by discriminate; reflexivity..]. destruct (Req_dec r 0) as [->|N]; [|rewrite C by congruence; reflexivity].
  destruct (at2 a i j); try discriminate. destruct (at2 b i j); try discriminate. cbn [fmul]. f_equal. ring.
Qed.
Lemma sky_ignored M rnd k c s t : same_but_sky s t -> y_profile M rnd k c t = y_profile M rnd k c s.
Proof.
  intros (sk & fx & er & fx' & er' & E1 & E2 & E3 & E4 & E5 & E6 & Sf & Se & L1 & L2 & L3). unfold y_profile. rewrite E1, E2, E3, E4, E5, E6, L1, L2, L3. cbn [need bind].
  assert (Sh : forall a b, same_off_sky sk a b -> shape_eqb b sk = shape_eqb a sk) by (intros a b (R & C & _); unfold shape_eqb; now rewrite R, C).
  unfold times2. rewrite (Sh _ _ Sf), (Sh _ _ Se). destruct (shape_eqb fx sk); [|reflexivity]. cbn [bind]. destruct (shape_eqb er sk); [|reflexivity]. cbn [bind].
  assert (Rf : row_flux (mk2 (rows fx') (cols fx') (fun i j => fmul (at2 fx' i j) (at2 sk i j))) = row_flux (mk2 (rows fx) (cols fx) (fun i j => fmul (at2 fx i j) (at2 sk i j)))).
  { destruct Sf as (R & C & H). unfold row_flux. cbn [rows cols at2]. rewrite R, C. apply map_ext_in. intros i Hi. apply in_seq in Hi. f_equal. apply map_ext_in. intros j Hj. apply in_seq in Hj.
    symmetry. apply same_rows; [split; [exact R|split; [exact C|exact H]]|lia|lia]. }
  assert (Re : row_err (mk2 (rows er') (cols er') (fun i j => fmul (at2 er' i j) (at2 sk i j))) = row_err (mk2 (rows er) (cols er) (fun i j => fmul (at2 er i j) (at2 sk i j)))).
  { destruct Se as (R & C & H). unfold row_err. cbn [rows cols at2]. rewrite R, C. apply map_ext_in. intros i Hi. apply in_seq in Hi. f_equal. f_equal. apply map_ext_in. intros j Hj. apply in_seq in Hj.
    f_equal. symmetry. apply same_rows; [split; [exact R|split; [exact C|exact H]]|lia|lia]. }
  rewrite Rf, Re. destruct Sf as (-> & _ & _). reflexivity.
Qed.
