(* Proofs: error bars and weights multiplied by a common factor. *)
From Coq Require Import Reals Lra Lia List Bool Arith ZArith FunctionalExtensionality.
From Verif Require Import PyFloat PyBase Arr PyNum MParams MKernels MAper2D SParams SKernels SAper2D SMirror SBright STruth SNoise PKernels PData PAper2D PAper2DHist PAper2DTop PMirror PMirror2 PBright PBright2 PBright3 PTruth PTruth2.
Import ListNotations.
Local Open Scope R_scope.

Lemma fsq_div_err e x y : 0 < e -> fdiv x (fsq (fmul (Fin e) y)) = fmul (Fin (/ (e * e))) (fdiv x (fsq y)).
Proof.
  intros He. assert (Hv : 0 < / e) by now apply Rinv_0_lt_compat. unfold fsq at 1. rewrite (s_mul e He), (s_mul_r e He), !s_div_r by exact He.
  rewrite fmul_Fin2 by assumption. now rewrite Rinv_mult.
Qed.
Lemma inv_sq_pos e : 0 < e -> 0 < / (e * e). Proof. intros. apply Rinv_0_lt_compat. now apply Rmult_lt_0_compat. Qed.

Lemma ratio_noise e w d m i : 0 < e -> scale_ratio (reweighted e w d) m i = scale_ratio d m i.
Proof.
  intros He. pose proof (inv_sq_pos e He) as Hv. unfold scale_ratio, reweighted. cbn [flux ferr wh_nosky]. cbv zeta.
  rewrite (map_fsum_s (/ (e * e)) (fun c => fdiv (fmul (at2 (flux d) i c) (at2 m i c)) (fsq (at2 (times e (ferr d)) i c)))
             (fun c => fdiv (fmul (at2 (flux d) i c) (at2 m i c)) (fsq (at2 (ferr d) i c)))); [|exact Hv|intros c; now apply fsq_div_err].
  rewrite (map_fsum_s (/ (e * e)) (fun c => fdiv (fsq (at2 m i c)) (fsq (at2 (times e (ferr d)) i c)))
             (fun c => fdiv (fsq (at2 m i c)) (fsq (at2 (ferr d) i c)))); [|exact Hv|intros c; now apply fsq_div_err].
  generalize (fsum (map (fun c => fdiv (fmul (at2 (flux d) i c) (at2 m i c)) (fsq (at2 (ferr d) i c))) (wh_nosky d))).
  generalize (fsum (map (fun c => fdiv (fsq (at2 m i c)) (fsq (at2 (ferr d) i c))) (wh_nosky d))). intros den num.
  rewrite !(s_abs _ Hv), !(s_eqb0 _ Hv), (s_finite _ Hv). destruct (feqb (fabs den) (Fin 0)); [reflexivity|].
  replace (if isfinite num then fmul (Fin (/ (e * e))) num else Fin 0) with (fmul (Fin (/ (e * e))) (if isfinite num then num else Fin 0)).
  2:{ destruct (isfinite num); [reflexivity|]. cbn. now rewrite Rmult_0_r. }
  now rewrite (s_div_both _ Hv).
Qed.
Lemma scale_noise e w d m : 0 < e -> scale_model (reweighted e w d) m = scale_model d m.
Proof.
  intros He. unfold scale_model. change (flux (reweighted e w d)) with (flux d). change (wh_nosky (reweighted e w d)) with (wh_nosky d).
  change (cols (ferr (reweighted e w d))) with (cols (ferr d)). change (rows (ferr (reweighted e w d))) with (rows (ferr d)).
  destruct (negb _); [reflexivity|]. destruct (negb _); [reflexivity|]. destruct (negb _); [reflexivity|]. destruct (negb _); [reflexivity|].
  f_equal. apply mk2_ext. intros i j. now rewrite ratio_noise.
Qed.
Lemma store_noise e w c k x : 0 < e -> store_model (noisier e w c) k x = store_model c k x.
Proof.
  intros He. unfold store_model. destruct (a_model x); [|reflexivity]. destruct (k_noscale k); [reflexivity|].
  change (g_data (c_gal (noisier e w c))) with (reweighted e w (g_data (c_gal c))). now rewrite scale_noise.
Qed.
Lemma update_noise e w c tf k : 0 < e -> km_update (noisier e w c) tf k = km_update c tf k.
Proof.
  intros He. unfold km_update. destruct (negb _); [reflexivity|]. destruct (update_parameters _ _ _) as [t [[]|x]]; [|reflexivity].
  unfold km_update_aper. cbn [k_aper k_theta]. destruct (k_aper k) as [a|]; [|reflexivity].
  change (aper_update (noisier e w c) t a) with (aper_update c t a). destruct (aper_update c t a) as [y [[]|x]]; [|reflexivity]. cbv zeta. now apply store_noise.
Qed.
Lemma make_noise e w c tf k : 0 < e -> km_make (noisier e w c) tf k = km_make c tf k.
Proof.
  intros He. unfold km_make. destruct (negb _); [reflexivity|]. destruct (update_parameters _ _ _) as [t [[]|x]]; [|reflexivity]. cbn [k_aper k_stamp]. destruct (k_aper k) as [a|].
  - unfold km_update_aper. cbn [k_aper k_theta].
    change (aper_update (noisier e w c) t a) with (aper_update c t a). destruct (aper_update c t a) as [y [[]|x]]; [|reflexivity]. cbv zeta. now apply store_noise.
  - change (aper_new (noisier e w c) t (k_stamp k)) with (aper_new c t (k_stamp k)). destruct (aper_new c t (k_stamp k)) as [st [a|x]]; [|reflexivity]. now apply store_noise.
Qed.
Lemma noise_objects e w c tf k : 0 < e ->
  km_make (noisier e w c) tf k = km_make c tf k /\ km_update (noisier e w c) tf k = km_update c tf k.
Proof. intros He. split; [now apply make_noise|now apply update_noise]. Qed.

(* the log-likelihood *)
Lemma fin_term m a y l t : 0 < a ->
  fmul (Fin m) (fadd (fmul (Fin a) y) (Fin (l + t))) = fadd (fmul (Fin a) (fmul (Fin m) (fadd y (Fin l)))) (Fin (m * ((1 - a) * l + t))).
Proof.
  intros Ha. destruct y as [r| | |]; rewrite ?(s_PInf a Ha), ?(s_NInf a Ha); [cbn [fadd fmul]; f_equal; ring| | |reflexivity].
  - change (fmul (Fin m) (fadd PInf (Fin (l + t)))) with (inf_scale true m). change (fmul (Fin m) (fadd PInf (Fin l))) with (inf_scale true m). rewrite (s_inf_scale a Ha).
    unfold inf_scale. destruct (Reqb m 0); [reflexivity|]. destruct (Bool.eqb _ _); reflexivity.
  - change (fmul (Fin m) (fadd NInf (Fin (l + t)))) with (inf_scale false m). change (fmul (Fin m) (fadd NInf (Fin l))) with (inf_scale false m). rewrite (s_inf_scale a Ha).
    unfold inf_scale. destruct (Reqb m 0); [reflexivity|]. destruct (Bool.eqb _ _); reflexivity.
Qed.
Lemma sq_err e x y : 0 < e -> fsq (fdiv x (fmul (Fin e) y)) = fmul (Fin (/ (e * e))) (fsq (fdiv x y)).
Proof.
  intros He. assert (Hv : 0 < / e) by now apply Rinv_0_lt_compat. rewrite s_div_r by exact He. unfold fsq at 1. rewrite (s_mul _ Hv), (s_mul_r _ Hv), fmul_Fin2 by assumption.
  now rewrite Rinv_mult.
Qed.
Lemma log_pos z : 0 < z -> flog10 (Fin z) = Fin (ln z / ln 10).
Proof. intros H. unfold flog10. destruct (Rltb 0 z) eqn:E; [reflexivity|]. apply Rltb_false in E. lra. Qed.

Lemma pos_w e w : 0 < e -> 0 < w -> 0 < w / (e * e).
Proof. intros. apply Rmult_lt_0_compat; [assumption|]. now apply inv_sq_pos. Qed.

Lemma llike_noise e w S M d m : 0 < e -> 0 < w -> plain_errors S M d ->
  model_llike (reweighted e w d) m = fadd (fmul (Fin (w / (e * e))) (model_llike d m)) (Fin (shift e (w / (e * e)) S M (rows m) (cols m))).
Proof.
  intros He Hw HP. pose proof (pos_w e w He Hw) as Ha. set (a := w / (e * e)) in *. pose proof (inv_sq_pos e He) as Hv. set (L := ln e / ln 10).
  unfold model_llike, reweighted. cbn [flux ferr smask fwt times rows cols at2].
  assert (E : forall i j, fmul (at2 (smask d) i j) (fadd (fmul (fmul (Fin w) (at2 (fwt d) i j)) (fsq (fdiv (fsub (at2 (flux d) i j) (at2 m i j)) (fmul (Fin e) (at2 (ferr d) i j)))))
                (flog10 (fmul (Fin (2 * PI)) (fsq (fmul (Fin e) (at2 (ferr d) i j))))))
     = fadd (fmul (Fin a) (fmul (at2 (smask d) i j) (fadd (fmul (at2 (fwt d) i j) (fsq (fdiv (fsub (at2 (flux d) i j) (at2 m i j)) (at2 (ferr d) i j)))) (flog10 (fmul (Fin (2 * PI)) (fsq (at2 (ferr d) i j)))))))
            (Fin (M i j * ((1 - a) * (ln (2 * PI * (S i j * S i j)) / ln 10) + 2 * L)))).
  { intros i j. destruct (HP i j) as (E1 & N & E2). rewrite sq_err by exact He. rewrite (s_mul w Hw), (s_mul_r _ Hv), fmul_Fin2 by assumption.
    replace (w * / (e * e)) with a by reflexivity. rewrite E1, E2. unfold fsq at 2 4. cbn [fmul].
    assert (P : 0 < 2 * PI * (S i j * S i j)). { pose proof PI_RGT_0. assert (0 < S i j * S i j) by nra. apply Rmult_lt_0_compat; lra. }
    assert (P2 : 0 < e * e) by now apply Rmult_lt_0_compat.
    replace (2 * PI * (e * S i j * (e * S i j))) with (e * e * (2 * PI * (S i j * S i j))) by ring.
    rewrite (log_pos (e * e * _)) by now apply Rmult_lt_0_compat. rewrite (log_pos (2 * PI * _)) by exact P. rewrite !ln_mult by assumption.
    replace ((ln e + ln e + ln (2 * PI * (S i j * S i j))) / ln 10) with (ln (2 * PI * (S i j * S i j)) / ln 10 + 2 * L) by (unfold L, Rdiv; ring).
    now apply fin_term. }
  fold a. unfold shift. fold L.
  replace (- / 2) with (-1/2) by field.
  match goal with |- _ = fadd _ (Fin (_ * ?X)) => set (T := X) end.
  assert (Q : forall x, fadd (fmul (Fin a) (fmul (Fin (-1/2)) x)) (Fin (-1/2 * T)) = fmul (Fin (-1/2)) (fadd (fmul (Fin a) x) (Fin T))).
  { intros x. rewrite fmul_fadd_Fin, (s_mul_r a Ha). reflexivity. }
  rewrite Q. f_equal. unfold sum2. cbn [rows cols at2]. rewrite <- (s_sumn a Ha).
  rewrite (fsumn_ext (rows m) _ (fun i => fadd (fmul (Fin a) (fsumn (cols m) (fun j => fmul (at2 (smask d) i j)
     (fadd (fmul (at2 (fwt d) i j) (fsq (fdiv (fsub (at2 (flux d) i j) (at2 m i j)) (at2 (ferr d) i j)))) (flog10 (fmul (Fin (2 * PI)) (fsq (at2 (ferr d) i j))))))))
     (Fin (rsumn (cols m) (fun j => M i j * ((1 - a) * (ln (2 * PI * (S i j * S i j)) / ln 10) + 2 * L)))))).
  - rewrite fsumn_plus. f_equal. now rewrite (fsumn_Fin _ _ (fun i => rsumn (cols m) (fun j => M i j * ((1 - a) * (ln (2 * PI * (S i j * S i j)) / ln 10) + 2 * L)))) by reflexivity.
  - intros i _. rewrite <- (s_sumn a Ha). rewrite <- (fsumn_Fin (cols m) (fun j => Fin (M i j * ((1 - a) * (ln (2 * PI * (S i j * S i j)) / ln 10) + 2 * L)))) by reflexivity.
    rewrite <- fsumn_plus. apply fsumn_ext. intros j _. apply E.
Qed.

Lemma noise_llike e w S M c k tf : 0 < e -> 0 < w -> plain_errors S M (g_data (c_gal c)) ->
  let p := km_llike c k tf in let p' := km_llike (noisier e w c) k tf in
  fst p' = fst p /\
  match snd p, snd p' with
  | Ok x, Ok x' => exists m, k_model (fst p) = Some m /\ x' = fadd (fmul (Fin (w / (e * e))) x) (Fin (shift e (w / (e * e)) S M (rows m) (cols m)))
  | Err a, Err b => a = b
  | _, _ => False
  end.
Proof.
  intros He Hw HP. unfold km_llike. rewrite update_noise by exact He. cbv zeta. destruct (km_update c tf k) as [y [[]|x]]; cbn [fst snd]; [|auto].
  destruct (k_model y) as [m|] eqn:E; cbn [fst snd]; [|auto]. split; [reflexivity|]. exists m. split; [exact E|]. now apply llike_noise.
Qed.

(* two points of a fit *)
Lemma llike_shape c k0 k tf k2 x : offsets_fixed k0 -> fresh k0 -> history c k0 k -> km_llike c k tf = (k2, Ok x) ->
  exists m, k_model k2 = Some m /\ rows m = img_rows c /\ cols m = length (g_wave (c_gal c)).
Proof.
  intros O F H E. apply (llike_fresh c k0 k tf O F H) in E as (m & E & M & _). destruct (history_shape c k0 k2 F (h_start _ _ _ _ E)) as (m' & M' & R).
  exists m'. auto.
Qed.
Lemma noise_points e w S M c k0 k k' tf1 tf2 k1 k2 x1 x2 : 0 < e -> 0 < w -> plain_errors S M (g_data (c_gal c)) ->
  offsets_fixed k0 -> fresh k0 -> history c k0 k -> history c k0 k' ->
  km_llike c k tf1 = (k1, Ok (Fin x1)) -> km_llike c k' tf2 = (k2, Ok (Fin x2)) ->
  exists y1 y2, km_llike (noisier e w c) k tf1 = (k1, Ok (Fin y1)) /\ km_llike (noisier e w c) k' tf2 = (k2, Ok (Fin y2)) /\
    y2 - y1 = w / (e * e) * (x2 - x1) /\ (y1 < y2 <-> x1 < x2).
Proof.
  intros He Hw HP O F H H' E1 E2. pose proof (pos_w e w He Hw) as Ha.
  destruct (llike_shape c k0 k tf1 k1 _ O F H E1) as (m1 & M1 & R1 & C1). destruct (llike_shape c k0 k' tf2 k2 _ O F H' E2) as (m2 & M2 & R2 & C2).
  pose proof (noise_llike e w S M c k tf1 He Hw HP) as (A1 & B1). pose proof (noise_llike e w S M c k' tf2 He Hw HP) as (A2 & B2).
  rewrite E1 in A1, B1. rewrite E2 in A2, B2. cbn [fst snd] in *.
  destruct (km_llike (noisier e w c) k tf1) as [q1 [z1|]]; cbn [fst snd] in *; [|contradiction]. destruct (km_llike (noisier e w c) k' tf2) as [q2 [z2|]]; cbn [fst snd] in *; [|contradiction].
  destruct B1 as (n1 & N1 & ->). destruct B2 as (n2 & N2 & ->). rewrite M1 in N1. injection N1 as <-. rewrite M2 in N2. injection N2 as <-. subst q1 q2.
  rewrite R1, C1, R2, C2. cbn [fadd fmul]. set (a := w / (e * e)) in *. set (s := shift _ _ _ _ _ _). exists (a * x1 + s), (a * x2 + s).
  split; [reflexivity|]. split; [reflexivity|]. split; [ring|]. split; intros; nra.
Qed.

(* chi-squared *)
Lemma chisq_noise e w d m : 0 < e -> 0 < w -> model_chisq (reweighted e w d) m = fmul (Fin (w / (e * e))) (model_chisq d m).
Proof.
  intros He Hw. pose proof (pos_w e w He Hw) as Ha. pose proof (inv_sq_pos e He) as Hv. unfold model_chisq, reweighted. cbn [flux ferr smask fwt times rows cols at2]. unfold sum2. cbn [rows cols at2]. rewrite <- (s_sumn _ Ha). apply fsumn_ext. intros i _.
  rewrite <- (s_sumn _ Ha). apply fsumn_ext. intros j _. rewrite sq_err by exact He. rewrite (s_mul_r w Hw), (s_mul _ Hv), fmul_Fin2 by assumption. reflexivity.
Qed.
Lemma chisq_nw_noise e w d m : 0 < e -> model_chisq_no_weight (reweighted e w d) m = fmul (Fin (/ (e * e))) (model_chisq_no_weight d m).
Proof.
  intros He. pose proof (inv_sq_pos e He) as Hv. unfold model_chisq_no_weight, reweighted. cbn [flux ferr smask fwt times rows cols at2]. unfold sum2. cbn [rows cols at2]. rewrite <- (s_sumn _ Hv). apply fsumn_ext. intros i _.
  rewrite <- (s_sumn _ Hv). apply fsumn_ext. intros j _. now rewrite sq_err.
Qed.
Lemma noise_chisq e w d m nf : 0 < e -> 0 < w ->
  let d' := reweighted e w d in
  model_chisq d' m = fmul (Fin (w / (e * e))) (model_chisq d m) /\ model_redchisq d' m nf = fmul (Fin (w / (e * e))) (model_redchisq d m nf) /\
  model_redchisq_no_weight d' m nf = fmul (Fin (/ (e * e))) (model_redchisq_no_weight d m nf) /\ model_redchisq_weight_ref d' nf = fmul (Fin w) (model_redchisq_weight_ref d nf).
Proof.
  intros He Hw d'. pose proof (pos_w e w He Hw) as Ha. pose proof (inv_sq_pos e He) as Hv. split; [now apply chisq_noise|].
  unfold model_redchisq, model_redchisq_no_weight, model_redchisq_weight_ref, d'. rewrite chisq_noise, chisq_nw_noise by assumption.
  change (smask (reweighted e w d)) with (smask d). rewrite !s_div by assumption. split; [reflexivity|]. split; [reflexivity|].
  rewrite <- (s_div w Hw). f_equal. cbn [reweighted fwt times]. unfold sum2. cbn [rows cols at2]. rewrite <- (s_sumn w Hw). apply fsumn_ext. intros i _. rewrite <- (s_sumn w Hw). reflexivity.
Qed.
