(* Proofs: brightness and flux units at the level of the fit. *)
From Coq Require Import Reals Lra Lia List Bool Arith ZArith FunctionalExtensionality.
From Verif Require Import PyFloat PyBase Arr PyNum MParams MKernels MAper2D SMirror SBright PKernels PAper2D PMirror PMirror2 PBright PBright2.
Import ListNotations.
Local Open Scope R_scope.

Lemma s_div_r k x y : 0 < k -> fdiv x (fmul (Fin k) y) = fmul (Fin (/ k)) (fdiv x y).
Proof.
  intros Hk. assert (Hv : 0 < / k) by now apply Rinv_0_lt_compat.
  destruct x as [a| | |], y as [b| | |]; rewrite ?(s_PInf k Hk), ?(s_NInf k Hk), ?(s_NaN k), ?(s_Fin k); try reflexivity.
  - cbn [fdiv]. rewrite (Reqb_k0 k Hk). destruct (Reqb b 0) eqn:E.
    + destruct (Reqb a 0); [reflexivity|]. destruct (Rltb 0 a); [now rewrite s_PInf|now rewrite s_NInf].
    + apply Reqb_false in E. cbn. f_equal. field. lra.
  - cbn. now rewrite Rmult_0_r.
  - cbn. now rewrite Rmult_0_r.
  - cbn [fdiv]. rewrite (Rltb_0k k Hk). destruct (Rltb b 0); [now rewrite s_NInf|now rewrite s_PInf].
  - cbn [fdiv]. rewrite (Rltb_0k k Hk). destruct (Rltb b 0); [now rewrite s_PInf|now rewrite s_NInf].
Qed.
Lemma s_undo k x : 0 < k -> fmul (Fin k) (fmul (Fin (/ k)) x) = x.
Proof.
  intros Hk. rewrite fmul_Fin2 by (auto; now apply Rinv_0_lt_compat). rewrite Rinv_r by lra.
  destruct x; cbn; rewrite ?s_PInf, ?s_NInf by lra; try reflexivity; try (f_equal; ring). all: unfold inf_scale; destruct (Reqb 1 0) eqn:E; [apply Reqb_true in E; lra|]; (destruct (Rltb 0 1) eqn:F; [reflexivity|apply Rltb_false in F; lra]).
Qed.
Lemma map_fsum_s {A} k (f g : A -> fl) l : 0 < k -> (forall x, f x = fmul (Fin k) (g x)) -> fsum (map f l) = fmul (Fin k) (fsum (map g l)).
Proof. intros Hk H. rewrite <- (s_sum k Hk). rewrite map_map. f_equal. apply map_ext. exact H. Qed.

(* the row factor for an image [k] times as bright *)
Lemma ratio_bright k d m i : 0 < k -> forall x, fmul (fmul (Fin k) x) (scale_ratio d (map2 (fmul (Fin k)) m) i) = fmul x (scale_ratio d m i).
Proof.
  intros Hk x. unfold scale_ratio. cbv zeta.
  rewrite (map_fsum_s k (fun c => fdiv (fmul (at2 (flux d) i c) (at2 (map2 (fmul (Fin k)) m) i c)) (fsq (at2 (ferr d) i c)))
             (fun c => fdiv (fmul (at2 (flux d) i c) (at2 m i c)) (fsq (at2 (ferr d) i c)))); [|exact Hk|].
  2:{ intros c. cbn [map2 at2]. rewrite (s_mul_r k Hk), (s_div k Hk). reflexivity. }
  assert (E : fsum (map (fun c => fdiv (fsq (at2 (map2 (fmul (Fin k)) m) i c)) (fsq (at2 (ferr d) i c))) (wh_nosky d)) =
              fmul (Fin k) (fmul (Fin k) (fsum (map (fun c => fdiv (fsq (at2 m i c)) (fsq (at2 (ferr d) i c))) (wh_nosky d))))).
  { rewrite <- (map_fsum_s k (fun c => fmul (Fin k) (fdiv (fsq (at2 m i c)) (fsq (at2 (ferr d) i c))))); [|exact Hk|reflexivity].
    apply map_fsum_s; [exact Hk|]. intros c. cbn [map2 at2]. unfold fsq at 1. rewrite (s_mul k Hk), (s_mul_r k Hk), !(s_div k Hk). reflexivity. }
  rewrite E. clear E. generalize (fsum (map (fun c => fdiv (fmul (at2 (flux d) i c) (at2 m i c)) (fsq (at2 (ferr d) i c))) (wh_nosky d))).
  generalize (fsum (map (fun c => fdiv (fsq (at2 m i c)) (fsq (at2 (ferr d) i c))) (wh_nosky d))). intros den num.
  rewrite !(s_abs k Hk), !(s_eqb0 k Hk), (s_finite k Hk). destruct (feqb (fabs den) (Fin 0)).
  - rewrite (s_mul k Hk). destruct x; rewrite ?fdiv_Fin by lra; replace (0 / -99) with 0 by lra; cbn; try reflexivity; rewrite ?Rmult_0_r; try reflexivity;
      unfold inf_scale; (destruct (Reqb 0 0) eqn:E; [reflexivity|apply Reqb_false in E; lra]).
  - replace (if isfinite num then fmul (Fin k) num else Fin 0) with (fmul (Fin k) (if isfinite num then num else Fin 0)).
    2:{ destruct (isfinite num); [reflexivity|]. cbn. now rewrite Rmult_0_r. }
    rewrite (s_div_both k Hk), s_div_r by exact Hk. rewrite (s_mul k Hk), <- (s_mul_r k Hk), s_undo by exact Hk. reflexivity.
Qed.
Lemma scale_bright k d m : 0 < k -> scale_model d (map2 (fmul (Fin k)) m) = scale_model d m.
Proof.
  intros Hk. unfold scale_model. cbn [map2 rows cols]. destruct (negb _); [reflexivity|]. destruct (negb _); [reflexivity|]. destruct (negb _); [reflexivity|].
  destruct (negb _); [reflexivity|]. f_equal. apply mk2_ext. intros i j. apply ratio_bright. exact Hk.
Qed.

Section Fit.
Variables (a b : R) (c : cfg).
Hypothesis Ha : 0 < a.
Hypothesis Hb : 0 < b.
Hypothesis Hfit : o_shift (c_opt c) || o_eff (c_opt c) = true -> scales_with a (p_lmfit (c_prof c)).
Let c' := brighter a b c.
Definition kB (k k' : kinmodel) : Prop :=
  k_noscale k = false /\ exists m, k' = mkkm (k_theta k) (k_vary k) (k_noscale k) (option_map (B a b c) (k_aper k)) m (k_stamp k).
Definition kBr (p q : kinmodel * res unit) : Prop := kB (fst p) (fst q) /\ snd p = snd q /\ (snd p = Ok tt -> k_model (fst p) = k_model (fst q)).
Lemma store_bright k k' x : kB k k' -> kBr (store_model c k x) (store_model c' k' (B a b c x)).
Proof.
  intros (N & m & ->). unfold store_model. cbn [B a_model k_noscale k_theta k_vary k_aper k_stamp]. rewrite N. destruct (a_model x) as [im|]; cbn [option_map].
  - change (g_data (c_gal c')) with (g_data (c_gal c)). rewrite (scale_bright _ _ _ (HK a b c Ha Hb)).
    destruct (scale_model _ _); (split; [split; [reflexivity|eexists; reflexivity]|]); (split; [reflexivity|]); intros E; [reflexivity|discriminate].
  - split; [split; [exact N|eexists; cbn; rewrite N; reflexivity]|]. split; [reflexivity|discriminate].
Qed.
Lemma update_aper_bright k k' : kB k k' -> kBr (km_update_aper c k) (km_update_aper c' k').
Proof.
  intros H. pose proof H as (N & m & ->). unfold km_update_aper. cbn [k_aper k_theta k_vary k_noscale k_model].
  destruct (k_aper k) as [x|] eqn:E; cbn [option_map].
  - rewrite (com_update a b c Ha Hb Hfit). destruct (aper_update c (k_theta k) x) as [y [[]|e]]; cbn [fst snd].
    + apply store_bright. split; [exact N|]. eexists. reflexivity.
    + split; [split; [exact N|eexists; reflexivity]|]. split; [reflexivity|discriminate].
  - split; [exact H|]. split; [reflexivity|discriminate].
Qed.
Lemma update_bright k k' tf : kB k k' -> kBr (km_update c tf k) (km_update c' tf k').
Proof.
  intros H. pose proof H as (N & m & ->). unfold km_update. cbn [k_aper k_theta k_vary k_noscale k_model k_stamp]. destruct (negb _).
  - split; [exact H|]. split; [reflexivity|discriminate].
  - destruct (update_parameters _ _ _) as [t [[]|e]].
    + apply update_aper_bright. split; [exact N|]. eexists. reflexivity.
    + split; [split; [exact N|eexists; reflexivity]|]. split; [reflexivity|discriminate].
Qed.
Lemma make_bright k k' tf : kB k k' -> kBr (km_make c tf k) (km_make c' tf k').
Proof.
  intros H. pose proof H as (N & m & ->). unfold km_make. cbn [k_aper k_theta k_vary k_noscale k_model k_stamp]. destruct (negb _).
  - split; [exact H|]. split; [reflexivity|discriminate].
  - destruct (update_parameters _ _ _) as [t [[]|e]].
    + cbn [k_aper k_stamp]. destruct (k_aper k) as [x|] eqn:E; cbn [option_map].
      * apply update_aper_bright. split; [exact N|]. eexists. cbn [k_aper k_theta k_vary k_noscale k_stamp option_map]. reflexivity.
      * rewrite (new_bright a b c Ha Hb Hfit). destruct (aper_new c t (k_stamp k)) as [st [x|e]]; cbn [fst snd rmap].
        -- apply store_bright. split; [exact N|]. eexists. reflexivity.
        -- split; [split; [exact N|eexists; reflexivity]|]. split; [reflexivity|discriminate].
    + split; [split; [exact N|eexists; reflexivity]|]. split; [reflexivity|discriminate].
Qed.
Lemma llike_bright k k' tf : kB k k' -> kB (fst (km_llike c k tf)) (fst (km_llike c' k' tf)) /\ snd (km_llike c k tf) = snd (km_llike c' k' tf).
Proof.
  intros H. unfold km_llike. destruct (update_bright k k' tf H) as (X & Y & M).
  destruct (km_update c tf k) as [y [[]|e]], (km_update c' tf k') as [y' [[]|e']]; cbn [fst snd] in *; try discriminate.
  - rewrite (M eq_refl) in *. destruct (k_model y'); split; auto.
  - injection Y as <-. split; auto.
Qed.
Lemma seq_bright tfs : forall k k', kB k k' -> likelihoods c k tfs = likelihoods c' k' tfs.
Proof.
  induction tfs as [|tf tfs IH]; intros k k' H; [reflexivity|]. cbn [likelihoods]. destruct (llike_bright k k' tf H) as [X Y].
  destruct (km_llike c k tf) as [y r], (km_llike c' k' tf) as [y' r']. cbn [fst snd] in *. subst r'. f_equal. now apply IH.
Qed.
End Fit.

Lemma bright_image a b c th st : 0 < a -> 0 < b -> (o_shift (c_opt c) || o_eff (c_opt c) = true -> scales_with a (p_lmfit (c_prof c))) ->
  image_times (gain a b c) (aper_new c th st) (aper_new (brighter a b c) th st).
Proof.
  intros Ha Hb Hf. rewrite (new_bright a b c Ha Hb Hf). split; [reflexivity|]. cbn [snd]. destruct (snd (aper_new c th st)); reflexivity.
Qed.
Lemma bright_fit a b c k tf0 tfs : 0 < a -> 0 < b -> (o_shift (c_opt c) || o_eff (c_opt c) = true -> scales_with a (p_lmfit (c_prof c))) ->
  k_noscale k = false -> k_aper k = None ->
  let c' := brighter a b c in
  let p := km_make c tf0 k in let p' := km_make c' tf0 k in
  snd p = snd p' /\ (snd p = Ok tt -> k_model (fst p) = k_model (fst p')) /\ likelihoods c (fst p) tfs = likelihoods c' (fst p') tfs.
Proof.
  intros Ha Hb Hf N A c' p p'. destruct (make_bright a b c Ha Hb Hf k k tf0) as (X & Y & M).
  { split; [exact N|]. exists (k_model k). rewrite A. cbn [option_map]. rewrite <- A. now destruct k. }
  split; [exact Y|]. split; [exact M|]. exact (seq_bright a b c Ha Hb Hf tfs _ _ X).
Qed.

(* units of the data *)
Lemma ratio_units u d m i : 0 < u ->
  scale_ratio (mkdata (times u (flux d)) (times u (ferr d)) (smask d) (fwt d) (wh_nosky d)) m i = fmul (Fin u) (scale_ratio d m i).
Proof.
  intros Hu. assert (Hv : 0 < / u) by now apply Rinv_0_lt_compat. unfold scale_ratio. cbn [flux ferr wh_nosky]. cbv zeta.
  assert (Q : forall x y, fdiv x (fsq (fmul (Fin u) y)) = fmul (Fin (/ u)) (fmul (Fin (/ u)) (fdiv x (fsq y)))).
  { intros x y. unfold fsq at 1. rewrite (s_mul u Hu), (s_mul_r u Hu), !s_div_r by exact Hu. reflexivity. }
  rewrite (map_fsum_s (/ u) (fun c => fdiv (fmul (at2 (times u (flux d)) i c) (at2 m i c)) (fsq (at2 (times u (ferr d)) i c)))
             (fun c => fdiv (fmul (at2 (flux d) i c) (at2 m i c)) (fsq (at2 (ferr d) i c)))); [|exact Hv|].
  2:{ intros c. cbn [times at2]. rewrite Q, (s_mul u Hu), (s_div u Hu). f_equal. rewrite fmul_Fin2 by assumption. rewrite Rmult_comm, <- fmul_Fin2 by assumption. now apply s_undo. }
  assert (E : fsum (map (fun c => fdiv (fsq (at2 m i c)) (fsq (at2 (times u (ferr d)) i c))) (wh_nosky d)) =
              fmul (Fin (/ u)) (fmul (Fin (/ u)) (fsum (map (fun c => fdiv (fsq (at2 m i c)) (fsq (at2 (ferr d) i c))) (wh_nosky d))))).
  { rewrite <- (map_fsum_s (/ u) (fun c => fmul (Fin (/ u)) (fdiv (fsq (at2 m i c)) (fsq (at2 (ferr d) i c))))); [|exact Hv|reflexivity].
    apply map_fsum_s; [exact Hv|]. intros c. cbn [times at2]. apply Q. }
  rewrite E. clear E. generalize (fsum (map (fun c => fdiv (fmul (at2 (flux d) i c) (at2 m i c)) (fsq (at2 (ferr d) i c))) (wh_nosky d))).
  generalize (fsum (map (fun c => fdiv (fsq (at2 m i c)) (fsq (at2 (ferr d) i c))) (wh_nosky d))). intros den num.
  rewrite !(s_abs (/ u) Hv), !(s_eqb0 (/ u) Hv), (s_finite (/ u) Hv). destruct (feqb (fabs den) (Fin 0)).
  - rewrite fdiv_Fin by lra. cbn. f_equal. lra.
  - replace (if isfinite num then fmul (Fin (/ u)) num else Fin 0) with (fmul (Fin (/ u)) (if isfinite num then num else Fin 0)).
    2:{ destruct (isfinite num); [reflexivity|]. cbn. now rewrite Rmult_0_r. }
    rewrite (s_div_both (/ u) Hv), s_div_r by exact Hv. now rewrite Rinv_inv.
Qed.
Lemma scale_units u d m : 0 < u ->
  scale_model (mkdata (times u (flux d)) (times u (ferr d)) (smask d) (fwt d) (wh_nosky d)) m = rmap (times u) (scale_model d m).
Proof.
  intros Hu. unfold scale_model. cbn [flux ferr wh_nosky]. change (cols (times u (flux d))) with (cols (flux d)). change (cols (times u (ferr d))) with (cols (ferr d)).
  change (rows (times u (flux d))) with (rows (flux d)). change (rows (times u (ferr d))) with (rows (ferr d)).
  destruct (negb _); [reflexivity|]. destruct (negb _); [reflexivity|]. destruct (negb _); [reflexivity|].
  destruct (negb _); [reflexivity|]. cbn [rmap]. f_equal.
  change (times u (mk2 (rows m) (cols m) (fun i j => fmul (at2 m i j) (scale_ratio d m i)))) with (mk2 (rows m) (cols m) (fun i j => fmul (Fin u) (fmul (at2 m i j) (scale_ratio d m i)))).
  apply mk2_ext. intros i j. rewrite ratio_units by exact Hu. now apply s_mul_r.
Qed.
Lemma fmul_fadd_Fin m x t : fmul (Fin m) (fadd x (Fin t)) = fadd (fmul (Fin m) x) (Fin (m * t)).
Proof.
  destruct x; cbn; try reflexivity; try (f_equal; ring); unfold inf_scale; destruct (Reqb m 0); try reflexivity; destruct (Bool.eqb _ _); reflexivity.
Qed.
Lemma log_units u z : 0 < u -> flog10 (fmul (Fin u) z) = fadd (flog10 z) (Fin (ln u / ln 10)).
Proof.
  intros Hu. destruct z as [r| | |]; rewrite ?(s_PInf u Hu), ?(s_NInf u Hu); try reflexivity. cbn [fmul flog10]. rewrite (Rltb_k0 u Hu), (Reqb_k0 u Hu).
  destruct (Rltb 0 r) eqn:E; [|destruct (Reqb r 0); reflexivity]. apply Rltb_true in E. cbn. f_equal. rewrite ln_mult by assumption. unfold Rdiv. ring.
Qed.
Lemma llike_units u d m M : 0 < u -> (forall i j, at2 (smask d) i j = Fin (M i j)) ->
  model_llike (mkdata (times u (flux d)) (times u (ferr d)) (smask d) (fwt d) (wh_nosky d)) (times u m) =
  fadd (model_llike d m) (Fin (- (ln u / ln 10) * in_fit M m)).
Proof.
  intros Hu HM. unfold model_llike. cbn [flux ferr smask fwt times rows cols at2]. set (L := ln u / ln 10).
  assert (E : forall i j, fmul (at2 (smask d) i j) (fadd (fmul (at2 (fwt d) i j) (fsq (fdiv (fsub (fmul (Fin u) (at2 (flux d) i j)) (fmul (Fin u) (at2 m i j))) (fmul (Fin u) (at2 (ferr d) i j)))))
                (flog10 (fmul (Fin (2 * PI)) (fsq (fmul (Fin u) (at2 (ferr d) i j))))))
     = fadd (fmul (at2 (smask d) i j) (fadd (fmul (at2 (fwt d) i j) (fsq (fdiv (fsub (at2 (flux d) i j) (at2 m i j)) (at2 (ferr d) i j)))) (flog10 (fmul (Fin (2 * PI)) (fsq (at2 (ferr d) i j))))))
            (Fin (M i j * (2 * L)))).
  { intros i j. rewrite (s_sub u Hu), (s_div_both u Hu). unfold fsq at 2. rewrite (s_mul u Hu), (s_mul_r u Hu), !(s_mul_r u Hu), !log_units by exact Hu. fold L.
    rewrite !HM, <- fmul_fadd_Fin. f_equal. rewrite <- !fadd_assoc. do 2 f_equal. cbn. f_equal. ring. }
  replace (- L * in_fit M m) with (-1/2 * (2 * L * in_fit M m)) by field. rewrite <- fmul_fadd_Fin. f_equal. unfold sum2. cbn [rows cols at2].
  rewrite (fsumn_ext (rows m) _ (fun i => fadd (fsumn (cols m) (fun j => fmul (at2 (smask d) i j)
     (fadd (fmul (at2 (fwt d) i j) (fsq (fdiv (fsub (at2 (flux d) i j) (at2 m i j)) (at2 (ferr d) i j)))) (flog10 (fmul (Fin (2 * PI)) (fsq (at2 (ferr d) i j)))))))
     (Fin (rsumn (cols m) (fun j => M i j * (2 * L)))))).
  - rewrite fsumn_plus. f_equal. rewrite (fsumn_Fin _ _ (fun i => rsumn (cols m) (fun j => M i j * (2 * L)))) by reflexivity. f_equal.
    unfold in_fit, rsum2. rewrite <- rsumn_scal. apply rsumn_ext. intros i _. rewrite <- rsumn_scal. apply rsumn_ext. intros j _. ring.
  - intros i _. rewrite <- (fsumn_Fin _ (fun j => Fin (M i j * (2 * L)))) by reflexivity. rewrite <- fsumn_plus. apply fsumn_ext. intros j _. apply E.
Qed.

Lemma units_store u c k k' x : 0 < u -> k_noscale k = false -> same_but_image k k' ->
  let p := store_model c k x in let p' := store_model (in_units u c) k' x in
  same_but_image (fst p) (fst p') /\ snd p = snd p' /\
  (snd p = Ok tt -> exists m, k_model (fst p) = Some m /\ k_model (fst p') = Some (times u m)).
Proof.
  intros Hu N (m0 & ->). unfold store_model. cbn [k_noscale k_theta k_vary k_aper k_stamp]. rewrite N. destruct (a_model x) as [m|].
  - change (g_data (c_gal (in_units u c))) with (mkdata (times u (flux (g_data (c_gal c)))) (times u (ferr (g_data (c_gal c)))) (smask (g_data (c_gal c))) (fwt (g_data (c_gal c))) (wh_nosky (g_data (c_gal c)))).
    rewrite scale_units by exact Hu. destruct (scale_model _ _) as [m'|e]; cbn [rmap fst snd].
    + split; [eexists; reflexivity|]. split; [reflexivity|]. intros _. exists m'. auto.
    + split; [eexists; reflexivity|]. split; [reflexivity|discriminate].
  - cbn [fst snd]. split; [exists m0; now rewrite N|]. split; [reflexivity|discriminate].
Qed.
Lemma units_update u c k k' tf : 0 < u -> k_noscale k = false -> same_but_image k k' ->
  let p := km_update c tf k in let p' := km_update (in_units u c) tf k' in
  same_but_image (fst p) (fst p') /\ k_noscale (fst p) = false /\ snd p = snd p' /\
  (snd p = Ok tt -> exists m, k_model (fst p) = Some m /\ k_model (fst p') = Some (times u m)).
Proof.
  intros Hu N H. pose proof H as (m0 & E). unfold km_update. rewrite E. cbn [k_noscale k_theta k_vary k_aper k_stamp k_model]. destruct (negb _).
  - cbn [fst snd]. split; [exists m0; reflexivity|]. split; [exact N|]. split; [reflexivity|discriminate].
  - destruct (update_parameters _ _ _) as [t [[]|e]].
    2:{ split; [eexists; reflexivity|]. split; [exact N|]. split; [reflexivity|discriminate]. }
    unfold km_update_aper. cbn [k_noscale k_theta k_vary k_aper k_stamp k_model]. destruct (k_aper k) as [x|].
    2:{ split; [eexists; reflexivity|]. split; [exact N|]. split; [reflexivity|discriminate]. }
    change (aper_update (in_units u c) t x) with (aper_update c t x). destruct (aper_update c t x) as [y [[]|e]].
    2:{ split; [eexists; reflexivity|]. split; [exact N|]. split; [reflexivity|discriminate]. }
    cbv zeta. match goal with |- same_but_image (fst (store_model _ ?k1 _)) (fst (store_model _ ?k2 _)) /\ _ => destruct (units_store u c k1 k2 y Hu N) as (A & B & C); [eexists; reflexivity|] end.
    split; [exact A|]. split; [|split; [exact B|exact C]].
    unfold store_model. cbn [k_noscale]. rewrite N. destruct (a_model y); [|reflexivity]. destruct (scale_model _ _); reflexivity.
Qed.
Lemma units_llike u c k k' tf M : 0 < u -> k_noscale k = false -> same_but_image k k' -> (forall i j, at2 (smask (g_data (c_gal c))) i j = Fin (M i j)) ->
  let p := km_llike c k tf in let p' := km_llike (in_units u c) k' tf in
  same_but_image (fst p) (fst p') /\ k_noscale (fst p) = false /\
  match snd p, snd p' with
  | Ok x, Ok x' => exists m, k_model (fst p) = Some m /\ k_model (fst p') = Some (times u m) /\ x' = fadd x (Fin (- (ln u / ln 10) * in_fit M m))
  | Err e, Err e' => e = e'
  | _, _ => False
  end.
Proof.
  intros Hu N H HM. unfold km_llike. destruct (units_update u c k k' tf Hu N H) as (A & B & C & D). cbv zeta.
  destruct (km_update c tf k) as [y [[]|e]], (km_update (in_units u c) tf k') as [y' [[]|e']]; cbn [fst snd] in *; try discriminate.
  - destruct (D eq_refl) as (m & E1 & E2). rewrite E1, E2. cbn [fst snd]. split; [exact A|]. split; [exact B|]. exists m. repeat split; auto.
    exact (llike_units u (g_data (c_gal c)) m M Hu HM).
  - injection C as <-. auto.
Qed.
(* the difference of two log-likelihoods, on which a sampler acts *)
Lemma units_difference u c k1 k1' k2 k2' tf1 tf2 M x1 x2 x1' x2' m1 m2 : 0 < u -> (forall i j, at2 (smask (g_data (c_gal c))) i j = Fin (M i j)) ->
  k_noscale k1 = false -> k_noscale k2 = false -> same_but_image k1 k1' -> same_but_image k2 k2' ->
  snd (km_llike c k1 tf1) = Ok x1 -> snd (km_llike c k2 tf2) = Ok x2 ->
  snd (km_llike (in_units u c) k1' tf1) = Ok x1' -> snd (km_llike (in_units u c) k2' tf2) = Ok x2' ->
  k_model (fst (km_llike c k1 tf1)) = Some m1 -> k_model (fst (km_llike c k2 tf2)) = Some m2 -> rows m1 = rows m2 -> cols m1 = cols m2 ->
  fsub x2' x1' = fsub x2 x1.
Proof.
  intros Hu HM N1 N2 H1 H2 E1 E2 E1' E2' I1 I2 R C.
  destruct (units_llike u c k1 k1' tf1 M Hu N1 H1 HM) as (_ & _ & A). destruct (units_llike u c k2 k2' tf2 M Hu N2 H2 HM) as (_ & _ & B).
  rewrite E1, E1' in A. rewrite E2, E2' in B. destruct A as (n1 & J1 & _ & ->). destruct B as (n2 & J2 & _ & ->).
  rewrite I1 in J1. injection J1 as <-. rewrite I2 in J2. injection J2 as <-. unfold in_fit. rewrite R, C. generalize (- (ln u / ln 10) * rsum2 (rows m2) (cols m2) M). intros t.
  unfold fsub. destruct x1, x2; cbn; try reflexivity. f_equal. ring.
Qed.
