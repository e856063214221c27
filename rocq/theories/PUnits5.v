(* Preparation in another unit: the forms used in the property theorems, the fit that follows, and concrete cases. *)
From Coq Require Import Reals List Bool Arith ZArith Lra Lia.
From Verif Require Import PyFloat PyBase Arr PyNum MKernels SKernels PKernels PAper2D PAper1D PLine PData MMask MTrim MPrep SPrep SUnits SBright PBright PBright3 PUnits PUnits2 PUnits3 PUnits4.
Import ListNotations.
Local Open Scope R_scope.

Lemma prep_units u c e e' : 0 < u -> answers_in_unit u c -> handed_in u e e' -> unprepared (e2 e) ->
  both (fun _ _ => prepared_in u) (fit_prep c e) (fit_prep c e').
Proof. intros Hu Hc He Hp. exact (prep_units_ u Hu c Hc e e' He Hp). Qed.

Lemma same_decisions u s s' : same_but_unit u s s' ->
  q_mask s' = q_mask s /\ q_qual s' = q_qual s /\ q_sky s' = q_sky s /\ q_low s' = q_low s /\ q_weight s' = q_weight s /\ q_wmat s' = q_wmat s /\
  q_wave s' = q_wave s /\ q_wh_sky s' = q_wh_sky s /\ q_wh_nosky s' = q_wh_nosky s /\ q_low_inds s' = q_low_inds s /\
  q_m0 s' = q_m0 s /\ q_m0_shift s' = q_m0_shift s /\ q_ypos s' = q_ypos s /\ q_lam0 s' = q_lam0 s /\ q_mlims s' = q_mlims s /\ q_wprof s' = q_wprof s.
Proof.
  intros (H & _). repeat split; [exact (f_equal q_mask H)|exact (f_equal q_qual H)|exact (f_equal q_sky H)|exact (f_equal q_low H)|exact (f_equal q_weight H)|exact (f_equal q_wmat H)
   |exact (f_equal q_wave H)|exact (f_equal q_wh_sky H)|exact (f_equal q_wh_nosky H)|exact (f_equal q_low_inds H)|exact (f_equal q_m0 H)|exact (f_equal q_m0_shift H)
   |exact (f_equal q_ypos H)|exact (f_equal q_lam0 H)|exact (f_equal q_mlims H)|exact (f_equal q_wprof H)].
Qed.
Lemma prep_same_decisions u c e e' f f' : 0 < u -> answers_in_unit u c -> handed_in u e e' -> unprepared (e2 e) ->
  fit_prep c e = (f, Ok tt) -> fit_prep c e' = (f', Ok tt) -> let s := e2 f in let s' := e2 f' in
  q_mask s' = q_mask s /\ q_qual s' = q_qual s /\ q_sky s' = q_sky s /\ q_low s' = q_low s /\ q_weight s' = q_weight s /\ q_wmat s' = q_wmat s /\
  q_wave s' = q_wave s /\ q_wh_sky s' = q_wh_sky s /\ q_wh_nosky s' = q_wh_nosky s /\ q_low_inds s' = q_low_inds s /\
  q_m0 s' = q_m0 s /\ q_m0_shift s' = q_m0_shift s /\ q_ypos s' = q_ypos s /\ q_lam0 s' = q_lam0 s /\ q_mlims s' = q_mlims s /\ q_wprof s' = q_wprof s.
Proof.
  intros Hu Hc He Hp E E'. pose proof (prep_units u c e e' Hu Hc He Hp) as H. rewrite E, E' in H. destruct H as (H & _). exact (same_decisions u _ _ H).
Qed.

(** A pixel the mask excludes adds nothing, whatever the unit. *)
Lemma zero_fmul x : fmul (Fin 0) x = if isfinite x then Fin 0 else NaN.
Proof. destruct x; cbn [fmul isfinite]; try reflexivity; try (f_equal; ring); unfold inf_scale; now rewrite (proj2 (Reqb_true 0 0) eq_refl). Qed.
Lemma fin_add x y : isfinite (fadd x y) = isfinite x && isfinite y.
Proof. now destruct x, y. Qed.
Lemma fin_neg x : isfinite (fneg x) = isfinite x.
Proof. now destruct x. Qed.
Lemma fin_sq x : isfinite (fsq x) = isfinite x.
Proof. destruct x; try reflexivity. Qed.
Lemma fin_mul_imp x y : isfinite (fmul x y) = true -> isfinite x = true /\ isfinite y = true.
Proof.
  destruct x as [a| | |], y as [b| | |]; cbn; auto; unfold inf_scale;
    repeat match goal with |- context [Reqb ?r 0] => destruct (Reqb r 0) end; cbn; try discriminate; repeat match goal with |- context [Rltb 0 ?r] => destruct (Rltb 0 r) end; cbn; discriminate.
Qed.
Lemma fin_mul x y : isfinite (fmul x y) = isfinite x && isfinite y.
Proof.
  destruct (isfinite x && isfinite y) eqn:E.
  - apply andb_true_iff in E. destruct x, y; destruct E; try discriminate. reflexivity.
  - destruct (isfinite (fmul x y)) eqn:F; [|reflexivity]. apply fin_mul_imp in F. destruct F as [F1 F2]. rewrite F1, F2 in E. discriminate.
Qed.
Lemma fin_log S : isfinite (flog10 (fmul (Fin (2 * PI)) (fsq S))) = isfinite S && negb (feqb S (Fin 0)).
Proof.
  assert (P : 0 < 2 * PI) by (pose proof PI_RGT_0; lra). destruct S as [r| | |].
  - cbn [fsq fmul flog10 isfinite andb feqb]. destruct (Reqb r 0) eqn:E.
    + apply Reqb_true in E. subst r. replace (2 * PI * (0 * 0)) with 0 by ring. rewrite (proj2 (Rltb_false 0 0)) by lra. now rewrite (proj2 (Reqb_true 0 0) eq_refl).
    + apply Reqb_false in E. rewrite (proj2 (Rltb_true _ _)); [reflexivity|]. apply Rmult_lt_0_compat; [exact P|]. nra.
  - change (fsq PInf) with PInf. now rewrite (s_PInf _ P).
  - change (fsq NInf) with PInf. now rewrite (s_PInf _ P).
  - reflexivity.
Qed.
Definition term (w F m S : fl) : fl := fadd (fmul w (fsq (fdiv (fsub F m) S))) (flog10 (fmul (Fin (2 * PI)) (fsq S))).
Lemma fin_div x S : isfinite S = true -> feqb S (Fin 0) = false -> isfinite (fdiv x S) = isfinite x.
Proof.
  destruct S as [r| | |]; try discriminate. cbn [feqb]. intros _ E. apply Reqb_false in E. destruct x as [a| | |]; [now rewrite fdiv_Fin|..]; unfold fdiv; destruct (Rltb r 0); reflexivity.
Qed.
Lemma fin_term w F m S : isfinite (term w F m S) = isfinite w && isfinite F && isfinite m && isfinite S && negb (feqb S (Fin 0)).
Proof.
  unfold term. rewrite fin_add, fin_mul, fin_sq, fin_log. destruct (isfinite S) eqn:ES; [|now rewrite !andb_false_r]. destruct (feqb S (Fin 0)) eqn:EZ; [now rewrite !andb_false_r|].
  rewrite fin_div by assumption. unfold fsub. rewrite fin_add, fin_neg. cbn [andb negb]. rewrite !andb_true_r. now rewrite andb_assoc.
Qed.

Lemma factor_units u s s' d d' i md : 0 < u -> same_but_unit u s s' -> fitted_data s d -> fitted_data s' d' -> no_fill_in_row s i ->
  scale_ratio d' md i = fmul (Fin u) (scale_ratio d md i).
Proof.
  intros Hu H (F1 & F2 & F3 & F4 & F5) (G1 & G2 & G3 & G4 & G5) N. destruct (same_decisions _ _ _ H) as (Em & _ & _ & _ & _ & Ew & _ & _ & En & _). destruct H as (_ & A & B & _).
  rewrite F1, G1 in A. rewrite F2, G2 in B. destruct A as (_ & _ & A), B as (_ & _ & B).
  rewrite <- ratio_units by exact Hu. unfold scale_ratio. cbn [flux ferr wh_nosky]. assert (W : wh_nosky d' = wh_nosky d) by congruence. rewrite W.
  assert (C : forall j, In j (wh_nosky d) -> at2 (flux d') i j = at2 (times u (flux d)) i j /\ at2 (ferr d') i j = at2 (times u (ferr d)) i j).
  { intros j Hj. rewrite <- F5 in Hj. specialize (N j Hj). split; [destruct (A i j) as [X|[X _]]|destruct (B i j) as [X|[X _]]]; try (now destruct (N X)); exact X. }
  rewrite (map_ext_in (fun c => fdiv (fmul (at2 (flux d') i c) (at2 md i c)) (fsq (at2 (ferr d') i c))) (fun c => fdiv (fmul (at2 (times u (flux d)) i c) (at2 md i c)) (fsq (at2 (times u (ferr d)) i c)))) by (intros j Hj; destruct (C j Hj) as [-> ->]; reflexivity).
  rewrite (map_ext_in (fun c => fdiv (fsq (at2 md i c)) (fsq (at2 (ferr d') i c))) (fun c => fdiv (fsq (at2 md i c)) (fsq (at2 (times u (ferr d)) i c)))) by (intros j Hj; destruct (C j Hj) as [_ ->]; reflexivity).
  reflexivity.
Qed.

Lemma prepared_llike u s s' d d' m m' M : 0 < u -> same_but_unit u s s' -> fitted_data s d -> fitted_data s' d' -> (forall i j, at2 (smask d) i j = Fin (M i j)) ->
  image_in u m m' -> model_llike d' m' = fadd (model_llike d m) (Fin (- (ln u / ln 10) * in_fit M m)).
Proof.
  intros Hu H (F1 & F2 & F3 & F4 & F5) (G1 & G2 & G3 & G4 & G5) HM (R1 & R2 & I). destruct (same_decisions _ _ _ H) as (Em & _ & _ & _ & _ & Ew & _). destruct H as (_ & A & B & _).
  rewrite F1, G1 in A. rewrite F2, G2 in B. destruct A as (_ & _ & A), B as (_ & _ & B). assert (S1 : smask d' = smask d) by congruence. assert (S2 : fwt d' = fwt d) by congruence.
  rewrite <- (llike_units u d m M Hu HM). unfold model_llike. f_equal. unfold sum2. cbn [rows cols at2 flux ferr smask fwt times]. rewrite R1, R2. apply fsumn_ext. intros i Hi. apply fsumn_ext. intros j Hj.
  rewrite S1, S2, (I i j Hi Hj).
  assert (Z : masked (q_mask s) (q_qual s) (q_sky s) i j -> at2 (smask d) i j = Fin 0) by (intros (Z & _); exact (Z _ F3)).
  assert (X : forall F' E', (isfinite F' = isfinite (fmul (Fin u) (at2 (flux d) i j))) -> isfinite E' = isfinite (fmul (Fin u) (at2 (ferr d) i j)) -> feqb E' (Fin 0) = feqb (fmul (Fin u) (at2 (ferr d) i j)) (Fin 0) -> at2 (smask d) i j = Fin 0 ->
    fmul (at2 (smask d) i j) (term (at2 (fwt d) i j) F' (fmul (Fin u) (at2 m i j)) E') = fmul (at2 (smask d) i j) (term (at2 (fwt d) i j) (fmul (Fin u) (at2 (flux d) i j)) (fmul (Fin u) (at2 m i j)) (fmul (Fin u) (at2 (ferr d) i j)))).
  { intros F' E' X1 X2 X3 ->. rewrite !zero_fmul, !fin_term, X1, X2, X3. reflexivity. }
  destruct (A i j) as [a|[a1 a2]], (B i j) as [b|(b1 & b2 & b3)].
  - now rewrite a, b.
  - apply X; [now rewrite a|rewrite b3, b2; reflexivity|rewrite b3, b2; cbn; unfold Reqb; destruct Req_EM_T, Req_EM_T; (reflexivity || exfalso; nra)|now apply Z].
  - apply X; [now rewrite (s_finite u Hu)|now rewrite b|now rewrite b|now apply Z].
  - apply X; [now rewrite (s_finite u Hu)|rewrite b3, b2; reflexivity|rewrite b3, b2; cbn; unfold Reqb; destruct Req_EM_T, Req_EM_T; (reflexivity || exfalso; nra)|now apply Z].
Qed.

Lemma prepared_fit u s s' d d' md M : 0 < u -> same_but_unit u s s' -> fitted_data s d -> fitted_data s' d' -> (forall i j, at2 (smask d) i j = Fin (M i j)) ->
  (forall i, (i < rows md)%nat -> no_fill_in_row s i) ->
  both_res (fun m m' => image_in u m m' /\ model_llike d' m' = fadd (model_llike d m) (Fin (- (ln u / ln 10) * in_fit M m))) (scale_model d md) (scale_model d' md).
Proof.
  intros Hu H F G HM N. pose proof F as (F1 & F2 & F3 & F4 & F5). pose proof G as (G1 & G2 & G3 & G4 & G5). destruct (same_decisions _ _ _ H) as (_ & _ & _ & _ & _ & _ & _ & _ & En & _). pose proof H as (_ & A & B & _).
  rewrite F1, G1 in A. rewrite F2, G2 in B. destruct A as (A1 & A2 & _), B as (B1 & B2 & _). assert (W : wh_nosky d' = wh_nosky d) by congruence.
  unfold scale_model. rewrite W, A1, A2, B1, B2. destruct (negb _); [reflexivity|]. destruct (negb _); [reflexivity|]. destruct (negb _); [reflexivity|]. destruct (negb _); [reflexivity|].
  cbn [both_res]. set (m := mk2 _ _ _) at 1. set (m' := mk2 (rows md) (cols md) (fun i j => fmul (at2 md i j) (scale_ratio d' md i))).
  assert (I : image_in u m m').
  { split; [reflexivity|]. split; [reflexivity|]. intros i j Hi Hj. cbn [m m' at2]. rewrite (factor_units u s s' d d' i md Hu H F G (N i Hi)). now apply s_mul_r. }
  split; [exact I|]. exact (prepared_llike u s s' d d' m m' M Hu H F G HM I).
Qed.
Lemma scaled_shape d md m : scale_model d md = Ok m -> rows m = rows md /\ cols m = cols md.
Proof. unfold scale_model. do 4 (destruct (negb _); [discriminate|]). intros E. assert (X := Ok_inj _ _ E). subst m. split; reflexivity. Qed.

(** Fitted in either unit: same exceptions, images converted, log-likelihood differences the same. *)
Lemma prepared_difference u s s' d d' M md1 md2 : 0 < u -> same_but_unit u s s' -> fitted_data s d -> fitted_data s' d' -> (forall i j, at2 (smask d) i j = Fin (M i j)) ->
  rows md2 = rows md1 -> cols md2 = cols md1 -> (forall i, (i < rows md1)%nat -> no_fill_in_row s i) ->
  both_res (fun m1 m1' => image_in u m1 m1' /\ both_res (fun m2 m2' => image_in u m2 m2' /\
       fsub (model_llike d' m2') (model_llike d' m1') = fsub (model_llike d m2) (model_llike d m1)) (scale_model d md2) (scale_model d' md2))
    (scale_model d md1) (scale_model d' md1).
Proof.
  intros Hu H F G HM R C N.
  pose proof (prepared_fit u _ _ d d' md1 M Hu H F G HM N) as P1. assert (N2 : forall i, (i < rows md2)%nat -> no_fill_in_row s i) by (rewrite R; exact N).
  pose proof (prepared_fit u _ _ d d' md2 M Hu H F G HM N2) as P2.
  destruct (scale_model d md1) as [m1|x] eqn:S1, (scale_model d' md1) as [m1'|x'] eqn:S1'; cbn [both_res] in *; try contradiction; [|exact P1].
  destruct P1 as (I1 & L1). split; [exact I1|].
  destruct (scale_model d md2) as [m2|x] eqn:S2, (scale_model d' md2) as [m2'|x'] eqn:S2'; cbn [both_res] in *; try contradiction; [|exact P2].
  destruct P2 as (I2 & L2). split; [exact I2|]. rewrite L1, L2. destruct (scaled_shape _ _ _ S1) as [r1 c1], (scaled_shape _ _ _ S2) as [r2 c2].
  unfold in_fit. rewrite r1, r2, c1, c2, R, C. generalize (- (ln u / ln 10) * rsum2 (rows md1) (cols md1) M). intros t.
  unfold fsub. destruct (model_llike d m1), (model_llike d m2); cbn; try reflexivity. f_equal. ring.
Qed.
