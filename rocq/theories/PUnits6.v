(* Preparation in another unit: concrete cases and the effect of the filling value. *)
From Coq Require Import Reals List Bool Arith ZArith Lra Lia.
From Verif Require Import PyFloat PyBase Arr PyNum MKernels SKernels PKernels PAper2D PAper1D PData MMask SMask PMask PMask2 MTrim STrim PTrim PTrim2 MPrep SPrep PPrep PPrep2 PPrep3 PPrep4 PPrep5 PPrepEx SUnits SBright PBright PBright3 PUnits PUnits2 PUnits3 PUnits4 PUnits5.
Import ListNotations.
Local Open Scope R_scope.

(** Settings whose external answers follow the unit: the median is the first value, the fitted continuum is zero. *)
Definition ux_cfg : cfg := mkCfg (Fin 0) false (Fin 2) UpEdges false (Ok tt) (Fin 10) (Err ValueError)
  (Ok (Fin 5, Fin 15)) (Ok (Fin 8, Fin 12)) (Ok (Fin 9, Fin 11)) (fun l => match l with [] => NaN | x :: _ => x end) (fun _ _ _ _ _ => Ok (Fin 0, Fin 0)) (fun _ _ _ _ _ _ _ => Ok (Fin 0))
  (fun _ _ _ _ => Ok (mkVpos 2 (Fin 0) (Fin 5) 1 3)) (fun _ _ _ => (Fin 1, Fin 1, Fin 1)) None None (Ok (Fin 0)).
Lemma ux_answers u : answers_in_unit u ux_cfg.
Proof.
  assert (Z : Fin 0 = fmul (Fin u) (Fin 0)) by (cbn; f_equal; ring). split; [|split; [|split; [|split]]].
  - intros [|x l]; reflexivity.
  - intros v xs ys es ms. cbn [ux_cfg g_fit1 res_in fst snd]. now rewrite <- Z.
  - intros i a b xs ys es ms ys' es' _ _ _ _. cbn [ux_cfg g_fitrow res_in]. now rewrite <- Z.
  - intros f e w y. reflexivity.
  - discriminate.
Qed.
Definition ux_env (u : R) : env := let e := ex_env (Some (Fin 2)) in
  mkEnv (sp2_in u (e2 e)) (option_map (sp1_in u) (e1 e)) (e_dpa e) (e_reg e) (mkCaller (img_in u ex_flux) (img_in u (ones 4 2)) (ones 4 2) [] true false false).
Lemma ux_set_up : set_up ux_cfg (ex_env (Some (Fin 2))) [Fin 10; Fin 11] ex_flux (ones 4 2) 4 (Fin 5, Fin 15) (Fin 8, Fin 12).
Proof.
  split; [|split; [|split; [lia|split; [reflexivity|split; [|split; [|split; [|split; [|split; [|split; [|split; [|split]]]]]]]]]]].
  - repeat split; intros; discriminate.
  - intros x [<-|[<-|[]]]; eexists; (split; [reflexivity|lra]).
  - exists (Fin 2). left. reflexivity.
  - right. split; reflexivity.
  - right. split; reflexivity.
  - exists (Fin 9, Fin 11). right. split; reflexivity.
  - exists (Fin 10), (to_obs (Fin 0) (Fin 5, Fin 15)), (to_obs (Fin 0) (Fin 8, Fin 12)). split; [now left|]. split; [apply asked_rest|]. split; [apply asked_rest|].
    split; unfold inside, to_obs; cbn [fst snd fmul fadd fleb]; unfold Rleb; split; (destruct Rle_dec; [reflexivity|lra]).
  - right. do 4 eexists. repeat (split; [reflexivity|]). split; [discriminate|]. split; intros; [do 2 eexists; reflexivity|eexists; reflexivity].
  - intros a b w y0. eexists. reflexivity.
  - discriminate.
  - eexists. reflexivity.
Qed.
Lemma ux_preparable : preparable ux_cfg (ex_env (Some (Fin 2))) [Fin 10; Fin 11] ex_flux (ones 4 2) 4 (Fin 5, Fin 15) (Fin 8, Fin 12).
Proof.
  split; [apply ux_set_up|]. split; [discriminate|]. split.
  - unfold two_rows. cbn [ux_cfg g_dither g_vert]. lia.
  - exists 10, 11, (to_obs (Fin 0) (Fin 5, Fin 15)), (to_obs (Fin 0) (Fin 8, Fin 12)). split; [now left|]. split; [right; now left|].
    split; [apply asked_rest|]. split; [apply asked_rest|].
    do 4 (split; [unfold inside, to_obs; cbn [fst snd fmul fadd fleb]; unfold Rleb; split; (destruct Rle_dec; [reflexivity|lra])|]). lra.
Qed.
Lemma ux_handed u : handed_in u (ex_env (Some (Fin 2))) (ux_env u).
Proof. repeat split. Qed.
(** A 4 by 2 image with a missing row, prepared in two units: both succeed and agree. *)
Lemma ux_prep u : 0 < u -> answers_in_unit u ux_cfg /\ handed_in u (ex_env (Some (Fin 2))) (ux_env u) /\ unprepared (e2 (ex_env (Some (Fin 2)))) /\
  exists f f', fit_prep ux_cfg (ex_env (Some (Fin 2))) = (f, Ok tt) /\ fit_prep ux_cfg (ux_env u) = (f', Ok tt) /\ prepared_in u f f' /\ q_mask (e2 f') = q_mask (e2 f).
Proof.
  intros Hu. split; [apply ux_answers|]. split; [apply ux_handed|]. split; [repeat split|].
  destruct (prep_succeeds _ _ _ _ _ _ _ _ ux_preparable (ex_shared _)) as (f & E).
  pose proof (prep_units u ux_cfg _ _ Hu (ux_answers u) (ux_handed u)) as H. specialize (H ltac:(repeat split)). rewrite E in H.
  destruct (fit_prep ux_cfg (ux_env u)) as [f' [[]|x]] eqn:E'; [|destruct H].
  exists f, f'. split; [exact E|]. split; [reflexivity|]. split; [exact H|]. destruct H as (H & _). apply (same_decisions u _ _ H).
Qed.

(** A prepared row of two pixels, the second in a sky column, masked and filled. *)
Definition row2 (a b : fl) : arr2 fl := mk2 1 2 (fun _ j => match j with 0%nat => a | _ => b end).
Definition ux_data (u : R) : data2 := mkdata (row2 (Fin (u * 2)) (Fin (-99))) (row2 (Fin u) (Fin (-99))) (row2 (Fin 1) (Fin 0)) (ones 1 2) [0%nat].
Definition ux_sp (u : R) : sp2 := mkSp2 (Some [Fin 10; Fin 11]) None None (Some (flux (ux_data u))) (Some (ferr (ux_data u))) (Some (smask (ux_data u))) None None None None None None
  [1%nat] [0%nat] [] None None None None None None None None None None None NaN NaN None None None (Some (ones 1 2)) None true.
Lemma ux_fit u : 0 < u -> same_but_unit u (ux_sp 1) (ux_sp u) /\ fitted_data (ux_sp 1) (ux_data 1) /\ fitted_data (ux_sp u) (ux_data u) /\
  (forall i j, at2 (smask (ux_data 1)) i j = Fin (match j with 0%nat => 1 | _ => 0 end)) /\ (forall i, (i < rows (ones 1 2))%nat -> no_fill_in_row (ux_sp 1) i) /\
  exists m m', scale_model (ux_data 1) (ones 1 2) = Ok m /\ scale_model (ux_data u) (ones 1 2) = Ok m'.
Proof.
  intros Hu. split; [|split; [repeat split|split; [repeat split|split; [now intros i [|j]|split]]]].
  - assert (Z : forall i j, masked (Some (smask (ux_data 1))) None None i (S j)). { intros i j. split; [|split; intros m E; discriminate]. intros m E. injection E as <-. reflexivity. }
    split; [reflexivity|]. split; [|split; [|split; [exact I|split; reflexivity]]]; (split; [reflexivity|]; split; [reflexivity|]); intros i [|j]; try (right; split; [apply Z|]; auto); left; cbn; f_equal; ring.
  - intros i _ j [<-|[]] (Z & _). specialize (Z _ eq_refl). cbn in Z. injection Z as Z. lra.
  - eexists. eexists. split; reflexivity.
Qed.

Lemma row2_ext n m f a b : n = 1%nat -> m = 2%nat -> (forall i, f i 0%nat = a) -> (forall i j, f i (S j) = b) -> mk2 n m f = row2 a b.
Proof. intros -> -> H0 H1. apply mk2_ext. intros i [|j]; auto. Qed.
Lemma row2_missing a b : spec_mask_missing_2D (row2 (Fin a) NaN) (row2 (Fin b) NaN) None None true = Ok (row2 (Fin 1) (Fin 0)).
Proof.
  unfold spec_mask_missing_2D. destruct (np_max (map fabs (entries (row2 (Fin b) NaN)))) as [mx|] eqn:E; [|discriminate].
  unfold mask_where2. cbn [bind negb andb row2 rows cols at2 shape_eqb Nat.eqb]. f_equal. now apply row2_ext.
Qed.
Lemma row2_in u a : img_in u (row2 (Fin a) NaN) = row2 (Fin (u * a)) NaN.
Proof. now apply row2_ext. Qed.
Lemma row2_fill a z : a <> 0 -> spec_nan_masking (row2 (Fin a) NaN) (row2 (Fin 1) (Fin 0)) (Fin (-99)) z false = row2 (Fin a) (Fin (-99)).
Proof.
  intros Ha. assert (A : feqb (Fin a) (Fin 0) = false) by (cbn; now apply Reqb_false). unfold spec_nan_masking. destruct z; apply row2_ext; try reflexivity; intros; cbn [row2 at2 rows cols isfinite orb negb andb]; rewrite ?is00, ?is10, ?A; cbn [andb]; try reflexivity.
  destruct (feqb (Fin (-99)) (Fin 0)); reflexivity.
Qed.
Definition fill_data (u : R) : data2 := mkdata (row2 (Fin (u * 2)) (Fin (-99))) (row2 (Fin (u * 1)) (Fin (-99))) (row2 (Fin 1) (Fin 0)) (ones 1 2) [0; 1]%nat.
Lemma fill_llike u t : 0 < u ->
  let r := (2 * / u - t / 99) / (/ (u * u) + t * t / 9801) in
  exists m, scale_model (fill_data u) (row2 (Fin 1) (Fin t)) = Ok m /\
    model_llike (fill_data u) m = Fin (-1 / 2 * (((u * 2 - r) / u) * ((u * 2 - r) / u) + ln (2 * PI * (u * u)) / ln 10)).
Proof.
  intros Hu r. assert (P : 0 < 2 * PI) by (pose proof PI_RGT_0; lra). assert (Q : 0 < / (u * u)) by (apply Rinv_0_lt_compat; nra). assert (D : 0 < / (u * u) + t * t / 9801) by nra.
  assert (E : scale_ratio (fill_data u) (row2 (Fin 1) (Fin t)) 0 = Fin r).
  { unfold scale_ratio. cbn [fill_data wh_nosky flux ferr map row2 at2 fsum fold_left fold_right]. unfold fsq. cbn [fmul]. rewrite !fdiv_Fin by nra. cbn [fadd isfinite fabs].
    match goal with |- context [feqb (Fin (Rabs ?x)) (Fin 0)] => replace x with (/ (u * u) + t * t / 9801) by (field; lra) end.
    assert (F : feqb (Fin (Rabs (/ (u * u) + t * t / 9801))) (Fin 0) = false) by (cbn; apply Reqb_false; rewrite Rabs_right; lra). rewrite F, fdiv_Fin by lra. f_equal. unfold r. f_equal. field. lra. }
  remember (row2 (Fin 1) (Fin t)) as md eqn:Em. exists (mk2 1 2 (fun i j => fmul (at2 md i j) (scale_ratio (fill_data u) md i))).
  split; [subst md; reflexivity|]. unfold model_llike, sum2, fsumn. cbn [rows cols seq map at2]. rewrite !E. clear E. subst md.
  cbn [fill_data smask fwt flux ferr at2 row2 ones fin2 fsum fold_right fmul]. unfold fsub, fsq. cbn [fneg fadd fmul]. rewrite !fdiv_Fin by lra. cbn [fmul flog10 fadd].
  rewrite !(proj2 (Rltb_true _ _)) by (apply Rmult_lt_0_compat; nra). cbn [fadd fmul]. f_equal. replace (u * 1) with u by ring. field. split; [|lra].
  apply Rgt_not_eq. rewrite <- ln_1. apply ln_increasing; lra.
Qed.
(** A bad pixel outside the sky lines: its filling value weighs in the row factor, differently in every unit. *)
Lemma fill_matters : exists fx er m md1 md2, spec_mask_missing_2D fx er None None true = Ok m /\ spec_mask_missing_2D (img_in 2 fx) (img_in 2 er) None None true = Ok m /\
  let d u := mkdata (spec_nan_masking (img_in u fx) m (Fin (-99)) false false) (spec_nan_masking (img_in u er) m (Fin (-99)) true false) m (ones 1 2) [0; 1]%nat in
  exists m1 m2 m1' m2' x x', scale_model (d 1) md1 = Ok m1 /\ scale_model (d 1) md2 = Ok m2 /\ scale_model (d 2) md1 = Ok m1' /\ scale_model (d 2) md2 = Ok m2' /\
    fsub (model_llike (d 1) m2) (model_llike (d 1) m1) = Fin x /\ fsub (model_llike (d 2) m2') (model_llike (d 2) m1') = Fin x' /\ x < x'.
Proof.
  exists (row2 (Fin 2) NaN), (row2 (Fin 1) NaN), (row2 (Fin 1) (Fin 0)), (row2 (Fin 1) (Fin 1)), (row2 (Fin 1) (Fin 0)).
  split; [apply row2_missing|]. split; [rewrite !row2_in; apply row2_missing|].
  assert (D : forall u, 0 < u -> mkdata (spec_nan_masking (img_in u (row2 (Fin 2) NaN)) (row2 (Fin 1) (Fin 0)) (Fin (-99)) false false)
     (spec_nan_masking (img_in u (row2 (Fin 1) NaN)) (row2 (Fin 1) (Fin 0)) (Fin (-99)) true false) (row2 (Fin 1) (Fin 0)) (ones 1 2) [0; 1]%nat = fill_data u).
  { intros u Hu. rewrite !row2_in, !row2_fill by lra. reflexivity. }
  cbv beta zeta. rewrite !D by lra.
  destruct (fill_llike 1 1 ltac:(lra)) as (m1 & A1 & B1). destruct (fill_llike 1 0 ltac:(lra)) as (m2 & A2 & B2).
  destruct (fill_llike 2 1 ltac:(lra)) as (m1' & A1' & B1'). destruct (fill_llike 2 0 ltac:(lra)) as (m2' & A2' & B2').
  exists m1, m2, m1', m2'. do 2 eexists. do 4 (split; [eassumption|]). rewrite B1, B2, B1', B2'. split; [reflexivity|]. split; [reflexivity|].
  match goal with |- ?x < ?y => assert (Y : y - x = 1 / 2 * (206 / 9805 * (206 / 9805) - 101 / 9802 * (101 / 9802))) by (field; apply Rgt_not_eq; rewrite <- ln_1; apply ln_increasing; lra) end. lra.
Qed.
