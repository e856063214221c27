(* Proofs: which error bars the likelihood likes best, and examples. *)
From Coq Require Import Reals Lra Lia List Bool Arith ZArith FunctionalExtensionality.
From Verif Require Import PyFloat PyBase Arr PyNum MParams MKernels MAper2D MMock SParams SKernels SAper2D SMirror SBright STruth SFinite SNoise PKernels PData PAper2D PAper2DHist PAper2DTop PBright PBright3 PTruth PTruth2 PFinite4 PNoise.
Import ListNotations.
Local Open Scope R_scope.

Lemma ln_lt u : 0 < u -> u <> 1 -> ln u < u - 1.
Proof.
  intros H N. assert (ln u <> 0). { intros E. apply N. apply ln_inv; [exact H|lra|]. now rewrite ln_1. }
  pose proof (exp_ineq1 (ln u) H0). rewrite exp_ln in H1 by exact H. lra.
Qed.
Lemma ln10_pos : 0 < ln 10. Proof. pose proof ln10_gt1. lra. Qed.

Lemma rsum2_scal n p a f : rsum2 n p (fun i j => a * f i j) = a * rsum2 n p f.
Proof. unfold rsum2. rewrite <- rsumn_scal. apply rsumn_ext. intros. apply rsumn_scal. Qed.
Lemma rsum2_ext n p f g : (forall i j, f i j = g i j) -> rsum2 n p f = rsum2 n p g.
Proof. intros H. unfold rsum2. apply rsumn_ext. intros. apply rsumn_ext. intros. apply H. Qed.

Lemma findata_plain n p F (S W : nat -> nat -> R) (ok : nat -> nat -> bool) cs : (forall i j, S i j <> 0) -> plain_errors S (fun i j => if ok i j then 1 else 0) (findata n p F S W ok cs).
Proof. intros H i j. split; [reflexivity|]. split; [apply H|reflexivity]. Qed.

Lemma llike_at e n p F (S W : nat -> nat -> R) (ok : nat -> nat -> bool) cs M : 0 < e -> (forall i j, S i j <> 0) ->
  model_llike (reweighted e 1 (findata n p F S W ok cs)) (fin2 n p M) =
  Fin (- / 2 * (chi2 n p F M S W ok / (e * e) + ll_const n p S ok + 2 * (ln e / ln 10) * npix n p ok)).
Proof.
  intros He HS. rewrite (llike_noise e 1 _ _ _ _ He Rlt_0_1 (findata_plain n p F S W ok cs HS)). rewrite llike_value by auto. cbn [fmul fadd fin2 rows cols]. f_equal.
  unfold shift. rewrite (rsum2_ext n p _ (fun i j => (1 - 1 / (e * e)) * (if ok i j then ln (2 * PI * (S i j)^2) / ln 10 else 0) + 2 * (ln e / ln 10) * (if ok i j then 1 else 0))).
  - rewrite rsum2_plus, !rsum2_scal. fold (ll_const n p S ok). fold (npix n p ok). pose proof ln10_pos. field. lra.
  - intros i j. destruct (ok i j); [|ring]. replace (S i j ^ 2) with (S i j * S i j) by ring. ring.
Qed.

Lemma best_errors n p F (S W : nat -> nat -> R) (ok : nat -> nat -> bool) cs M : (forall i j, S i j <> 0) ->
  let d := findata n p F S W ok cs in let m := fin2 n p M in let X := chi2 n p F M S W ok in let N := npix n p ok in
  0 < X -> 0 < N ->
  let e0 := sqrt (X * ln 10 / N) in
  0 < e0 /\ model_chisq (reweighted e0 1 d) m = Fin (N / ln 10) /\
  exists L0, model_llike (reweighted e0 1 d) m = Fin L0 /\
    forall e, 0 < e -> e <> e0 -> exists L, model_llike (reweighted e 1 d) m = Fin L /\ L < L0.
Proof.
  intros HS d m X N HX HN e0. pose proof ln10_pos as H10.
  assert (P : 0 < X * ln 10 / N). { apply Rmult_lt_0_compat; [now apply Rmult_lt_0_compat|now apply Rinv_0_lt_compat]. }
  assert (H0 : 0 < e0) by now apply sqrt_lt_R0. assert (Q : e0 * e0 = X * ln 10 / N) by (unfold e0; rewrite sqrt_sqrt; lra).
  split; [exact H0|]. split.
  { rewrite chisq_noise by (auto; lra). unfold d, m. rewrite chisq_value by auto. fold X. cbn [fmul]. rewrite Q. f_equal. field. lra. }
  eexists. split; [apply llike_at; auto|]. intros e He Ne. eexists. split; [apply llike_at; auto|]. fold X N.
  assert (U0 : 0 < e0 * e0 / (e * e)). { apply Rmult_lt_0_compat; [nra|]. apply inv_sq_pos. exact He. }
  assert (U1 : e0 * e0 / (e * e) <> 1).
  { intros E. apply Ne. assert (e0 * e0 = e * e). { apply (f_equal (fun z => z * (e * e))) in E. unfold Rdiv in E. rewrite Rmult_assoc, Rinv_l in E by nra. lra. } nra. }
  pose proof (ln_lt _ U0 U1) as K.
  assert (V : ln (e0 * e0 / (e * e)) = 2 * ln e0 - 2 * ln e).
  { unfold Rdiv. rewrite ln_mult by (try nra; apply inv_sq_pos; exact He). rewrite ln_Rinv by nra. rewrite !ln_mult by assumption. ring. }
  rewrite V in K.
  assert (E1 : X / (e0 * e0) = N / ln 10) by (rewrite Q; field; lra).
  assert (E2 : X / (e * e) = N / ln 10 * (e0 * e0 / (e * e))) by (rewrite Q; field; nra).
  rewrite E1, E2. set (u := e0 * e0 / (e * e)) in *. set (c := N / ln 10). assert (0 < c) by (unfold c; apply Rmult_lt_0_compat; [exact HN|now apply Rinv_0_lt_compat]).
  replace (2 * (ln e0 / ln 10) * N) with (c * (2 * ln e0)) by (unfold c; field; lra). replace (2 * (ln e / ln 10) * N) with (c * (2 * ln e)) by (unfold c; field; lra).
  assert (c * (u - 1 - (2 * ln e0 - 2 * ln e)) > 0) by (apply Rmult_lt_0_compat; lra). lra.
Qed.

Lemma one_n : n_unmasked (smask (findata 1 1 (fun _ _ => 1) (fun _ _ => 1) (fun _ _ => 1) (fun _ _ => true) [0%nat])) = 1%nat.
Proof. cbn. destruct (Reqb 1 1) eqn:E; [reflexivity|]. apply Reqb_false in E. lra. Qed.
Lemma one_chi : chi2 1 1 (fun _ _ => 1) (fun _ _ => 0) (fun _ _ => 1) (fun _ _ => 1) (fun _ _ => true) = 1.
Proof. unfold chi2, rsum2. cbn. field. Qed.
Lemma unit_chi2_refuted : exists d m e x x', model_redchisq d m 0 = Fin 1 /\ 0 < e /\ e <> 1 /\ model_redchisq (reweighted e 1 d) m 0 = Fin (/ ln 10) /\
  model_llike d m = Fin x /\ model_llike (reweighted e 1 d) m = Fin x' /\ x < x'.
Proof.
  pose (d := findata 1 1 (fun _ _ => 1) (fun _ _ => 1) (fun _ _ => 1) (fun _ _ => true) [0%nat]). pose (m := fin2 1 1 (fun _ _ => 0)).
  pose proof ln10_gt1 as T.
  assert (N1 : npix 1 1 (fun _ _ => true) = 1) by (unfold npix, rsum2; cbn; ring).
  assert (HS : forall i j : nat, (fun _ _ : nat => 1) i j <> 0) by (intros; lra).
  destruct (best_errors 1 1 (fun _ _ => 1) (fun _ _ => 1) (fun _ _ => 1) (fun _ _ => true) [0%nat] (fun _ _ => 0) HS) as (H0 & C & L0 & E & B); [rewrite one_chi; lra|rewrite N1; lra|].
  rewrite one_chi, N1 in *. fold d m in C, E, B. set (e := sqrt (1 * ln 10 / 1)) in *.
  assert (Ne : 1 <> e). { intros Z. assert (e * e = 1 * ln 10 / 1) by (unfold e; rewrite sqrt_sqrt; lra). rewrite <- Z in H. lra. }
  destruct (B 1 ltac:(lra) Ne) as (L & EL & LT).
  assert (R1 : model_chisq d m = Fin 1) by (unfold d, m; rewrite chisq_value by auto; now rewrite one_chi).
  assert (ND : INR (n_unmasked (smask d)) - INR 0 = 1) by (unfold d; rewrite one_n; cbn; ring).
  exists d, m, e, L, L0. split. { unfold model_redchisq. rewrite R1, ND, fdiv_Fin by lra. f_equal. field. }
  split; [exact H0|]. split; [auto|]. split. { unfold model_redchisq. change (smask (reweighted e 1 d)) with (smask d). rewrite C, ND, fdiv_Fin by lra. f_equal. field. lra. }
  split; [|split; [exact E|exact LT]].
  rewrite <- EL. pose proof (llike_at 1 1 1 (fun _ _ => 1) (fun _ _ => 1) (fun _ _ => 1) (fun _ _ => true) [0%nat] (fun _ _ => 0) ltac:(lra) HS) as A. fold d m in A. rewrite A.
  unfold d, m. rewrite llike_value by auto. f_equal. rewrite ln_1. field. lra.
Qed.

(* examples *)
Lemma points_example : let c := mock_cfg (x_mock 50) (x_mk 50) (x_data (fun _ _ => 1)) in
  plain_errors (fun _ _ => 1) (fun _ _ => 1) (g_data (c_gal c)) /\ offsets_fixed x_kf /\ fresh x_kf /\
  exists k k1 x, history c x_kf k /\ km_llike c k [Fin 200; Fin (1/2); Fin 50] = (k1, Ok (Fin x)).
Proof.
  intros c. split; [intros i j; split; [reflexivity|]; split; [lra|reflexivity]|]. split; [exact x_fixed|]. split; [reflexivity|].
  destruct fit_example as (E1 & E2 & E3 & E4 & E5 & E6 & E7 & (k & H) & _). exists k.
  destruct (finite_fit c 3 4 (fun _ _ => 1) (fun _ _ => 1) (fun _ _ => 1) (fun _ _ => true) [0%nat; 1%nat; 2%nat; 3%nat] _ x_kf [Fin 200; Fin (1/2); Fin 50] _ k eq_refl E1 E2 E3 ltac:(intros; lra) E4 E5 eq_refl E6 E7 H) as (k2 & L & E). now exists k2, L.
Qed.
Lemma errors_example : 0 < chi2 1 1 (fun _ _ => 1) (fun _ _ => 0) (fun _ _ => 1) (fun _ _ => 1) (fun _ _ => true) /\ 0 < npix 1 1 (fun _ _ => true).
Proof. split; [rewrite one_chi; lra|unfold npix, rsum2; cbn; lra]. Qed.
Lemma chisq_example : let d := findata 1 1 (fun _ _ => 1) (fun _ _ => 1) (fun _ _ => 1) (fun _ _ => true) [0%nat] in
  model_chisq (reweighted 2 3 d) (fin2 1 1 (fun _ _ => 0)) = Fin (3/4).
Proof.
  intros d. destruct (noise_chisq 2 3 d (fin2 1 1 (fun _ _ => 0)) 0 ltac:(lra) ltac:(lra)) as (E & _). rewrite E. unfold d. rewrite chisq_value by (intros; lra). rewrite one_chi. cbn [fmul]. f_equal. field.
Qed.
