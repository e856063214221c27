(* Proofs about line profiles, instrument broadening and reduced chi-squared. *)
From Coq Require Import Reals List Bool Arith Lia Lra Psatz.
From Verif Require Import PyFloat PyBase Arr PyNum MKernels SKernels PKernels PKernels2 PData SAper2D PMask SLine.
Import ListNotations.
Local Open Scope R_scope.

(* ---------------- the Gaussian ---------------- *)
Lemma root_pos : 0 < sqrt (2 * PI).
Proof. apply sqrt_lt_R0. pose proof PI_RGT_0. lra. Qed.

Lemma normal_sym mu s d : normal mu s (mu + d) = normal mu s (mu - d).
Proof. unfold normal. replace ((mu + d - mu) ^ 2) with ((mu - d - mu) ^ 2) by ring. reflexivity. Qed.

Lemma normal_neg mu s x : normal mu (- s) x = - normal mu s x.
Proof.
  unfold normal. replace ((- s) ^ 2) with (s ^ 2) by ring. pose proof root_pos.
  destruct (Req_dec s 0) as [->|N]; [rewrite Ropp_0; unfold Rdiv; rewrite Rmult_0_l, Rinv_0; ring|]. field. split; lra.
Qed.

Lemma normal_half mu s h : 0 < s -> (normal mu s (mu + h) = normal mu s mu / 2 <-> Rabs h = sqrt (2 * ln 2) * s).
Proof.
  intros Hs. pose proof root_pos as Hr. unfold normal. replace (mu + h - mu) with h by ring. replace (mu - mu) with 0 by ring.
  replace (- 0 ^ 2 / (2 * s ^ 2)) with 0 by (field; lra). rewrite exp_0.
  assert (L2 : 0 < ln 2) by (rewrite <- ln_1; apply ln_increasing; lra).
  assert (Q : exp (- h ^ 2 / (2 * s ^ 2)) / (s * sqrt (2 * PI)) = 1 / (s * sqrt (2 * PI)) / 2 <-> exp (- h ^ 2 / (2 * s ^ 2)) = / 2).
  { split; intros E.
    - apply (Rmult_eq_reg_r (/ (s * sqrt (2 * PI)))); [|apply Rinv_neq_0_compat; nra]. fold (exp (- h ^ 2 / (2 * s ^ 2)) / (s * sqrt (2 * PI))). rewrite E. field. split; lra.
    - rewrite E. field. split; lra. }
  rewrite Q. clear Q.
  assert (Q : exp (- h ^ 2 / (2 * s ^ 2)) = / 2 <-> h ^ 2 = 2 * ln 2 * s ^ 2).
  { replace (/ 2) with (exp (- ln 2)) by (rewrite exp_Ropp, exp_ln by lra; reflexivity). split; intros E.
    - apply exp_inv in E. apply (Rmult_eq_compat_r (2 * s ^ 2)) in E.
      replace (- h ^ 2 / (2 * s ^ 2) * (2 * s ^ 2)) with (- h ^ 2) in E by (field; lra). lra.
    - f_equal. replace (- h ^ 2) with (- (h ^ 2)) by ring. rewrite E. field. lra. }
  rewrite Q. clear Q. assert (Sp : 0 <= sqrt (2 * ln 2) * s) by (apply Rmult_le_pos; [apply sqrt_pos|lra]).
  assert (Sq : (sqrt (2 * ln 2) * s) ^ 2 = 2 * ln 2 * s ^ 2) by (rewrite Rpow_mult_distr, pow2_sqrt by lra; reflexivity).
  rewrite <- Sq. split; intros E.
  - apply Rsqr_inj; [apply Rabs_pos|exact Sp|]. rewrite <- Rsqr_abs. unfold Rsqr. lra.
  - rewrite <- E. symmetry. apply pow2_abs.
Qed.

Lemma normal_peak mu s x : 0 < s -> 0 < normal mu s x <= normal mu s mu.
Proof.
  intros Hs. pose proof root_pos as Hr. unfold normal. assert (P : 0 < / (s * sqrt (2 * PI))) by (apply Rinv_0_lt_compat; nra). split.
  - apply Rmult_lt_0_compat; [apply exp_pos|exact P].
  - apply Rmult_le_compat_r; [lra|]. replace (- (mu - mu) ^ 2 / (2 * s ^ 2)) with 0 by (field; lra).
    assert (X : - (x - mu) ^ 2 / (2 * s ^ 2) <= 0).
    { unfold Rdiv. rewrite Ropp_mult_distr_l_reverse. apply Ropp_le_cancel. rewrite Ropp_0, Ropp_involutive. 
      apply Rmult_le_pos; [apply pow2_ge_0|]. left. apply Rinv_0_lt_compat. nra. }
    destruct X as [X|X]; [left; now apply exp_increasing|right; now rewrite X].
Qed.

(* ---------------- the Gaussian branch ---------------- *)
Lemma gauss_term I c s x : s <> 0 ->
  fmul (Fin I) (fmul (fdiv (Fin 1) (fmul (Fin s) (Fin (sqrt (2 * PI)))))
    (fexp (fdiv (fneg (fsq (fsub (Fin c) (Fin x)))) (fmul (Fin 2) (fsq (Fin s)))))) = Fin (I * normal c s x).
Proof.
  intros Hs. pose proof root_pos as Hr. unfold fsub, fsq. cbn [fneg fadd fmul].
  rewrite !fdiv_Fin; [|nra|intros E; apply Rmult_integral in E; destruct E as [E|E]; lra].
  cbn [fexp fmul]. f_equal. unfold normal.
  replace (- ((c + - x) * (c + - x)) / (2 * (s * s))) with (- (x - c) ^ 2 / (2 * s ^ 2)) by (field; lra). field. split; lra.
Qed.

Lemma gauss_line_value I4 wref V sigma nW nZ nY nX dz centre width w j k Ir cr sr x :
  (forall m, (m < nZ)%nat -> at4 I4 w m j k = Fin (Ir m)) -> (forall m, (m < nZ)%nat -> at4 wref w m j k = Fin x) ->
  (forall m, (m < nZ)%nat -> centre (at3 V m j k) = Fin (cr m)) -> 
  (forall m, (m < nZ)%nat -> width (at3 sigma m j k) = Fin (sr m) /\ sr m <> 0) ->
  at3 (gauss_line I4 wref V sigma nW nZ nY nX (Fin dz) centre width) w j k = Fin (rsumn nZ (fun m => Ir m * normal (cr m) (sr m) x) * dz).
Proof.
  intros H1 H2 H3 H4. unfold gauss_line. cbn [at3].
  rewrite (fsumn_Fin nZ _ (fun m => Ir m * normal (cr m) (sr m) x)); [reflexivity|].
  intros m Hm. destruct (H4 m Hm) as [E N]. rewrite (H1 m Hm), (H2 m Hm), (H3 m Hm), E. now apply gauss_term.
Qed.

Lemma in_flat3 {A} (a : arr3 A) x : In x (flat_list3 a) <-> 
  exists i j k, (i < dim0 a)%nat /\ (j < dim1 a)%nat /\ (k < dim2 a)%nat /\ x = at3 a i j k.
Proof.
  unfold flat_list3. rewrite in_flat_map. split.
  - intros (i & Hi & H). apply in_seq in Hi. rewrite in_flat_map in H. destruct H as (j & Hj & H). apply in_seq in Hj.
    apply in_map_iff in H. destruct H as (k & <- & Hk). apply in_seq in Hk. exists i, j, k. repeat split; lia.
  - intros (i & j & k & Hi & Hj & Hk & ->). exists i. split; [apply in_seq; lia|]. apply in_flat_map. exists j.
    split; [apply in_seq; lia|]. apply in_map_iff. exists k. split; [reflexivity|apply in_seq; lia].
Qed.

Lemma some_dispersion nZ nY nX s : (exists m j k, (m < nZ)%nat /\ (j < nY)%nat /\ (k < nX)%nat /\ s m j k <> 0) ->
  exists mx, np_max (map fabs (flat_list3 (fin3 nZ nY nX s))) = Ok mx /\ fgtb mx (Fin 0) = true.
Proof.
  intros (m & j & k & Hm & Hj & Hk & N).
  assert (I : In (Fin (s m j k)) (flat_list3 (fin3 nZ nY nX s))) by (apply in_flat3; exists m, j, k; repeat split; auto).
  destruct (np_max (map fabs (flat_list3 (fin3 nZ nY nX s)))) as [mx|] eqn:E.
  - exists mx. split; auto. apply (max_abs_pos _ _ E). split.
    + rewrite in_flat3. intros (i' & j' & k' & _ & _ & _ & Q). discriminate.
    + exists (Fin (s m j k)). split; auto. intros Q. injection Q as Q. contradiction.
  - destruct (flat_list3 (fin3 nZ nY nX s)); [destruct I|discriminate].
Qed.

Lemma Ok_inj {A} (a b : A) : Ok a = Ok b -> a = b.
Proof. now injection 1. Qed.
Lemma at3_mk {A} a b c (f : nat -> nat -> nat -> A) i j k : at3 (mk3 a b c f) i j k = f i j k.
Proof. reflexivity. Qed.
Lemma lnth_map (l : list R) i : (i < length l)%nat -> lnth (map Fin l) i = Fin (nth i l 0).
Proof. intros H. unfold lnth. rewrite nth_indep with (d' := Fin 0) by now rewrite map_length. now rewrite (map_nth Fin). Qed.

Lemma cube_value I V s (x rest ratio : list R) z nZ nY nX dz sp cube :
  let nW := length x in
  (forall m j k, (m < nZ)%nat -> (j < nY)%nat -> (k < nX)%nat -> s m j k <> 0) ->
  (0 < nZ)%nat -> (0 < nY)%nat -> (0 < nX)%nat -> (1 + z) <> 0 -> (forall l, In l rest -> l <> 0) ->
  add_sigma_collapse_z (fin3 nZ nY nX I) (fin3 nZ nY nX V) (fin3 nZ nY nX s) (map Fin x) (Fin z) (map Fin rest) (map Fin ratio)
    nW nZ nY nX (Fin dz) (tiled_I nW nZ nY nX I) (tiled_w nW nZ nY nX (fun w => nth w x 0)) sp = Ok cube ->
  dim0 cube = nW /\ dim1 cube = nY /\ dim2 cube = nX /\
  forall w j k, (w < nW)%nat -> (j < nY)%nat -> (k < nX)%nat ->
    at3 cube w j k = Fin (
      match sp with
      | Wave => rsumn (length rest) (fun i => nth i ratio 0 * (dz * rsumn nZ (fun m =>
          I m j k * normal (nth i rest 0 * (1 + z) * (1 + V m j k / c_kms)) (s m j k / c_kms * (nth i rest 0 * (1 + z))) (nth w x 0))))
      | Velocity => dz * rsumn nZ (fun m => I m j k * normal (V m j k) (s m j k) (nth w x 0))
      | OtherSpec => 0
      end).
Proof.
  intros nW Hs HZ HY HX Hz Hr E. pose proof c_kms_pos as Hc.
  destruct (some_dispersion nZ nY nX s) as (mx & Em & Ep); [exists 0%nat, 0%nat, 0%nat; auto|].
  unfold add_sigma_collapse_z in E. rewrite Em in E. cbn [bind] in E. rewrite Ep in E.
  assert (Sh : shape4_eqb (tiled_I nW nZ nY nX I) nW nZ nY nX && shape4_eqb (tiled_w nW nZ nY nX (fun w => nth w x 0)) nW nZ nY nX = true).
  { unfold shape4_eqb. cbn. now rewrite !Nat.eqb_refl. }
  rewrite Sh in E. cbn [negb andb] in E. destruct sp.
  - rewrite !map_length in E. destruct (Nat.eqb_spec (length rest) 0) as [L|L].
    { apply Ok_inj in E; subst cube. repeat split; auto. intros w j k _ _ _. cbn [at3]. rewrite L. reflexivity. }
    destruct (Nat.ltb_spec (length ratio) (length rest)) as [|Lr]; [discriminate|]. apply Ok_inj in E; subst cube. repeat split; auto.
    intros w j k Hw Hj Hk. rewrite at3_mk. apply fsumn_Fin. intros i Hi. rewrite !lnth_map by lia.
    change (fmul (Fin (nth i rest 0)) (fadd (Fin 1) (Fin z))) with (Fin (nth i rest 0 * (1 + z))).
    assert (Ri : nth i rest 0 <> 0) by (apply Hr, nth_In; lia).
    erewrite (gauss_line_value _ _ _ _ _ _ _ _ _ _ _ w j k (fun m => I m j k)
      (fun m => nth i rest 0 * (1 + z) * (1 + V m j k / c_kms)) (fun m => s m j k / c_kms * (nth i rest 0 * (1 + z))) (nth w x 0)).
    + unfold fmul. f_equal. ring.
    + reflexivity.
    + reflexivity.
    + intros m Hm. cbn [fin3 at3]. rewrite fdiv_Fin by lra. reflexivity.
    + intros m Hm. cbn [fin3 at3]. rewrite fdiv_Fin by lra. split; [reflexivity|].
      specialize (Hs m j k Hm Hj Hk). apply Rmult_integral_contrapositive_currified.
      * apply Rmult_integral_contrapositive_currified; auto. apply Rinv_neq_0_compat. lra.
      * now apply Rmult_integral_contrapositive_currified.
  - apply Ok_inj in E; subst cube. repeat split; auto. intros w j k Hw Hj Hk.
    erewrite (gauss_line_value _ _ _ _ _ _ _ _ _ _ _ w j k (fun m => I m j k) (fun m => V m j k) (fun m => s m j k) (nth w x 0));
      try reflexivity; [f_equal; ring|]. intros m Hm. split; [reflexivity|now apply Hs].
  - apply Ok_inj in E; subst cube. repeat split; auto.
Qed.

Lemma cube_succeeds I V s (x rest ratio : list R) z nZ nY nX dz sp :
  let nW := length x in
  (forall m j k, (m < nZ)%nat -> (j < nY)%nat -> (k < nX)%nat -> s m j k <> 0) ->
  (0 < nZ)%nat -> (0 < nY)%nat -> (0 < nX)%nat -> (length rest <= length ratio)%nat ->
  exists cube, add_sigma_collapse_z (fin3 nZ nY nX I) (fin3 nZ nY nX V) (fin3 nZ nY nX s) (map Fin x) (Fin z) (map Fin rest) (map Fin ratio)
    nW nZ nY nX (Fin dz) (tiled_I nW nZ nY nX I) (tiled_w nW nZ nY nX (fun w => nth w x 0)) sp = Ok cube.
Proof.
  intros nW Hs HZ HY HX L.
  destruct (some_dispersion nZ nY nX s) as (mx & Em & Ep); [exists 0%nat, 0%nat, 0%nat; auto|].
  unfold add_sigma_collapse_z. rewrite Em. cbn [bind]. rewrite Ep.
  assert (Sh : shape4_eqb (tiled_I nW nZ nY nX I) nW nZ nY nX && shape4_eqb (tiled_w nW nZ nY nX (fun w => nth w x 0)) nW nZ nY nX = true).
  { unfold shape4_eqb. cbn. now rewrite !Nat.eqb_refl. }
  rewrite Sh. cbn [negb andb]. destruct sp; eauto. rewrite !map_length. destruct (Nat.eqb (length rest) 0); eauto.
  destruct (Nat.ltb_spec (length ratio) (length rest)); [lia|]. eauto.
Qed.

(** Negating every dispersion negates the cube. *)
Lemma cube_sign I V s (x rest ratio : list R) z nZ nY nX dz sp cube cube' :
  let nW := length x in
  (forall m j k, (m < nZ)%nat -> (j < nY)%nat -> (k < nX)%nat -> s m j k <> 0) ->
  (0 < nZ)%nat -> (0 < nY)%nat -> (0 < nX)%nat -> (1 + z) <> 0 -> (forall l, In l rest -> l <> 0) ->
  let run s := add_sigma_collapse_z (fin3 nZ nY nX I) (fin3 nZ nY nX V) (fin3 nZ nY nX s) (map Fin x) (Fin z) (map Fin rest) (map Fin ratio)
    nW nZ nY nX (Fin dz) (tiled_I nW nZ nY nX I) (tiled_w nW nZ nY nX (fun w => nth w x 0)) sp in
  run s = Ok cube -> run (fun m j k => - s m j k) = Ok cube' ->
  forall w j k, (w < nW)%nat -> (j < nY)%nat -> (k < nX)%nat -> exists r, at3 cube w j k = Fin r /\ at3 cube' w j k = Fin (- r).
Proof.
  intros nW Hs HZ HY HX Hz Hr run E1 E2 w j k Hw Hj Hk.
  destruct (cube_value I V s x rest ratio z nZ nY nX dz sp cube Hs HZ HY HX Hz Hr E1) as (_ & _ & _ & V1).
  destruct (cube_value I V (fun m j k => - s m j k) x rest ratio z nZ nY nX dz sp cube') as (_ & _ & _ & V2); auto.
  { intros m' j' k' A1 A2 A3 Q. apply (Hs m' j' k' A1 A2 A3). lra. }
  eexists. split; [apply V1; auto|]. rewrite V2 by auto. f_equal. destruct sp; [| |ring].
  - replace (- rsumn (length rest) _) with (-1 * rsumn (length rest) (fun i => nth i ratio 0 * (dz * rsumn nZ (fun m =>
          I m j k * normal (nth i rest 0 * (1 + z) * (1 + V m j k / c_kms)) (s m j k / c_kms * (nth i rest 0 * (1 + z))) (nth w x 0))))) by ring.
    rewrite <- rsumn_scal. apply rsumn_ext. intros i Hi.
    replace (-1 * (nth i ratio 0 * (dz * rsumn nZ (fun m => I m j k * normal (nth i rest 0 * (1 + z) * (1 + V m j k / c_kms)) (s m j k / c_kms * (nth i rest 0 * (1 + z))) (nth w x 0)))))
      with (nth i ratio 0 * (dz * (-1 * rsumn nZ (fun m => I m j k * normal (nth i rest 0 * (1 + z) * (1 + V m j k / c_kms)) (s m j k / c_kms * (nth i rest 0 * (1 + z))) (nth w x 0))))) by ring.
    do 2 f_equal. rewrite <- rsumn_scal. apply rsumn_ext. intros m Hm.
    replace (- s m j k / c_kms * (nth i rest 0 * (1 + z))) with (- (s m j k / c_kms * (nth i rest 0 * (1 + z)))) by (pose proof c_kms_pos; field; lra).
    rewrite normal_neg. ring.
  - replace (- (dz * rsumn nZ (fun m => I m j k * normal (V m j k) (s m j k) (nth w x 0)))) 
      with (dz * (-1 * rsumn nZ (fun m => I m j k * normal (V m j k) (s m j k) (nth w x 0)))) by ring.
    f_equal. rewrite <- rsumn_scal. apply rsumn_ext. intros m Hm. rewrite normal_neg. ring.
Qed.

(** A voxel without dispersion beside others with some. *)
Lemma zero_voxel I V s (x rest ratio : list R) z nZ nY nX dz cube m0 j k :
  let nW := length x in
  (exists m j k, (m < nZ)%nat /\ (j < nY)%nat /\ (k < nX)%nat /\ s m j k <> 0) ->
  (m0 < nZ)%nat -> (j < nY)%nat -> (k < nX)%nat -> s m0 j k = 0 -> rest <> [] ->
  add_sigma_collapse_z (fin3 nZ nY nX I) (fin3 nZ nY nX V) (fin3 nZ nY nX s) (map Fin x) (Fin z) (map Fin rest) (map Fin ratio)
    nW nZ nY nX (Fin dz) (tiled_I nW nZ nY nX I) (tiled_w nW nZ nY nX (fun w => nth w x 0)) Wave = Ok cube ->
  forall w, (w < nW)%nat -> at3 cube w j k = NaN.
Proof.
  intros nW Hs Hm Hj Hk Hz Hr E w Hw. pose proof c_kms_pos as Hc.
  destruct (some_dispersion nZ nY nX s Hs) as (mx & Em & Ep).
  unfold add_sigma_collapse_z in E. rewrite Em in E. cbn [bind] in E. rewrite Ep in E. rewrite !map_length in E.
  destruct (Nat.eqb_spec (length rest) 0) as [L|L]; [destruct rest; [now elim Hr|discriminate]|].
  destruct (true && _); [discriminate|]. destruct (Nat.ltb_spec (length ratio) (length rest)) as [|Lr]; [discriminate|]. apply Ok_inj in E; subst cube.
  rewrite at3_mk.
  assert (Nan : forall n f i, (i < n)%nat -> f i = NaN -> fsumn n f = NaN).
  { clear. induction n as [|n IH]; intros f i Hi Hf; [lia|]. rewrite fsumn_S. destruct (Nat.eq_dec i n) as [->|].
    - rewrite Hf. destruct (fsumn n f); reflexivity.
    - rewrite (IH f i) by (auto; lia). reflexivity. }
  apply (Nan _ _ 0%nat); [lia|]. cbv beta iota zeta. unfold gauss_line. rewrite at3_mk.
  rewrite (Nan nZ _ m0 Hm); [reflexivity|]. cbn [fin3 at3 at4 tiled_I tiled_w]. rewrite Hz.
  rewrite (fdiv_Fin 0) by lra. unfold Rdiv. rewrite Rmult_0_l. rewrite !lnth_map by lia. cbn [fadd fmul]. rewrite !Rmult_0_l.
  unfold fdiv at 1. rewrite (proj2 (Reqb_true 0 0) eq_refl), (proj2 (Reqb_false 1 0)) by lra.
  rewrite (proj2 (Rltb_true 0 1)) by lra. rewrite (fdiv_Fin (V m0 j k)) by lra. unfold fsub, fsq. cbn [fadd fmul fneg]. rewrite Rmult_0_r, Rmult_0_r.
  set (d := nth 0 rest 0 * (1 + z) * (1 + V m0 j k / c_kms) + - nth w x 0). unfold fdiv. rewrite (proj2 (Reqb_true 0 0) eq_refl).
  destruct (Reqb (- (d * d)) 0); [reflexivity|]. destruct (Rltb 0 (- (d * d))) eqn:Q.
  - apply Rltb_true in Q. pose proof (Rle_0_sqr d) as S. unfold Rsqr in S. lra.
  - cbn [fexp fmul]. unfold inf_scale. rewrite (proj2 (Reqb_true 0 0) eq_refl). reflexivity.
Qed.

(* ---------------- reduced chi-squared ---------------- *)
Lemma n_unmasked_good n p ok : n_unmasked (fin2 n p (fun i j => if ok i j : bool then 1 else 0)) = n_good n p ok.
Proof.
  unfold n_unmasked, n_good. cbn [fin2 rows cols at2]. f_equal. apply filter_ext. intros [i j]. cbn [fst snd].
  unfold feqb. destruct (ok i j); [apply Reqb_true|apply Reqb_false]; lra.
Qed.

Lemma redchisq_value n p F S W ok cs M k :
  (forall i j, (i < n)%nat -> (j < p)%nat -> S i j <> 0) -> n_good n p ok <> k ->
  let d := findata n p F S W ok cs in
  let dof := INR (n_good n p ok) - INR k in
  model_redchisq d (fin2 n p M) k = Fin (chi2 n p F M S W ok / dof) /\
  model_redchisq_no_weight d (fin2 n p M) k = Fin (chi2 n p F M S (fun _ _ => 1) ok / dof) /\
  model_redchisq_weight_ref d k = Fin (rsum2 n p W / dof).
Proof.
  intros HS N d dof. assert (D : dof <> 0) by (unfold dof; intros Q; apply N, INR_eq; lra).
  assert (U : n_unmasked (smask d) = n_good n p ok) by apply n_unmasked_good. split; [|split].
  - unfold model_redchisq. rewrite U. unfold d. rewrite chisq_value by auto. now apply fdiv_Fin.
  - unfold model_redchisq_no_weight. rewrite U.
    replace (model_chisq_no_weight d (fin2 n p M)) with (Fin (chi2 n p F M S (fun _ _ => 1) ok)); [now apply fdiv_Fin|].
    symmetry. unfold model_chisq_no_weight, chi2. erewrite sum2_Fin; [reflexivity|].
    intros i j Hi Hj. cbn [at2 d findata flux ferr smask fwt fin2 fsub fneg fadd fmul].
    rewrite fdiv_Fin by auto. cbn [fsq fmul]. unfold fsq. cbn [fmul]. f_equal. destruct (ok i j); field; auto.
  - unfold model_redchisq_weight_ref. rewrite U. cbn [d findata fwt]. erewrite (sum2_Fin (fin2 n p W)); [now apply fdiv_Fin|].
    reflexivity.
Qed.

Lemma redchisq_exhausted n p F S W ok cs M k :
  (forall i j, (i < n)%nat -> (j < p)%nat -> S i j <> 0) -> n_good n p ok = k ->
  isfinite (model_redchisq (findata n p F S W ok cs) (fin2 n p M) k) = false.
Proof.
  intros HS N. unfold model_redchisq. rewrite (n_unmasked_good n p ok : n_unmasked (smask (findata n p F S W ok cs)) = _).
  rewrite chisq_value, N by auto. replace (INR k - INR k) with 0 by ring. unfold fdiv. rewrite (proj2 (Reqb_true 0 0) eq_refl).
  destruct (Reqb _ 0); [reflexivity|]. destruct (Rltb _ _); reflexivity.
Qed.

Lemma gaussian_shape mu s x h : 0 < s ->
  (0 < normal mu s x <= normal mu s mu) /\ normal mu s (mu + h) = normal mu s (mu - h) /\
  (normal mu s (mu + h) = normal mu s mu / 2 <-> Rabs h = sqrt (2 * ln 2) * s).
Proof. intros Hs. split; [now apply normal_peak|]. split; [apply normal_sym|now apply normal_half]. Qed.
