(* Proofs: the kernel of the instrument broadening; examples for line profiles. *)
From Coq Require Import Reals List Bool Arith Lia Lra Psatz.
From Verif Require Import PyFloat PyBase Arr PyNum MKernels SKernels PKernels PKernels2 PData SAper2D PAper2DGrid PMask SLine PLine.
Import ListNotations.
Local Open Scope R_scope.

Lemma uniform_length w0 d N : length (uniform w0 d N) = N.
Proof. unfold uniform. now rewrite map_length, seq_length. Qed.
Lemma uniform_nth w0 d N i : (i < N)%nat -> lnth (uniform w0 d N) i = Fin (w0 + INR i * d).
Proof.
  intros H. unfold lnth, uniform. rewrite nth_indep with (d' := Fin (w0 + INR 0 * d)) by now rewrite map_length, seq_length.
  rewrite (map_nth (fun i => Fin (w0 + INR i * d))), seq_nth by auto. reflexivity.
Qed.

(** The samples the kernel is made of. *)
Lemma uniform_odd w0 d N : (0 < N)%nat ->
  (if Nat.even (length (uniform w0 d N)) then droplast (uniform w0 d N) else uniform w0 d N) = uniform w0 d (2 * ((N - 1) / 2) + 1).
Proof.
  intros HN. rewrite uniform_length. destruct (Nat.even N) eqn:E.
  - apply Nat.even_spec in E. destruct E as [q ->]. unfold droplast. rewrite uniform_length. unfold uniform. rewrite firstn_map. f_equal.
    replace (2 * ((2 * q - 1) / 2) + 1)%nat with (2 * q - 1)%nat.
    + replace (2 * q)%nat with ((2 * q - 1) + 1)%nat at 2 by lia. rewrite seq_app, firstn_app, seq_length, Nat.sub_diag, firstn_all2 by (rewrite seq_length; lia).
      apply app_nil_r.
    + assert ((2 * q - 1) / 2 = q - 1)%nat; [|lia]. symmetry. apply Nat.div_unique with (r := 1%nat); lia.
  - assert (O : Nat.odd N = true) by (unfold Nat.odd; now rewrite E). apply Nat.odd_spec in O. destruct O as [q ->].
    replace ((2 * q + 1 - 1) / 2)%nat with q; [reflexivity|]. apply Nat.div_unique with (r := 0%nat); lia.
Qed.

Lemma inst_kernel m w0 d N s :
  s <> 0 -> (0 < N)%nat -> size2 m <> 0%nat -> nonneg2 m ->
  (exists i j, (i < rows m)%nat /\ (j < cols m)%nat /\ exists r, at2 m i j = Fin r /\ 0 < r) ->
  exists K out, inst_convol_complete m (uniform w0 d N) (IdwFloat (Fin s)) = Ok out /\ 0 < K /\
    rows out = rows m /\ cols out = cols m /\
    forall i j, (i < rows m)%nat -> (j < cols m)%nat ->
      at2 out i j = Fin (K * rsumn (rows m) (fun p => if in_reach ((N - 1) / 2) i p then val2 m p j * normal (INR i * d) (Rabs s) (INR p * d) else 0)).
Proof.
  intros Hs HN Hz Hm (i0 & j0 & Hi0 & Hj0 & r0 & E0 & P0). set (h := ((N - 1) / 2)%nat).
  unfold inst_convol_complete. rewrite uniform_odd by auto. fold h. set (M := (2 * h + 1)%nat).
  rewrite (average_ap _ M w0 d) by (try apply uniform_length; try (unfold M; lia); intros; now apply uniform_nth).
  set (lc := w0 + (INR M - 1) / 2 * d). assert (Lc : lc = w0 + INR h * d).
  { unfold lc, M. rewrite plus_INR, mult_INR. cbn [INR]. lra. }
  unfold convol_instconstfwhm. rewrite uniform_length.
  set (g := map _ (uniform w0 d M)).
  pose proof fwhm_factor_pos as Fp.
  assert (Eg : forall q, (q < M)%nat -> lnth g q = Fin (exp (- ((INR q - INR h) * d) ^ 2 / (2 * s ^ 2)))).
  { intros q Hq. unfold g, lnth. rewrite nth_indep with (d' := (fun x => if isfinite (gaus_from_fwhm x (fmul (Fin s) (Fin fwhm_factor)) (Fin lc))
        then gaus_from_fwhm x (fmul (Fin s) (Fin fwhm_factor)) (Fin lc) else Fin 0) NaN) by (rewrite map_length, uniform_length; auto).
    rewrite (map_nth (fun x => if isfinite (gaus_from_fwhm x (fmul (Fin s) (Fin fwhm_factor)) (Fin lc))
        then gaus_from_fwhm x (fmul (Fin s) (Fin fwhm_factor)) (Fin lc) else Fin 0)).
    fold (lnth (uniform w0 d M) q). rewrite uniform_nth by auto. cbn [fmul].
    rewrite gaus_from_fwhm_Fin by (apply Rmult_integral_contrapositive_currified; lra). cbn [isfinite].
    do 2 f_equal. rewrite Lc. field. split; lra. }
  set (ker := mk2 M 1 (fun i _ => lnth g i)).
  assert (Kn : nonneg2 ker).
  { intros i j Hi Hj. cbn [ker rows cols at2] in *. rewrite Eg by auto. eexists. split; [reflexivity|]. left. apply exp_pos. }
  assert (Fm : finite2 m) by now apply nonneg2_finite. assert (Fk : finite2 ker) by now apply nonneg2_finite.
  assert (Tm : 0 < total2 m).
  { unfold total2, rsum2. apply rsumn_pos.
    - intros i Hi. apply rsumn_nonneg. intros j Hj. now apply nonneg2_val.
    - exists i0. split; auto. apply rsumn_pos; [intros; now apply nonneg2_val|].
      exists j0. split; auto. unfold val2. now rewrite E0. }
  assert (Tc : 0 < total2 (conv2 m ker)).
  { apply conv2_positive; auto; try (cbn [ker rows cols]; unfold M; lia). cbn [ker rows cols]. unfold val2. cbn [ker at2].
    rewrite Eg; [apply exp_pos|]. apply Nat.div_lt_upper_bound; lia. }
  apply Nat.eqb_neq in Hz. rewrite Hz. assert (Hk : size2 ker <> 0%nat) by (unfold size2; cbn [ker rows cols]; unfold M; lia).
  apply Nat.eqb_neq in Hk. rewrite Hk. cbn [orb].
  exists (total2 m / total2 (conv2 m ker) * (Rabs s * sqrt (2 * PI))), (map2 (fun x => fmul x (fdiv (sum2 m) (sum2 (conv2 m ker)))) (conv2 m ker)).
  split; [reflexivity|]. pose proof root_pos as Rp. assert (As : 0 < Rabs s) by now apply Rabs_pos_lt.
  split. { apply Rmult_lt_0_compat; [|nra]. apply Rmult_lt_0_compat; auto. now apply Rinv_0_lt_compat. }
  destruct (conv2_dims m ker) as [R C]. split; [cbn [map2 rows]; exact R|]. split; [cbn [map2 cols]; exact C|].
  intros i j Hi Hj. unfold map2. cbn [at2]. rewrite conv2_Fin by auto. rewrite sum2_total by auto.
  rewrite (sum2_total (conv2 m ker)) by (apply conv2_finite; auto). rewrite fdiv_Fin by lra. cbn [fmul]. f_equal.
  unfold rconv2, rsum2.
  rewrite (rsumn_ext (rows m) _ (fun p => (Rabs s * sqrt (2 * PI)) * (if in_reach h i p then val2 m p j * normal (INR i * d) (Rabs s) (INR p * d) else 0))).
  { rewrite rsumn_scal. ring. }
  intros p Hp.
  assert (Q : forall q, (q < cols m)%nat -> val2 m p q * ker2 ker i j p q = if Nat.eqb q j then val2 m p j * ker2 ker i j p j else 0).
  { intros q Hq. destruct (Nat.eqb_spec q j) as [->|Nq]; auto. unfold ker2. cbn [ker rows cols].
    unfold same_idx at 2. cbn [Nat.sub Nat.div fst Nat.divmod]. rewrite Nat.add_0_r.
    destruct (Nat.leb_spec q j) as [|]; cbn [andb]; [destruct (Nat.ltb_spec (j - q) 1); [lia|]|]; destruct (same_idx M i p); ring. }
  rewrite (rsumn_ext _ _ _ Q). rewrite rsumn_single by auto.
  assert (Jj : same_idx 1 j j = Some 0%nat) by (rewrite same_idx_diag by lia; reflexivity).
  unfold ker2. cbn [ker rows cols]. rewrite Jj. unfold same_idx. replace ((M - 1) / 2)%nat with h by (unfold M; apply Nat.div_unique with (r := 0%nat); lia).
  unfold in_reach. destruct (Nat.leb_spec p (i + h)) as [L1|L1]; cbn [andb].
  - destruct (Nat.ltb_spec (i + h - p) M) as [L2|L2].
    + replace (Nat.leb (i - p) h && Nat.leb (p - i) h) with true by (symmetry; apply andb_true_iff; split; apply Nat.leb_le; unfold M in L2; lia).
      change (val2 ker (i + h - p) 0) with (val (lnth g (i + h - p))). rewrite Eg by auto. cbn [val]. unfold normal.
      replace (INR p * d - INR i * d) with (- ((INR (i + h - p) - INR h) * d)) by (rewrite minus_INR, plus_INR by lia; ring).
      replace (Rabs s ^ 2) with (s ^ 2) by (symmetry; apply pow2_abs).
      replace ((- ((INR (i + h - p) - INR h) * d)) ^ 2) with (((INR (i + h - p) - INR h) * d) ^ 2) by ring. field. split; lra.
    + replace (Nat.leb (i - p) h && Nat.leb (p - i) h) with false; [ring|]. symmetry. apply andb_false_iff. left. apply Nat.leb_gt. unfold M in L2. lia.
  - replace (Nat.leb (i - p) h && Nat.leb (p - i) h) with false; [ring|]. symmetry. apply andb_false_iff. right. apply Nat.leb_gt. lia.
Qed.

(** Examples. *)
Lemma ex_cube : exists cube, 
  add_sigma_collapse_z (fin3 2 1 1 (fun _ _ _ => 1)) (fin3 2 1 1 (fun _ _ _ => 0)) (fin3 2 1 1 (fun m _ _ => 1 + INR m))
    (map Fin [6564; 6565]) (Fin 0) (map Fin [6565]) (map Fin [1]) 2 2 1 1 (Fin 1) (tiled_I 2 2 1 1 (fun _ _ _ => 1))
    (tiled_w 2 2 1 1 (fun w => nth w [6564; 6565] 0)) Wave = Ok cube /\
  at3 cube 1 0 0 = Fin (normal 6565 (1 / c_kms * 6565) 6565 + normal 6565 (2 / c_kms * 6565) 6565).
Proof.
  destruct (cube_succeeds (fun _ _ _ => 1) (fun _ _ _ => 0) (fun m _ _ => 1 + INR m) [6564; 6565] [6565] [1] 0 2 1 1 1 Wave) as [cube E];
    try lia; try (cbn; lia); [intros m j k _ _ _; pose proof (pos_INR m); lra|].
  exists cube. split; [exact E|].
  destruct (cube_value (fun _ _ _ => 1) (fun _ _ _ => 0) (fun m _ _ => 1 + INR m) [6564; 6565] [6565] [1] 0 2 1 1 1 Wave cube) as (_ & _ & _ & X);
    try lia; try lra; auto; [intros m j k _ _ _; pose proof (pos_INR m); lra|intros l [<-|[]]; lra|].
  rewrite X by (cbn; lia). f_equal. pose proof c_kms_pos as Hc. cbn [length rsumn rsum map seq fold_right nth INR].
  unfold rsumn, rsum. cbn [map seq fold_right INR].
  replace (6565 * (1 + 0) * (1 + 0 / c_kms)) with 6565 by (field; lra).
  replace ((1 + 0) / c_kms * (6565 * (1 + 0))) with (1 / c_kms * 6565) by (field; lra).
  replace ((1 + 1) / c_kms * (6565 * (1 + 0))) with (2 / c_kms * 6565) by (field; lra). ring.
Qed.

Lemma ex_zero_voxel : exists cube, 
  add_sigma_collapse_z (fin3 2 1 1 (fun _ _ _ => 1)) (fin3 2 1 1 (fun _ _ _ => 0)) (fin3 2 1 1 (fun m _ _ => INR m))
    (map Fin [6564; 6565]) (Fin 0) (map Fin [6565]) (map Fin [1]) 2 2 1 1 (Fin 1) (tiled_I 2 2 1 1 (fun _ _ _ => 1))
    (tiled_w 2 2 1 1 (fun w => nth w [6564; 6565] 0)) Wave = Ok cube /\ at3 cube 1 0 0 = NaN.
Proof.
  assert (Sd : exists m j k : nat, (m < 2)%nat /\ (j < 1)%nat /\ (k < 1)%nat /\ INR m <> 0)
    by (exists 1%nat, 0%nat, 0%nat; repeat split; try lia; cbn; lra).
  assert (X : exists cube, add_sigma_collapse_z (fin3 2 1 1 (fun _ _ _ => 1)) (fin3 2 1 1 (fun _ _ _ => 0)) (fin3 2 1 1 (fun m _ _ => INR m))
    (map Fin [6564; 6565]) (Fin 0) (map Fin [6565]) (map Fin [1]) 2 2 1 1 (Fin 1) (tiled_I 2 2 1 1 (fun _ _ _ => 1))
    (tiled_w 2 2 1 1 (fun w => nth w [6564; 6565] 0)) Wave = Ok cube).
  { unfold add_sigma_collapse_z. destruct (some_dispersion 2 1 1 (fun m _ _ => INR m)) as (mx & Em & Ep); [exact Sd|].
    rewrite Em. cbn [bind]. rewrite Ep. cbn. eauto. }
  destruct X as [cube E]. exists cube. split; [exact E|].
  refine (zero_voxel (fun _ _ _ => 1) (fun _ _ _ => 0) (fun m _ _ => INR m) [6564; 6565] [6565] [1] 0 2 1 1 1 cube 0 0 0 Sd _ _ _ _ _ E 1%nat _);
    try (cbn; lia); [reflexivity|discriminate].
Qed.

Lemma ex_kernel : exists K out, inst_convol_complete (fin2 3 1 (fun i _ => if Nat.eqb i 1 then 1 else 0)) (uniform 6564 1 3) (IdwFloat (Fin 2)) = Ok out /\
  0 < K /\ at2 out 0 0 = Fin (K * normal 0 2 1) /\ at2 out 1 0 = Fin (K * normal 1 2 1) /\ at2 out 2 0 = Fin (K * normal 2 2 1).
Proof.
  destruct (inst_kernel (fin2 3 1 (fun i _ => if Nat.eqb i 1 then 1 else 0)) 6564 1 3 2) as (K & out & E & Kp & _ & _ & X); try lra; try lia; try discriminate.
  - intros i j _ _. cbn. eexists. split; [reflexivity|]. destruct i as [|[|i]]; cbn; lra.
  - exists 1%nat, 0%nat. repeat split; try (cbn; lia). exists 1. split; [reflexivity|lra].
  - exists K, out. split; auto. split; auto. rewrite !X by (cbn; lia). unfold in_reach, rsumn, rsum, val2.
    replace (Rabs 2) with 2 by (symmetry; apply Rabs_right; lra). cbn [fin2 rows map seq fold_right at2 val Nat.eqb Nat.leb Nat.sub andb Nat.div fst Nat.divmod INR].
    rewrite !Rmult_1_r, !Rmult_0_l, !Rplus_0_l, !Rplus_0_r, !Rmult_1_l. replace (1 + 1) with 2 by lra. auto.
Qed.

Lemma ex_redchisq : let d := findata 1 3 (fun _ j => INR j) (fun _ _ => 1) (fun _ _ => 1) (fun _ j => negb (Nat.eqb j 0)) [] in
  model_redchisq d (fin2 1 3 (fun _ _ => 0)) 1 = Fin (5 / 1).
Proof.
  intros d. destruct (redchisq_value 1 3 (fun _ j => INR j) (fun _ _ => 1) (fun _ _ => 1) (fun _ j => negb (Nat.eqb j 0)) [] (fun _ _ => 0) 1) as (X & _);
    [intros; lra|cbn; lia|]. unfold d. rewrite X. unfold n_good, chi2, rsum2, rsumn, rsum. cbn. f_equal. field.
Qed.
