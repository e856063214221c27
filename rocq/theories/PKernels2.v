(* Proofs about instrument broadening, the zero-dispersion collapse and the data terms. *)
From Coq Require Import Reals List Bool Arith Lia Lra Psatz.
From Verif Require Import PyFloat PyBase Arr PyNum MKernels SKernels PKernels.
Import ListNotations.
Local Open Scope R_scope.

Definition ker2 (ker : arr2 fl) (i j p q : nat) : R :=
  match same_idx (rows ker) i p, same_idx (cols ker) j q with
  | Some a, Some b => val2 ker a b
  | _, _ => 0
  end.
Definition rconv2 (a ker : arr2 fl) (i j : nat) : R :=
  rsum2 (rows a) (cols a) (fun p q => val2 a p q * ker2 ker i j p q).
Definition total2 (a : arr2 fl) : R := rsum2 (rows a) (cols a) (val2 a).

Lemma sum2_total a : finite2 a -> sum2 a = Fin (total2 a).
Proof. apply sum2_val. Qed.

Lemma opt_at_ker2 ker i j p q : finite2 ker ->
  opt_at (same_idx (rows ker) i p) (fun ki =>
    opt_at (same_idx (cols ker) j q) (fun kj => at2 ker ki kj)) = Fin (ker2 ker i j p q).
Proof.
  intros H. unfold ker2.
  destruct (same_idx (rows ker) i p) as [a|] eqn:E0; simpl; auto.
  destruct (same_idx (cols ker) j q) as [b|] eqn:E1; simpl; auto.
  apply finite_val. apply H; eapply same_idx_lt; eauto.
Qed.

Lemma conv2_Fin a ker i j : finite2 a -> finite2 ker ->
  at2 (conv2 a ker) i j = Fin (rconv2 a ker i j).
Proof.
  intros Ha Hk. unfold conv2. rewrite (proj2 (allfin2_spec a) Ha), (proj2 (allfin2_spec ker) Hk).
  simpl. unfold rconv2, rsum2. apply fsumn_Fin. intros p Hp. apply fsumn_Fin. intros q Hq.
  rewrite opt_at_ker2 by auto.
  rewrite (finite_val (at2 a p q)) by (apply Ha; auto). reflexivity.
Qed.
Lemma conv2_dims a ker : rows (conv2 a ker) = rows a /\ cols (conv2 a ker) = cols a.
Proof. unfold conv2. destruct (allfin2 a && allfin2 ker); simpl; auto. Qed.
Lemma conv2_finite a ker : finite2 a -> finite2 ker -> finite2 (conv2 a ker).
Proof. intros Ha Hk i j _ _. rewrite conv2_Fin by auto. reflexivity. Qed.
Lemma total2_conv a ker : finite2 a -> finite2 ker ->
  total2 (conv2 a ker) = rsum2 (rows a) (cols a) (rconv2 a ker).
Proof.
  intros Ha Hk. unfold total2. destruct (conv2_dims a ker) as (E0 & E1).
  rewrite E0, E1. apply rsum2_ext. intros. unfold val2. now rewrite conv2_Fin.
Qed.
Lemma ker2_nonneg ker i j p q : nonneg2 ker -> 0 <= ker2 ker i j p q.
Proof.
  intros H. unfold ker2.
  destruct (same_idx (rows ker) i p) as [b|] eqn:E1; [|lra].
  destruct (same_idx (cols ker) j q) as [c|] eqn:E2; [|lra].
  apply nonneg2_val; auto; eapply same_idx_lt; eauto.
Qed.
Lemma rsum2_nonneg n m f :
  (forall i j, (i < n)%nat -> (j < m)%nat -> 0 <= f i j) -> 0 <= rsum2 n m f.
Proof. intros H. apply rsumn_nonneg. intros i Hi. apply rsumn_nonneg. intros j Hj. auto. Qed.
Lemma rconv2_nonneg a ker i j : nonneg2 a -> nonneg2 ker -> 0 <= rconv2 a ker i j.
Proof.
  intros Ha Hk. apply rsum2_nonneg. intros. apply Rmult_le_pos; [now apply nonneg2_val|now apply ker2_nonneg].
Qed.

Lemma rsumn_ge_term n f k : (k < n)%nat -> (forall i, (i < n)%nat -> 0 <= f i) -> f k <= rsumn n f.
Proof.
  revert k. induction n as [|n IH]; intros k Hk Hf; [lia|]. simpl.
  destruct (Nat.eq_dec k n) as [->|].
  - assert (0 <= rsumn n f) by (apply rsumn_nonneg; intros; apply Hf; lia). lra.
  - assert (f k <= rsumn n f) by (apply IH; [lia|intros; apply Hf; lia]).
    assert (0 <= f n) by (apply Hf; lia). lra.
Qed.

Lemma conv2_positive a ker :
  nonneg2 a -> nonneg2 ker -> 0 < total2 a -> (0 < rows ker)%nat -> (0 < cols ker)%nat ->
  0 < val2 ker ((rows ker - 1) / 2) ((cols ker - 1) / 2) -> 0 < total2 (conv2 a ker).
Proof.
  intros Ha Hk Ht H0 H1 Hp.
  rewrite total2_conv by (apply nonneg2_finite; auto).
  apply Rlt_le_trans with
    (rsum2 (rows a) (cols a) (fun i j => val2 ker ((rows ker - 1) / 2) ((cols ker - 1) / 2) * val2 a i j)).
  { rewrite rsum2_scal. apply Rmult_lt_0_compat; auto. }
  apply rsumn_le. intros i Hi. apply rsumn_le. intros j Hj. unfold rconv2, rsum2.
  assert (NN : forall p q, (p < rows a)%nat -> (q < cols a)%nat -> 0 <= val2 a p q * ker2 ker i j p q).
  { intros. apply Rmult_le_pos; [now apply nonneg2_val|now apply ker2_nonneg]. }
  eapply Rle_trans; [|apply (rsumn_ge_term (rows a) _ i Hi); intros; apply rsumn_nonneg; intros; auto].
  cbv beta. eapply Rle_trans; [|apply (rsumn_ge_term (cols a) _ j Hj); intros; auto].
  cbv beta. unfold ker2. rewrite !same_idx_diag by auto. lra.
Qed.

(* ---------------- instrument broadening ---------------- *)

Lemma fwhm_factor_pos : 0 < fwhm_factor.
Proof.
  unfold fwhm_factor. assert (0 < ln 2) by (rewrite <- ln_1; apply ln_increasing; lra).
  assert (0 < sqrt (2 * ln 2)) by (apply sqrt_lt_R0; lra). lra.
Qed.

Lemma gaus_from_fwhm_Fin x f x0 : f <> 0 ->
  gaus_from_fwhm (Fin x) (Fin f) (Fin x0) =
  Fin (exp (- (x - x0)^2 / (2 * (f / fwhm_factor)^2))).
Proof.
  intros Hf. pose proof fwhm_factor_pos as Hp. unfold gaus_from_fwhm, fsq.
  rewrite (fdiv_Fin f) by lra. cbn [fmul fsub fneg fadd].
  rewrite fdiv_Fin.
  - simpl. do 2 f_equal. field. split; lra.
  - assert (f / fwhm_factor <> 0).
    { unfold Rdiv. apply Rmult_integral_contrapositive_currified; auto. apply Rinv_neq_0_compat. lra. }
    intros E. apply Rmult_integral in E as [E|E]; [lra|]. apply Rmult_integral in E. tauto.
Qed.

Lemma average_Fin l : l <> [] -> average (map Fin l) = Fin (rsum l / INR (length l)).
Proof.
  intros H. unfold average. rewrite fsum_Fin, map_length. apply fdiv_Fin.
  apply not_0_INR. destruct l; simpl; congruence.
Qed.

Lemma firstn_map {A B} (f : A -> B) n l : firstn n (map f l) = map f (firstn n l).
Proof. revert l; induction n; intros [|a l]; simpl; auto. now rewrite IHn. Qed.

(** Odd-length part of the wavelength grid that carries the kernel. *)
Lemma odd_grid (l : list R) : l <> [] ->
  exists xs, (if Nat.even (length (map Fin l)) then droplast (map Fin l) else map Fin l) = map Fin xs /\
   (Nat.even (length l) = true -> length xs = (length l - 1)%nat) /\
   (Nat.even (length l) = false -> length xs = length l) /\ xs <> [].
Proof.
  intros H. rewrite map_length. destruct (Nat.even (length l)) eqn:E.
  - exists (firstn (length l - 1) l). unfold droplast. rewrite map_length, firstn_map.
    assert (L : length (firstn (length l - 1) l) = (length l - 1)%nat) by (rewrite firstn_length; lia).
    repeat split; auto; try discriminate. intros F. rewrite F in L. simpl in L.
    destruct l as [|a [|b l]]; simpl in *; try congruence; try lia.
  - exists l. repeat split; auto; discriminate.
Qed.

Lemma inst_convol_value m (wave : list R) s :
  s <> 0 -> wave <> [] -> finite2 m -> size2 m <> 0%nat ->
  exists ker, nonneg2 ker /\ (0 < rows ker)%nat /\ cols ker = 1%nat /\
    (forall i, (i < rows ker)%nat -> 0 < val2 ker i 0) /\
    inst_convol_complete m (map Fin wave) (IdwFloat (Fin s)) =
      Ok (map2 (fun x => fmul x (fdiv (sum2 m) (sum2 (conv2 m ker)))) (conv2 m ker)).
Proof.
  intros Hs Hw Hm Hz.
  destruct (odd_grid wave Hw) as (xs & E & _ & _ & Hne).
  unfold inst_convol_complete. rewrite E. rewrite average_Fin by auto.
  set (lc := rsum xs / INR (length xs)).
  unfold convol_instconstfwhm. cbn [fmul].
  assert (Hf : s * fwhm_factor <> 0).
  { pose proof fwhm_factor_pos. apply Rmult_integral_contrapositive_currified; lra. }
  set (g := fun x => exp (- (x - lc)^2 / (2 * (s * fwhm_factor / fwhm_factor)^2))).
  assert (Eg : map (fun x => if isfinite (gaus_from_fwhm x (Fin (s * fwhm_factor)) (Fin lc))
                  then gaus_from_fwhm x (Fin (s * fwhm_factor)) (Fin lc) else Fin 0) (map Fin xs) = map (fun x => Fin (g x)) xs).
  { rewrite map_map. apply map_ext. intros x. rewrite gaus_from_fwhm_Fin by auto. reflexivity. }
  rewrite Eg. rewrite map_length.
  assert (En : forall i, (i < length xs)%nat -> lnth (map (fun x => Fin (g x)) xs) i = Fin (g (nth i xs 0))).
  { intros i Hi. unfold lnth. rewrite nth_indep with (d' := Fin (g 0)) by (now rewrite map_length).
    now rewrite (map_nth (fun x => Fin (g x))). }
  set (ker := mk2 (length xs) 1 (fun i _ => lnth (map (fun x => Fin (g x)) xs) i)).
  exists ker.
  assert (Hl : (0 < length xs)%nat) by (destruct xs; simpl; [congruence|lia]).
  split; [|split; [|split; [|split]]]; auto.
  - intros i j Hi Hj. simpl in *. rewrite En by auto. eexists. split; [reflexivity|].
    left. apply exp_pos.
  - intros i Hi. unfold val2. simpl in *. rewrite En by auto. apply exp_pos.
  - apply Nat.eqb_neq in Hz. rewrite Hz.
    assert (Hk : size2 ker <> 0%nat) by (unfold size2; simpl; lia).
    apply Nat.eqb_neq in Hk. rewrite Hk. reflexivity.
Qed.

Lemma inst_convol_conserves m (wave : list R) s :
  s <> 0 -> wave <> [] -> size2 m <> 0%nat -> nonneg2 m ->
  (exists i j, (i < rows m)%nat /\ (j < cols m)%nat /\ exists r, at2 m i j = Fin r /\ 0 < r) ->
  exists out, inst_convol_complete m (map Fin wave) (IdwFloat (Fin s)) = Ok out /\
    rows out = rows m /\ cols out = cols m /\ nonneg2 out /\ sum2 out = sum2 m.
Proof.
  intros Hs Hw Hz Hm (i0 & j0 & Hi0 & Hj0 & r0 & E0 & P0).
  destruct (inst_convol_value m wave s Hs Hw (nonneg2_finite _ Hm) Hz) as (ker & Kn & Kr & Kc & Kp & Hv).
  eexists. split; [exact Hv|]. destruct (conv2_dims m ker) as [R C].
  assert (Fm : finite2 m) by now apply nonneg2_finite.
  assert (Fk : finite2 ker) by now apply nonneg2_finite.
  assert (Tm : 0 < total2 m).
  { unfold total2, rsum2. apply rsumn_pos.
    - intros i Hi. apply rsumn_nonneg. intros j Hj. now apply nonneg2_val.
    - exists i0. split; auto. apply rsumn_pos; [intros; now apply nonneg2_val|].
      exists j0. split; auto. unfold val2. now rewrite E0. }
  assert (Tc : 0 < total2 (conv2 m ker)).
  { apply conv2_positive; auto; [rewrite Kc; lia|]. rewrite Kc. apply Kp.
    apply Nat.div_lt_upper_bound; lia. }
  assert (V : forall i j, at2 (map2 (fun x => fmul x (fdiv (sum2 m) (sum2 (conv2 m ker)))) (conv2 m ker)) i j
     = Fin (rconv2 m ker i j * (total2 m / total2 (conv2 m ker)))).
  { intros. simpl. rewrite conv2_Fin by auto. rewrite sum2_total by auto.
    rewrite (sum2_total (conv2 m ker)) by (apply conv2_finite; auto). rewrite fdiv_Fin by lra. reflexivity. }
  simpl rows. simpl cols. rewrite R, C. repeat split; auto.
  - intros i j _ _. rewrite V. eexists; split; [reflexivity|]. apply Rmult_le_pos; [now apply rconv2_nonneg|].
    apply Rmult_le_pos; [lra|]. left. now apply Rinv_0_lt_compat.
  - erewrite sum2_Fin by (intros; apply V). simpl rows. simpl cols. rewrite R, C, sum2_total by auto.
    f_equal. rewrite (rsum2_ext _ _ _ (fun i j => (total2 m / total2 (conv2 m ker)) * rconv2 m ker i j)) by (intros; ring).
    rewrite rsum2_scal, <- total2_conv by auto. field. lra.
Qed.

Lemma inst_convol_array m wave l : inst_convol_complete m wave (IdwArr l) = Err ValueError.
Proof. reflexivity. Qed.

(* ---------------- nearest-bin collapse ---------------- *)

Lemma fsumn_pick n k v : (k < n)%nat -> fsumn n (fun i => if Nat.eqb k i then v else Fin 0) = v.
Proof.
  intros H. induction n as [|n IH]; [lia|]. rewrite fsumn_S.
  destruct (Nat.eq_dec k n) as [->|Hne].
  - rewrite Nat.eqb_refl.
    rewrite (fsumn_ext n _ (fun _ => Fin 0)), fsumn_zero; [apply fadd_0_l|].
    intros i Hi. destruct (Nat.eqb_spec n i); [lia|auto].
  - rewrite IH by lia. destruct (Nat.eqb_spec k n); [lia|]. apply fadd_0_r.
Qed.

Lemma collapse_flux I V wave nWave nZ nY nX dz lam0 j k :
  length wave = nWave -> (0 < nWave)%nat ->
  fsumn nWave (fun w => at3 (I_simple_collapse I V wave nWave nZ nY nX dz lam0) w j k) =
  fsumn nZ (fun m => fmul (at3 I m j k) dz).
Proof.
  intros Hl Hn. unfold I_simple_collapse. cbn [at3]. rewrite fsumn_swap. apply fsumn_ext.
  intros m Hm. cbv zeta. apply fsumn_pick. rewrite Hl.
  eapply Nat.le_lt_trans; [apply argmin_le|lia].
Qed.

Lemma c_kms_pos : 0 < c_kms. Proof. unfold c_kms. lra. Qed.

Lemma collapse_nearest I V (wave : list R) nZ nY nX dz lam0 (v : nat -> nat -> nat -> R) :
  wave <> [] -> (forall m j k, (m < nZ)%nat -> (j < nY)%nat -> (k < nX)%nat -> at3 V m j k = Fin (v m j k)) ->
  exists best : nat -> nat -> nat -> nat,
    (forall m j k, (m < nZ)%nat -> (j < nY)%nat -> (k < nX)%nat -> (best m j k < length wave)%nat /\
       forall i, (i < length wave)%nat ->
         Rabs (lam0 * (1 + v m j k / c_kms) - nth (best m j k) wave 0)
         <= Rabs (lam0 * (1 + v m j k / c_kms) - nth i wave 0)) /\
    forall w j k,
      at3 (I_simple_collapse I V (map Fin wave) (length wave) nZ nY nX dz (Fin lam0)) w j k =
      fsumn nZ (fun m => if Nat.eqb (best m j k) w then fmul (at3 I m j k) dz else Fin 0).
Proof.
  intros Hw HV.
  assert (Hl : (0 < length wave)%nat) by (destruct wave; simpl; [congruence|lia]).
  pose proof c_kms_pos as Hc.
  exists (fun m j k => argmin_ (length (map Fin wave) - 1)
    (fun i => fabs (fsub (fmul (Fin lam0) (fadd (Fin 1) (fdiv (at3 V m j k) (Fin c_kms)))) (lnth (map Fin wave) i)))).
  split; [|reflexivity]. intros m j k Hm Hj Hk. rewrite map_length.
  set (f := fun i => fabs (fsub (fmul (Fin lam0) (fadd (Fin 1) (fdiv (at3 V m j k) (Fin c_kms)))) (lnth (map Fin wave) i))).
  pose proof (argmin_le (length wave - 1) f) as Hle. split; [lia|].
  assert (Hf : forall i, (i <= length wave - 1)%nat ->
      f i = Fin (Rabs (lam0 * (1 + v m j k / c_kms) - nth i wave 0))).
  { intros i Hi. unfold f. rewrite (HV m j k Hm Hj Hk), fdiv_Fin by lra. unfold lnth.
    rewrite nth_indep with (d' := Fin 0) by (rewrite map_length; lia).
    rewrite map_nth. reflexivity. }
  destruct (argmin_spec (length wave - 1) _ f Hf) as [H1 _].
  intros i Hi. apply H1. lia.
Qed.

Lemma collapse_velocity_unbound I V sigma wave z rest ratio nW nZ nY nX dz I4 wref m :
  np_max (map fabs (flat_list3 sigma)) = Ok m -> fgtb m (Fin 0) = false ->
  add_sigma_collapse_z I V sigma wave z rest ratio nW nZ nY nX dz I4 wref Velocity = Err UnboundLocalError.
Proof. intros H1 H2. unfold add_sigma_collapse_z. rewrite H1. cbn [bind]. now rewrite H2. Qed.

Lemma collapse_wave_zero_sigma I V sigma wave z rest ratio nW nZ nY nX dz I4 wref m :
  np_max (map fabs (flat_list3 sigma)) = Ok m -> fgtb m (Fin 0) = false ->
  rest <> [] -> length ratio = length rest ->
  exists cube, add_sigma_collapse_z I V sigma wave z rest ratio nW nZ nY nX dz I4 wref Wave = Ok cube /\
    dim0 cube = nW /\ dim1 cube = nY /\ dim2 cube = nX /\
    forall w j k, at3 cube w j k =
      fsumn (length rest) (fun i =>
        fmul (at3 (I_simple_collapse I V wave nW nZ nY nX dz (fmul (lnth rest i) (fadd (Fin 1) z))) w j k)
             (lnth ratio i)).
Proof.
  intros H1 H2 Hr Hl. unfold add_sigma_collapse_z. rewrite H1. cbn [bind].
  assert (E : Nat.eqb (length rest) 0 = false) by (destruct rest; [congruence|reflexivity]).
  rewrite E, H2. cbn [andb].
  assert (E2 : Nat.ltb (length ratio) (length rest) = false) by (apply Nat.ltb_ge; lia).
  rewrite E2. eexists. split; [reflexivity|]. simpl. repeat split; auto.
Qed.
