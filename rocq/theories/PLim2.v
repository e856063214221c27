From Coq Require Import Reals Lra List Bool Arith ZArith Lia.
From Verif Require Import PyFloat PyBase Arr PyNum MParams MKernels MAper2D SKernels SLine PKernels PKernels2 PData PAper1D PAper2DGeo PLos PAper2DGrid PAper2DShape PAper2DOk PLine PFinite PLim.
Import ListNotations.
Local Open Scope R_scope.

Definition pos3 (a : arr3 fl) : Prop := forall i j k, (i < dim0 a)%nat -> (j < dim1 a)%nat -> (k < dim2 a)%nat -> exists x, at3 a i j k = Fin x /\ 0 < x.
Definition pos2 (a : arr2 fl) : Prop := forall i j, (i < rows a)%nat -> (j < cols a)%nat -> exists x, at2 a i j = Fin x /\ 0 < x.
Lemma pos3_nonneg a : pos3 a -> nonneg3 a. Proof. intros H i j k Hi Hj Hk. apply weaken. auto. Qed.
Lemma pos2_nonneg a : pos2 a -> nonneg2 a. Proof. intros H i j Hi Hj. apply weaken. auto. Qed.

(* families of cubes and images of one shape, positive everywhere, that converge *)
Definition cvg3 (n0 n1 n2 : nat) (A : option nat -> arr3 fl) : Prop :=
  (forall o, dim0 (A o) = n0 /\ dim1 (A o) = n1 /\ dim2 (A o) = n2 /\ pos3 (A o)) /\
  forall i j k, (i < n0)%nat -> (j < n1)%nat -> (k < n2)%nat -> cv (fun o => val3 (A o) i j k).
Definition cvg2 (n m : nat) (A : option nat -> arr2 fl) : Prop :=
  (forall o, rows (A o) = n /\ cols (A o) = m /\ pos2 (A o)) /\
  forall i j, (i < n)%nat -> (j < m)%nat -> cv (fun o => val2 (A o) i j).

Lemma psf_cvg n0 n1 n2 C D ker fwhm : cvg3 n0 n1 n2 C -> (0 < n0)%nat -> (0 < n1)%nat -> (0 < n2)%nat -> 0 < fwhm ->
  pos3 ker -> (0 < dim0 ker)%nat -> (0 < dim1 ker)%nat -> (0 < dim2 ker)%nat ->
  (forall o, PSF_convolve (C o) (Fin fwhm) (Stamp3 ker) = Ok (Some (D o))) -> cvg3 n0 n1 n2 D.
Proof.
  intros (HC & CC) N0 N1 N2 Hf Kp K0 K1 K2 E.
  assert (G : fgtb (Fin fwhm) (Fin 0) = true) by (unfold fgtb, fltb; now apply Rltb_true).
  assert (Nk : nonneg3 ker) by now apply pos3_nonneg.
  assert (Fk : finite3 ker) by now apply nonneg3_finite.
  assert (Pos : 0 < val3 ker ((dim0 ker - 1) / 2) ((dim1 ker - 1) / 2) ((dim2 ker - 1) / 2)).
  { unfold val3. destruct (Kp ((dim0 ker - 1) / 2)%nat ((dim1 ker - 1) / 2)%nat ((dim2 ker - 1) / 2)%nat) as (v & -> & Hv); auto using half_lt. }
  assert (S : forall o, 0 < total3 (C o) /\ 0 < rsum3 n0 n1 n2 (rconv3 (C o) ker) /\ dim0 (D o) = n0 /\ dim1 (D o) = n1 /\ dim2 (D o) = n2 /\
     forall w i j, at3 (D o) w i j = Fin (rconv3 (C o) ker w i j * (total3 (C o) / rsum3 n0 n1 n2 (rconv3 (C o) ker)))).
  { intros o. destruct (HC o) as (D0 & D1 & D2 & Pc). assert (Nc := pos3_nonneg _ Pc). assert (Fc := nonneg3_finite _ Nc).
    assert (Tp : 0 < total3 (C o)).
    { apply rsum3_pos; [intros; now apply nonneg3_val|]. destruct (Pc 0%nat 0%nat 0%nat) as (v & Ev & Hv); try lia. exists 0%nat, 0%nat, 0%nat. repeat split; try lia. unfold val3. now rewrite Ev. }
    assert (Tc : 0 < total3 (conv3 (C o) ker)) by (apply conv3_positive; auto).
    destruct (PSF_convolve_value (C o) ker (Fin fwhm) G Fc Fk) as (d & Ed & Q0 & Q1 & Q2 & V); [unfold size3; nia|unfold size3; nia|lra|].
    rewrite E in Ed. injection Ed as Ed. rewrite total3_conv, D0, D1, D2 in Tc by assumption. split; [exact Tp|]. split; [exact Tc|]. rewrite Ed, Q0, Q1, Q2. repeat (split; [assumption|]).
    intros w i j. rewrite V, total3_conv, D0, D1, D2 by assumption. reflexivity. }
  assert (RC : forall w i j, (w < n0)%nat -> (i < n1)%nat -> (j < n2)%nat -> cv (fun o => rconv3 (C o) ker w i j)).
  { intros w i j Hw Hi Hj. apply (cv_ext (fun o => rsum3 n0 n1 n2 (fun v p q => val3 (C o) v p q * ker3 ker w i j v p q))).
    - intros o. unfold rconv3. destruct (HC o) as (-> & -> & -> & _). reflexivity.
    - apply cv_rsum3. intros a b e Ha Hb He. apply cv_mult; [now apply CC|apply cv_const]. }
  split.
  - intros o. destruct (S o) as (T1 & T2 & Q0 & Q1 & Q2 & V). destruct (HC o) as (D0 & D1 & D2 & Pc). repeat (split; [assumption|]).
    intros i j k Hi Hj Hk. rewrite V. eexists. split; [reflexivity|]. apply Rmult_lt_0_compat; [|now apply Rdiv_lt_0_compat].
    eapply Rlt_le_trans; [|apply rconv3_centre; auto using pos3_nonneg; lia]. apply Rmult_lt_0_compat; [|exact Pos].
    unfold val3. destruct (Pc i j k) as (v & -> & Hv); try lia. exact Hv.
  - intros i j k Hi Hj Hk. apply (cv_ext (fun o => rconv3 (C o) ker i j k * (total3 (C o) / rsum3 n0 n1 n2 (rconv3 (C o) ker)))).
    + intros o. destruct (S o) as (_ & _ & _ & _ & _ & V). unfold val3. now rewrite V.
    + apply cv_mult; [now apply RC|]. apply cv_div; [destruct (S None) as (_ & P & _); lra| |].
      * apply (cv_ext (fun o => rsum3 n0 n1 n2 (val3 (C o)))); [|now apply cv_rsum3]. intros o. unfold total3. destruct (HC o) as (-> & -> & -> & _). reflexivity.
      * now apply cv_rsum3.
Qed.

Lemma cut_cvg n0 n1 n2 C y0 ny x0 nx dx : cvg3 n0 n1 n2 C -> (y0 + ny <= n1)%nat -> (x0 + nx <= n2)%nat -> (0 < nx)%nat -> 0 < dx ->
  cvg2 n0 ny (fun o => mk2 n0 ny (fun w j => fmul (fsumn nx (fun k => at3 (C o) w (y0 + j) (x0 + k))) (Fin dx))).
Proof.
  intros (HC & CC) Hy Hx Nx Hd.
  assert (V : forall o w j, (w < n0)%nat -> (j < ny)%nat -> fsumn nx (fun k => at3 (C o) w (y0 + j) (x0 + k)) = Fin (rsumn nx (fun k => val3 (C o) w (y0 + j) (x0 + k))) /\
     0 < rsumn nx (fun k => val3 (C o) w (y0 + j) (x0 + k))).
  { intros o w j Hw Hj. destruct (HC o) as (D0 & D1 & D2 & P).
    assert (Q : forall k, (k < nx)%nat -> exists x, at3 (C o) w (y0 + j) (x0 + k) = Fin x /\ 0 < x) by (intros k Hk; apply P; lia). split.
    - apply fsumn_Fin. intros k Hk. unfold val3. now destruct (Q k Hk) as (x & -> & _).
    - apply rsumn_pos; [intros k Hk; unfold val3; destruct (Q k Hk) as (x & -> & Hp); cbn [val]; lra|].
      exists 0%nat. split; [exact Nx|]. unfold val3. destruct (Q 0%nat Nx) as (x & -> & Hp). exact Hp. }
  split.
  - intros o. cbn [rows cols]. split; [reflexivity|]. split; [reflexivity|]. intros i j Hi Hj. cbn [rows cols at2] in *. destruct (V o i j Hi Hj) as (-> & P).
    eexists. split; [reflexivity|]. now apply Rmult_lt_0_compat.
  - intros i j Hi Hj. apply (cv_ext (fun o => rsumn nx (fun k => val3 (C o) i (y0 + j) (x0 + k)) * dx)).
    + intros o. unfold val2. cbn [at2]. now rewrite (proj1 (V o i j Hi Hj)).
    + apply cv_mult; [|apply cv_const]. apply (cv_rsumn nx (fun o k => val3 (C o) i (y0 + j) (x0 + k))). intros k Hk. apply CC; lia.
Qed.

Lemma rebin_cvg m n f0 f1 A B : cvg2 (m * f0) (n * f1) A -> (0 < m)%nat -> (0 < n)%nat -> (0 < f0)%nat -> (0 < f1)%nat ->
  (forall o, rebin2 (A o) m n = Ok (B o)) -> cvg2 m n B.
Proof.
  intros (HA & CA) Hm Hn H0 H1 E.
  assert (S : forall o, rows (B o) = m /\ cols (B o) = n /\ forall i j, (i < m)%nat -> (j < n)%nat ->
     at2 (B o) i j = Fin (rsum2 f0 f1 (fun p q => val2 (A o) (i * f0 + p) (j * f1 + q))) /\ 0 < rsum2 f0 f1 (fun p q => val2 (A o) (i * f0 + p) (j * f1 + q))).
  { intros o. destruct (HA o) as (R & C & P). destruct (rebin2_blocks (A o) m n f0 f1 Hm Hn R C) as (b & Eb & Rb & Cb & V). rewrite E in Eb. injection Eb as Eb. rewrite Eb.
    split; [exact Rb|]. split; [exact Cb|]. intros i j Hi Hj.
    assert (Q : forall p q, (p < f0)%nat -> (q < f1)%nat -> exists x, at2 (A o) (i * f0 + p) (j * f1 + q) = Fin x /\ 0 < x) by (intros p q Hp Hq; apply P; [rewrite R|rewrite C]; nia).
    split.
    - rewrite V by auto. unfold block_sum, rsum2. apply fsumn_Fin. intros p Hp. apply fsumn_Fin. intros q Hq. unfold val2. now destruct (Q p q Hp Hq) as (x & -> & _).
    - apply rsum2_pos; [intros p q Hp Hq; unfold val2; destruct (Q p q Hp Hq) as (x & -> & Hx); cbn [val]; lra|].
      exists 0%nat, 0%nat. repeat split; auto. unfold val2. destruct (Q 0%nat 0%nat H0 H1) as (x & -> & Hx). exact Hx. }
  split.
  - intros o. destruct (S o) as (R & C & V). split; [exact R|]. split; [exact C|]. intros i j Hi Hj. rewrite R in Hi. rewrite C in Hj. destruct (V i j Hi Hj) as (-> & P). eexists. split; [reflexivity|exact P].
  - intros i j Hi Hj. apply (cv_ext (fun o => rsum2 f0 f1 (fun p q => val2 (A o) (i * f0 + p) (j * f1 + q)))).
    + intros o. destruct (S o) as (_ & _ & V). unfold val2 at 2. now rewrite (proj1 (V i j Hi Hj)).
    + apply (cv_rsum2 f0 f1 (fun o p q => val2 (A o) (i * f0 + p) (j * f1 + q))). intros p q Hp Hq. apply CA; nia.
Qed.

Lemma inst_kernel (wave : list R) s : s <> 0 -> wave <> [] ->
  exists ker, nonneg2 ker /\ (0 < rows ker)%nat /\ cols ker = 1%nat /\ (forall i, (i < rows ker)%nat -> 0 < val2 ker i 0) /\
    forall m, size2 m <> 0%nat -> inst_convol_complete m (map Fin wave) (IdwFloat (Fin s)) = Ok (map2 (fun x => fmul x (fdiv (sum2 m) (sum2 (conv2 m ker)))) (conv2 m ker)).
Proof.
  intros Hs Hw. destruct (odd_grid wave Hw) as (xs & E & _ & _ & Hne).
  unfold inst_convol_complete. rewrite E. rewrite average_Fin by auto. set (lc := rsum xs / INR (length xs)). unfold convol_instconstfwhm. cbn [fmul].
  assert (Hf : s * fwhm_factor <> 0) by (pose proof fwhm_factor_pos; apply Rmult_integral_contrapositive_currified; lra).
  set (g := fun x => exp (- (x - lc)^2 / (2 * (s * fwhm_factor / fwhm_factor)^2))).
  assert (Eg : map (fun x => if isfinite (gaus_from_fwhm x (Fin (s * fwhm_factor)) (Fin lc)) then gaus_from_fwhm x (Fin (s * fwhm_factor)) (Fin lc) else Fin 0) (map Fin xs) = map (fun x => Fin (g x)) xs).
  { rewrite map_map. apply map_ext. intros x. rewrite gaus_from_fwhm_Fin by auto. reflexivity. }
  rewrite Eg, map_length.
  assert (En : forall i, (i < length xs)%nat -> lnth (map (fun x => Fin (g x)) xs) i = Fin (g (nth i xs 0))).
  { intros i Hi. unfold lnth. rewrite nth_indep with (d' := Fin (g 0)) by (now rewrite map_length). now rewrite (map_nth (fun x => Fin (g x))). }
  set (ker := mk2 (length xs) 1 (fun i _ => lnth (map (fun x => Fin (g x)) xs) i)). exists ker.
  assert (Hl : (0 < length xs)%nat) by (destruct xs; simpl; [congruence|lia]).
  split; [|split; [|split; [|split]]]; auto.
  - intros i j Hi Hj. simpl in *. rewrite En by auto. eexists. split; [reflexivity|]. left. apply exp_pos.
  - intros i Hi. unfold val2. simpl in *. rewrite En by auto. apply exp_pos.
  - intros m Hz. apply Nat.eqb_neq in Hz. rewrite Hz. assert (Hk : size2 ker <> 0%nat) by (unfold size2; simpl; lia). apply Nat.eqb_neq in Hk. rewrite Hk. reflexivity.
Qed.

Lemma inst_cvg n m A B wave s : cvg2 n m A -> (0 < n)%nat -> (0 < m)%nat -> s <> 0 -> wave <> [] ->
  (forall o, inst_convol_complete (A o) (map Fin wave) (IdwFloat (Fin s)) = Ok (B o)) -> cvg2 n m B.
Proof.
  intros (HA & CA) N0 M0 Hs Hw E. destruct (inst_kernel wave s Hs Hw) as (ker & Nk & Rk & Ck & Pk & V). assert (Fk := nonneg2_finite _ Nk).
  assert (Pos : 0 < val2 ker ((rows ker - 1) / 2) ((cols ker - 1) / 2)).
  { rewrite Ck. change ((1 - 1) / 2)%nat with 0%nat. apply Pk, half_lt, Rk. }
  assert (S : forall o, 0 < total2 (A o) /\ 0 < rsum2 n m (rconv2 (A o) ker) /\ rows (B o) = n /\ cols (B o) = m /\
     forall i j, at2 (B o) i j = Fin (rconv2 (A o) ker i j * (total2 (A o) / rsum2 n m (rconv2 (A o) ker)))).
  { intros o. destruct (HA o) as (R & C & P). assert (Nm := pos2_nonneg _ P). assert (Fm := nonneg2_finite _ Nm).
    assert (Tp : 0 < total2 (A o)).
    { apply rsum2_pos; [intros; now apply nonneg2_val|]. destruct (P 0%nat 0%nat) as (v & Ev & Hv); try lia. exists 0%nat, 0%nat. repeat split; try lia. unfold val2. now rewrite Ev. }
    assert (Tc : 0 < total2 (conv2 (A o) ker)) by (apply conv2_positive; auto; lia).
    assert (Z : size2 (A o) <> 0%nat) by (unfold size2; nia). specialize (V (A o) Z). rewrite E in V. injection V as V.
    assert (T2 : total2 (conv2 (A o) ker) = rsum2 n m (rconv2 (A o) ker)) by (rewrite total2_conv by assumption; now rewrite R, C).
    assert (Q : fdiv (sum2 (A o)) (sum2 (conv2 (A o) ker)) = Fin (total2 (A o) / rsum2 n m (rconv2 (A o) ker))).
    { rewrite sum2_total by exact Fm. rewrite sum2_total by (now apply conv2_finite). rewrite <- T2. apply fdiv_Fin. lra. }
    rewrite Q in V. destruct (conv2_dims (A o) ker) as (D0 & D1). split; [exact Tp|]. split; [lra|]. rewrite V. cbn [map2 rows cols at2]. split; [congruence|]. split; [congruence|].
    intros i j. rewrite conv2_Fin by assumption. reflexivity. }
  assert (RC : forall i j, (i < n)%nat -> (j < m)%nat -> cv (fun o => rconv2 (A o) ker i j)).
  { intros i j Hi Hj. apply (cv_ext (fun o => rsum2 n m (fun p q => val2 (A o) p q * ker2 ker i j p q))).
    - intros o. unfold rconv2. destruct (HA o) as (-> & -> & _). reflexivity.
    - apply cv_rsum2. intros a b Ha Hb. apply cv_mult; [now apply CA|apply cv_const]. }
  split.
  - intros o. destruct (S o) as (T1 & T2 & R' & C' & V'). destruct (HA o) as (R & C & P). split; [exact R'|]. split; [exact C'|].
    intros i j Hi Hj. rewrite V'. eexists. split; [reflexivity|]. apply Rmult_lt_0_compat; [|now apply Rdiv_lt_0_compat].
    eapply Rlt_le_trans; [|apply rconv2_centre; auto using pos2_nonneg; lia]. apply Rmult_lt_0_compat; [|exact Pos].
    unfold val2. destruct (P i j) as (v & -> & Hv); try lia. exact Hv.
  - intros i j Hi Hj. apply (cv_ext (fun o => rconv2 (A o) ker i j * (total2 (A o) / rsum2 n m (rconv2 (A o) ker)))).
    + intros o. destruct (S o) as (_ & _ & _ & _ & V'). unfold val2. now rewrite V'.
    + apply cv_mult; [now apply RC|]. apply cv_div; [destruct (S None) as (_ & P & _); lra| |].
      * apply (cv_ext (fun o => rsum2 n m (val2 (A o)))); [|now apply cv_rsum2]. intros o. unfold total2. destruct (HA o) as (-> & -> & _). reflexivity.
      * now apply cv_rsum2.
Qed.

(* the cube in the Gaussian branch *)
Lemma gauss_cvg (V S : option nat -> nat -> nat -> nat -> R) (I : nat -> nat -> nat -> R) (IA : arr3 fl) (VA SA C : option nat -> arr3 fl) (I4 W4 : arr4 fl) (x rest ratio : list R) z nZ nY nX dz :
  let nW := length x in
  (forall o, dim0 (SA o) = nZ /\ dim1 (SA o) = nY /\ dim2 (SA o) = nX) ->
  (forall o m j k, (m < nZ)%nat -> (j < nY)%nat -> (k < nX)%nat -> at3 (VA o) m j k = Fin (V o m j k) /\ at3 (SA o) m j k = Fin (S o m j k) /\ 0 < S o m j k) ->
  (forall m j k, (m < nZ)%nat -> (j < nY)%nat -> (k < nX)%nat -> 0 < I m j k /\ forall w, (w < nW)%nat -> at4 I4 w m j k = Fin (I m j k) /\ at4 W4 w m j k = Fin (nth w x 0)) ->
  (forall m j k, (m < nZ)%nat -> (j < nY)%nat -> (k < nX)%nat -> cv (fun o => V o m j k) /\ cv (fun o => S o m j k)) ->
  (0 < nZ)%nat -> (0 < nY)%nat -> (0 < nX)%nat -> (0 < nW)%nat -> 0 < 1 + z -> 0 < dz ->
  (forall l, In l rest -> 0 < l) -> (forall l, In l ratio -> 0 < l) -> rest <> [] ->
  (forall o, dim0 (C o) = nW /\ dim1 (C o) = nY /\ dim2 (C o) = nX) ->
  (forall o, add_sigma_collapse_z IA (VA o) (SA o) (map Fin x) (Fin z) (map Fin rest) (map Fin ratio) nW nZ nY nX (Fin dz) I4 W4 Wave = Ok (C o)) ->
  cvg3 nW nY nX C.
Proof.
  intros nW Hd H HI HC HZ HY HX HW Hz Hdz Hr Hra Ne HD E. pose proof c_kms_pos as Hc.
  assert (Q : forall o, (length rest <= length ratio)%nat /\ forall w j k, (w < nW)%nat -> (j < nY)%nat -> (k < nX)%nat ->
    at3 (C o) w j k = Fin (rsumn (length rest) (fun i => nth i ratio 0 * (dz * rsumn nZ (fun m =>
          I m j k * normal (nth i rest 0 * (1 + z) * (1 + V o m j k / c_kms)) (S o m j k / c_kms * (nth i rest 0 * (1 + z))) (nth w x 0)))))).
  { intros o. apply (cube_value_in I (V o) (S o) IA (VA o) (SA o) I4 W4 x rest ratio z nZ nY nX dz (C o)); auto.
    - intros m j k Hm Hj Hk. destruct (H o m j k Hm Hj Hk) as (A & B & P). repeat split; auto; try lra; now apply HI.
    - lra.
    - intros l Hl. specialize (Hr l Hl). lra. }
  destruct (Q None) as (Lr & _).
  assert (W : forall o i m j k, (i < length rest)%nat -> (m < nZ)%nat -> (j < nY)%nat -> (k < nX)%nat -> 0 < S o m j k / c_kms * (nth i rest 0 * (1 + z))).
  { intros o i m j k Hi Hm Hj Hk. destruct (H o m j k Hm Hj Hk) as (_ & _ & P). apply Rmult_lt_0_compat; [now apply Rdiv_lt_0_compat|]. apply Rmult_lt_0_compat; [apply Hr, nth_In, Hi|exact Hz]. }
  split.
  - intros o. destruct (HD o) as (D0 & D1 & D2). repeat (split; [assumption|]). intros w j k Hw Hj Hk. rewrite D0 in Hw. rewrite D1 in Hj. rewrite D2 in Hk.
    destruct (Q o) as (_ & V'). rewrite V' by assumption. eexists. split; [reflexivity|].
    assert (T : forall i, (i < length rest)%nat -> 0 < nth i ratio 0 * (dz * rsumn nZ (fun m =>
          I m j k * normal (nth i rest 0 * (1 + z) * (1 + V o m j k / c_kms)) (S o m j k / c_kms * (nth i rest 0 * (1 + z))) (nth w x 0)))).
    { intros i Hi. apply Rmult_lt_0_compat; [apply Hra, nth_In; lia|]. apply Rmult_lt_0_compat; [exact Hdz|].
      assert (U : forall m, (m < nZ)%nat -> 0 < I m j k * normal (nth i rest 0 * (1 + z) * (1 + V o m j k / c_kms)) (S o m j k / c_kms * (nth i rest 0 * (1 + z))) (nth w x 0)).
      { intros m Hm. apply Rmult_lt_0_compat; [now apply HI|]. apply normal_pos. now apply W. }
      apply rsumn_pos; [intros m Hm; apply Rlt_le, U, Hm|exists 0%nat; split; [exact HZ|apply U, HZ]]. }
    apply rsumn_pos; [intros i Hi; apply Rlt_le, T, Hi|]. exists 0%nat. assert (0 < length rest)%nat by (destruct rest; [congruence|cbn; lia]). split; [lia|now apply T].
  - intros w j k Hw Hj Hk.
    apply (cv_ext (fun o => rsumn (length rest) (fun i => nth i ratio 0 * (dz * rsumn nZ (fun m =>
          I m j k * normal (nth i rest 0 * (1 + z) * (1 + V o m j k / c_kms)) (S o m j k / c_kms * (nth i rest 0 * (1 + z))) (nth w x 0)))))).
    + intros o. destruct (Q o) as (_ & V'). unfold val3. now rewrite V' by assumption.
    + apply (cv_rsumn (length rest) (fun o i => nth i ratio 0 * (dz * rsumn nZ (fun m =>
          I m j k * normal (nth i rest 0 * (1 + z) * (1 + V o m j k / c_kms)) (S o m j k / c_kms * (nth i rest 0 * (1 + z))) (nth w x 0))))).
      intros i Hi. apply cv_mult; [apply cv_const|]. apply cv_mult; [apply cv_const|].
      apply (cv_rsumn nZ (fun o m => I m j k * normal (nth i rest 0 * (1 + z) * (1 + V o m j k / c_kms)) (S o m j k / c_kms * (nth i rest 0 * (1 + z))) (nth w x 0))).
      intros m Hm. destruct (HC m j k Hm Hj Hk) as (CV & CS). apply cv_mult; [apply cv_const|].
      apply cv_normal; [now apply W| |].
      * apply cv_mult; [apply cv_const|]. apply cv_plus; [apply cv_const|]. apply cv_div; [lra|exact CV|apply cv_const].
      * apply cv_mult; [apply cv_div; [lra|exact CS|apply cv_const]|apply cv_const].
Qed.
