From Coq Require Import Reals Lra List Bool Arith ZArith Lia.
From Verif Require Import PyFloat PyBase Arr PyNum MParams MKernels MAper2D SKernels SLine PKernels PKernels2 PAper1D PAper2DGeo PLos PAper2DGrid PAper2DShape PAper2DOk PLine.
Import ListNotations.
Local Open Scope R_scope.

(* cubes and images with light in every spectrum *)
Definition lit3 (a : arr3 fl) : Prop :=
  nonneg3 a /\ forall j k, (j < dim1 a)%nat -> (k < dim2 a)%nat -> exists w x, (w < dim0 a)%nat /\ at3 a w j k = Fin x /\ 0 < x.
Definition lit2 (a : arr2 fl) : Prop :=
  nonneg2 a /\ forall j, (j < cols a)%nat -> exists w x, (w < rows a)%nat /\ at2 a w j = Fin x /\ 0 < x.

Lemma fsumn_nonneg n f : (forall i, (i < n)%nat -> exists x, f i = Fin x /\ 0 <= x) -> exists x, fsumn n f = Fin x /\ 0 <= x.
Proof.
  intros H. exists (rsumn n (fun i => val (f i))). split.
  - apply fsumn_Fin. intros i Hi. destruct (H i Hi) as (x & -> & _). reflexivity.
  - apply rsumn_nonneg. intros i Hi. destruct (H i Hi) as (x & -> & Hx). exact Hx.
Qed.
Lemma fsumn_positive n f : (forall i, (i < n)%nat -> exists x, f i = Fin x /\ 0 <= x) ->
  (exists i x, (i < n)%nat /\ f i = Fin x /\ 0 < x) -> exists x, fsumn n f = Fin x /\ 0 < x.
Proof.
  intros H (k & y & Hk & Ek & Hy). exists (rsumn n (fun i => val (f i))). split.
  - apply fsumn_Fin. intros i Hi. destruct (H i Hi) as (x & -> & _). reflexivity.
  - apply rsumn_pos; [|exists k; split; [exact Hk|now rewrite Ek]]. intros i Hi. destruct (H i Hi) as (x & -> & Hx). exact Hx.
Qed.
Lemma fmul_nonneg a b : (exists x, a = Fin x /\ 0 <= x) -> (exists x, b = Fin x /\ 0 <= x) -> exists x, fmul a b = Fin x /\ 0 <= x.
Proof. intros (x & -> & Hx) (y & -> & Hy). exists (x * y). split; [reflexivity|now apply Rmult_le_pos]. Qed.
Lemma fmul_positive a b : (exists x, a = Fin x /\ 0 < x) -> (exists x, b = Fin x /\ 0 < x) -> exists x, fmul a b = Fin x /\ 0 < x.
Proof. intros (x & -> & Hx) (y & -> & Hy). exists (x * y). split; [reflexivity|now apply Rmult_lt_0_compat]. Qed.
Lemma weaken v : (exists x, v = Fin x /\ 0 < x) -> exists x, v = Fin x /\ 0 <= x.
Proof. intros (x & -> & H). exists x. split; [reflexivity|lra]. Qed.

Lemma normal_pos mu s x : 0 < s -> 0 < normal mu s x.
Proof.
  intros H. unfold normal. apply Rdiv_lt_0_compat; [apply exp_pos|]. apply Rmult_lt_0_compat; [exact H|]. apply sqrt_lt_R0.
  pose proof PI_RGT_0. lra.
Qed.

(* ---- the cube, both branches ---- *)
Lemma gauss_lit (IA VA SA : arr3 fl) (I4 W4 : arr4 fl) (x rest ratio : list R) z nZ nY nX dz cube :
  let nW := length x in
  (dim0 SA = nZ /\ dim1 SA = nY /\ dim2 SA = nX) ->
  (forall m j k, (m < nZ)%nat -> (j < nY)%nat -> (k < nX)%nat ->
     (exists v, at3 VA m j k = Fin v) /\ (exists s, at3 SA m j k = Fin s /\ 0 < s) /\
     exists i, 0 < i /\ forall w, (w < nW)%nat -> at4 I4 w m j k = Fin i /\ at4 W4 w m j k = Fin (nth w x 0)) ->
  (0 < nZ)%nat -> (0 < nY)%nat -> (0 < nX)%nat -> (0 < nW)%nat -> 0 < 1 + z -> 0 < dz ->
  (forall l, In l rest -> 0 < l) -> (forall l, In l ratio -> 0 < l) -> rest <> [] ->
  dim0 cube = nW -> dim1 cube = nY -> dim2 cube = nX ->
  add_sigma_collapse_z IA VA SA (map Fin x) (Fin z) (map Fin rest) (map Fin ratio) nW nZ nY nX (Fin dz) I4 W4 Wave = Ok cube ->
  lit3 cube.
Proof.
  intros nW Hd H HZ HY HX HW Hz Hdz Hr Hra Ne E0 E1 E2 E. pose proof c_kms_pos as Hc.
  set (I := fun m j k => val (at4 I4 0 m j k)). set (V := fun m j k => val (at3 VA m j k)). set (s := fun m j k => val (at3 SA m j k)).
  assert (Q : forall m j k, (m < nZ)%nat -> (j < nY)%nat -> (k < nX)%nat ->
     at3 VA m j k = Fin (V m j k) /\ (at3 SA m j k = Fin (s m j k) /\ 0 < s m j k) /\ 0 < I m j k /\
     forall w, (w < nW)%nat -> at4 I4 w m j k = Fin (I m j k) /\ at4 W4 w m j k = Fin (nth w x 0)).
  { intros m j k Hm Hj Hk. destruct (H m j k Hm Hj Hk) as ((v & Ev) & (t & Es & Ht) & i & Hi & HI). unfold V, s, I. rewrite Ev, Es, (proj1 (HI 0%nat HW)). cbn [val].
    repeat split; auto; apply HI; auto. }
  destruct (cube_value_in I V s IA VA SA I4 W4 x rest ratio z nZ nY nX dz cube) as (Lr & C); auto.
  { intros m j k Hm Hj Hk. destruct (Q m j k Hm Hj Hk) as (A & (B & C) & _ & D). repeat split; auto; try lra; apply D; auto. }
  { lra. } { intros l Hl. specialize (Hr l Hl). lra. }
  assert (P : forall w j k, (w < nW)%nat -> (j < nY)%nat -> (k < nX)%nat -> exists v, at3 cube w j k = Fin v /\ 0 < v).
  { intros w j k Hw Hj Hk. rewrite C by auto. eexists. split; [reflexivity|].
    assert (T : forall i, (i < length rest)%nat -> 0 < nth i ratio 0 * (dz * rsumn nZ (fun m =>
          I m j k * normal (nth i rest 0 * (1 + z) * (1 + V m j k / c_kms)) (s m j k / c_kms * (nth i rest 0 * (1 + z))) (nth w x 0)))).
    { intros i Hi. assert (R0 : 0 < nth i rest 0) by (apply Hr, nth_In; exact Hi). assert (R1 : 0 < nth i ratio 0) by (apply Hra, nth_In; lia).
      apply Rmult_lt_0_compat; [exact R1|]. apply Rmult_lt_0_compat; [exact Hdz|].
      assert (U : forall m, (m < nZ)%nat -> 0 < I m j k * normal (nth i rest 0 * (1 + z) * (1 + V m j k / c_kms)) (s m j k / c_kms * (nth i rest 0 * (1 + z))) (nth w x 0)).
      { intros m Hm. destruct (Q m j k Hm Hj Hk) as (_ & (_ & Sp) & Ip & _). apply Rmult_lt_0_compat; [exact Ip|]. apply normal_pos.
        apply Rmult_lt_0_compat; [apply Rdiv_lt_0_compat; auto|apply Rmult_lt_0_compat; auto]. }
      apply rsumn_pos; [intros m Hm; apply Rlt_le, U, Hm|exists 0%nat; split; [exact HZ|apply U, HZ]]. }
    apply rsumn_pos; [intros i Hi; apply Rlt_le, T, Hi|]. exists 0%nat. assert (0 < length rest)%nat by (destruct rest; [congruence|cbn; lia]). split; [lia|now apply T]. }
  split.
  - intros w j k Hw Hj Hk. apply weaken, P; lia.
  - intros j k Hj Hk. destruct (P 0%nat j k HW) as (v & Ev & Hv); try lia. exists 0%nat, v. split; [lia|]. now split.
Qed.

Lemma narrow_lit (IA VA SA : arr3 fl) (I4 W4 : arr4 fl) (x : list fl) (rest ratio : list R) z nW nZ nY nX dz cube :
  length x = nW -> (0 < nW)%nat ->
  (forall v, In v (flat_list3 SA) -> v = Fin 0) ->
  (forall m j k, (m < nZ)%nat -> (j < nY)%nat -> (k < nX)%nat -> exists i, at3 IA m j k = Fin i /\ 0 < i) ->
  (0 < nZ)%nat -> 0 < dz -> (forall l, In l ratio -> 0 < l) -> rest <> [] -> (length rest <= length ratio)%nat ->
  dim0 cube = nW -> dim1 cube = nY -> dim2 cube = nX ->
  add_sigma_collapse_z IA VA SA x z (map Fin rest) (map Fin ratio) nW nZ nY nX (Fin dz) I4 W4 Wave = Ok cube ->
  lit3 cube.
Proof.
  intros Hx HW Hs HI HZ Hdz Hra Ne Lr E0 E1 E2 E.
  assert (C := collapse_zero_sigma _ _ _ _ _ _ _ _ _ _ _ _ _ _ _ Hs E). rewrite map_length in C.
  assert (Ne' : map Fin rest <> []) by (destruct rest; [congruence|discriminate]). specialize (C Ne').
  assert (R : forall i, (i < length rest)%nat -> exists y, lnth (map Fin ratio) i = Fin y /\ 0 < y).
  { intros i Hi. rewrite lnth_map by lia. eexists. split; [reflexivity|]. apply Hra, nth_In. lia. }
  assert (cell : forall lam0 w j k m, (m < nZ)%nat -> (j < nY)%nat -> (k < nX)%nat -> exists y,
     (let lam := fmul lam0 (fadd (Fin 1) (fdiv (at3 VA m j k) (Fin c_kms))) in
      let best := argmin_ (length x - 1) (fun i => fabs (fsub lam (lnth x i))) in
      if Nat.eqb best w then fmul (at3 IA m j k) (Fin dz) else Fin 0) = Fin y /\ 0 <= y).
  { intros lam0 w j k m Hm Hj Hk. cbv zeta. destruct (Nat.eqb _ w); [|exists 0; split; [reflexivity|lra]].
    apply fmul_nonneg; [apply weaken; auto|exists dz; split; [reflexivity|lra]]. }
  split.
  - intros w j k Hw Hj Hk. rewrite C. apply fsumn_nonneg. intros i Hi. apply fmul_nonneg; [|apply weaken, R, Hi].
    unfold I_simple_collapse. cbn [at3]. apply fsumn_nonneg. intros m Hm. apply cell; lia.
  - intros j k Hj Hk. rewrite E1 in Hj. rewrite E2 in Hk. assert (L0 : (0 < length rest)%nat) by (destruct rest; [congruence|cbn; lia]).
    set (best := argmin_ (length x - 1) (fun i => fabs (fsub (fmul (fmul (lnth (map Fin rest) 0) (fadd (Fin 1) z)) (fadd (Fin 1) (fdiv (at3 VA 0 j k) (Fin c_kms)))) (lnth x i)))).
    assert (B : (best <= length x - 1)%nat) by apply argmin_le.
    destruct (fsumn_positive (length rest) (fun i => fmul (at3 (I_simple_collapse IA VA x nW nZ nY nX (Fin dz) (fmul (lnth (map Fin rest) i) (fadd (Fin 1) z))) best j k) (lnth (map Fin ratio) i))) as (v & Ev & Hv).
    + intros i Hi. apply fmul_nonneg; [|apply weaken, R, Hi]. unfold I_simple_collapse. cbn [at3]. apply fsumn_nonneg. intros m Hm. apply cell; lia.
    + exists 0%nat.
      destruct (fmul_positive (at3 (I_simple_collapse IA VA x nW nZ nY nX (Fin dz) (fmul (lnth (map Fin rest) 0) (fadd (Fin 1) z))) best j k) (lnth (map Fin ratio) 0)) as (y & Ey & Hy).
      * unfold I_simple_collapse. cbn [at3]. apply fsumn_positive; [intros m Hm; apply cell; lia|]. exists 0%nat. cbv zeta. fold best. rewrite Nat.eqb_refl.
        destruct (fmul_positive (at3 IA 0 j k) (Fin dz)) as (y & Ey & Hy); [apply HI; lia|exists dz; split; [reflexivity|exact Hdz]|]. exists y. now split.
      * apply R, L0.
      * exists y. now split.
    + exists best, v. split; [lia|]. split; [|exact Hv]. rewrite C. exact Ev.
Qed.

(* ---- the PSF ---- *)
Lemma rconv3_centre cube ker w i j : nonneg3 cube -> nonneg3 ker -> (0 < dim0 ker)%nat -> (0 < dim1 ker)%nat -> (0 < dim2 ker)%nat ->
  (w < dim0 cube)%nat -> (i < dim1 cube)%nat -> (j < dim2 cube)%nat ->
  val3 cube w i j * val3 ker ((dim0 ker - 1) / 2) ((dim1 ker - 1) / 2) ((dim2 ker - 1) / 2) <= rconv3 cube ker w i j.
Proof.
  intros Ha Hk H0 H1 H2 Hw Hi Hj. unfold rconv3, rsum3.
  assert (NN : forall v p q, (v < dim0 cube)%nat -> (p < dim1 cube)%nat -> (q < dim2 cube)%nat -> 0 <= val3 cube v p q * ker3 ker w i j v p q).
  { intros. apply Rmult_le_pos; [now apply nonneg3_val|now apply ker3_nonneg]. }
  eapply Rle_trans; [|apply (rsumn_ge_term (dim0 cube) _ w Hw); intros; apply rsumn_nonneg; intros; apply rsumn_nonneg; intros; auto]. cbv beta.
  eapply Rle_trans; [|apply (rsumn_ge_term (dim1 cube) _ i Hi); intros; apply rsumn_nonneg; intros; auto]. cbv beta.
  eapply Rle_trans; [|apply (rsumn_ge_term (dim2 cube) _ j Hj); intros; auto]. cbv beta.
  unfold ker3. rewrite !same_idx_diag by auto. lra.
Qed.

Lemma half_lt n : (0 < n)%nat -> ((n - 1) / 2 < n)%nat.
Proof. intros H. assert ((n - 1) / 2 <= n - 1)%nat by (apply Nat.div_le_upper_bound; lia). lia. Qed.

Lemma psf_lit cube ker fwhm out : lit3 cube -> (0 < dim0 cube)%nat -> (0 < dim1 cube)%nat -> (0 < dim2 cube)%nat ->
  (forall i j k, (i < dim0 ker)%nat -> (j < dim1 ker)%nat -> (k < dim2 ker)%nat -> exists v, at3 ker i j k = Fin v /\ 0 < v) ->
  (0 < dim0 ker)%nat -> (0 < dim1 ker)%nat -> (0 < dim2 ker)%nat ->
  PSF_convolve cube (Fin fwhm) (Stamp3 ker) = Ok (Some out) -> lit3 out.
Proof.
  intros (Nc & Lc) C0 C1 C2 Kp K0 K1 K2 E.
  destruct (fgtb (Fin fwhm) (Fin 0)) eqn:G.
  2:{ unfold PSF_convolve in E. rewrite G in E. injection E as <-. now split. }
  assert (Nk : nonneg3 ker) by (intros i j k Hi Hj Hk; apply weaken; auto).
  assert (Pos : 0 < val3 ker ((dim0 ker - 1) / 2) ((dim1 ker - 1) / 2) ((dim2 ker - 1) / 2)).
  { unfold val3. destruct (Kp ((dim0 ker - 1) / 2)%nat ((dim1 ker - 1) / 2)%nat ((dim2 ker - 1) / 2)%nat) as (v & -> & Hv); auto using half_lt. }
  assert (Tp : 0 < total3 cube).
  { apply rsum3_pos; [intros; now apply nonneg3_val|]. destruct (Lc 0%nat 0%nat C1 C2) as (w & v & Hw & Ev & Hv).
    exists w, 0%nat, 0%nat. repeat split; auto. unfold val3. now rewrite Ev. }
  assert (Tc : 0 < total3 (conv3 cube ker)) by (apply conv3_positive; auto).
  destruct (PSF_convolve_value cube ker (Fin fwhm) G) as (o & Eo & D0 & D1 & D2 & Vo).
  { now apply nonneg3_finite. } { now apply nonneg3_finite. } { unfold size3. nia. } { unfold size3. nia. } { lra. }
  rewrite Eo in E. injection E as <-.
  assert (Q : 0 < total3 cube / total3 (conv3 cube ker)) by (apply Rdiv_lt_0_compat; auto).
  split.
  - intros i j k Hi Hj Hk. rewrite Vo. eexists. split; [reflexivity|]. apply Rmult_le_pos; [now apply rconv3_nonneg|lra].
  - rewrite D0, D1, D2. intros j k Hj Hk. destruct (Lc j k Hj Hk) as (w & v & Hw & Ev & Hv). exists w. eexists. split; [exact Hw|]. rewrite Vo. split; [reflexivity|].
    apply Rmult_lt_0_compat; [|exact Q]. eapply Rlt_le_trans; [|now apply rconv3_centre]. apply Rmult_lt_0_compat; [|exact Pos]. unfold val3. now rewrite Ev.
Qed.

(* ---- rebinning ---- *)
Lemma rebin_lit a m n f0 f1 b : lit2 a -> (0 < m)%nat -> (0 < n)%nat -> (0 < f1)%nat -> rows a = (m * f0)%nat -> cols a = (n * f1)%nat ->
  rebin2 a m n = Ok b -> lit2 b.
Proof.
  intros (Na & La) Hm Hn Hf1 Hr Hc E. destruct (rebin2_blocks a m n f0 f1 Hm Hn Hr Hc) as (b' & E' & Rb & Cb & V). rewrite E' in E. injection E as ->.
  assert (B : forall i j p q, (i < m)%nat -> (j < n)%nat -> (p < f0)%nat -> (q < f1)%nat -> exists x, at2 a (i * f0 + p) (j * f1 + q) = Fin x /\ 0 <= x).
  { intros i j p q Hi Hj Hp Hq. apply Na; [rewrite Hr|rewrite Hc]; nia. }
  split.
  - intros i j Hi Hj. rewrite Rb in Hi. rewrite Cb in Hj. rewrite V by auto. unfold block_sum. apply fsumn_nonneg. intros p Hp. apply fsumn_nonneg. intros q Hq. auto.
  - intros j Hj. rewrite Cb in Hj. rewrite Rb. destruct (La (j * f1)%nat) as (w & x & Hw & Ex & Hx). { rewrite Hc. nia. }
    rewrite Hr in Hw. assert (F0 : (f0 <> 0)%nat) by nia. exists (w / f0)%nat.
    assert (W1 : (w / f0 < m)%nat) by (apply Nat.div_lt_upper_bound; lia). assert (W2 : (w mod f0 < f0)%nat) by (apply Nat.mod_upper_bound; exact F0).
    rewrite V by auto. unfold block_sum.
    destruct (fsumn_positive f0 (fun p => fsumn f1 (fun q => at2 a (w / f0 * f0 + p) (j * f1 + q)))) as (y & Ey & Hy).
    + intros p Hp. apply fsumn_nonneg. intros q Hq. auto.
    + exists (w mod f0). destruct (fsumn_positive f1 (fun q => at2 a (w / f0 * f0 + w mod f0) (j * f1 + q))) as (y & Ey & Hy).
      * intros q Hq. auto.
      * exists 0%nat, x. split; [exact Hf1|]. split; [|exact Hx]. rewrite Nat.add_0_r, (Nat.mul_comm (w / f0) f0), <- Nat.div_mod by exact F0. exact Ex.
      * exists y. now split.
    + exists y. split; [exact W1|]. now split.
Qed.

(* ---- instrument broadening ---- *)
Lemma rconv2_centre a ker i j : nonneg2 a -> nonneg2 ker -> (0 < rows ker)%nat -> (0 < cols ker)%nat -> (i < rows a)%nat -> (j < cols a)%nat ->
  val2 a i j * val2 ker ((rows ker - 1) / 2) ((cols ker - 1) / 2) <= rconv2 a ker i j.
Proof.
  intros Ha Hk H0 H1 Hi Hj. unfold rconv2, rsum2.
  assert (NN : forall p q, (p < rows a)%nat -> (q < cols a)%nat -> 0 <= val2 a p q * ker2 ker i j p q).
  { intros. apply Rmult_le_pos; [now apply nonneg2_val|now apply ker2_nonneg]. }
  eapply Rle_trans; [|apply (rsumn_ge_term (rows a) _ i Hi); intros; apply rsumn_nonneg; intros; auto]. cbv beta.
  eapply Rle_trans; [|apply (rsumn_ge_term (cols a) _ j Hj); intros; auto]. cbv beta.
  unfold ker2. rewrite !same_idx_diag by auto. lra.
Qed.

Lemma inst_lit m wave s o : lit2 m -> (0 < rows m)%nat -> (0 < cols m)%nat -> s <> 0 -> wave <> [] ->
  inst_convol_complete m (map Fin wave) (IdwFloat (Fin s)) = Ok o -> lit2 o.
Proof.
  intros (Nm & Lm) R0 C0 Hs Hw E.
  destruct (inst_convol_value m wave s Hs Hw (nonneg2_finite _ Nm)) as (ker & Nk & Rk & Ck & Pk & E'). { unfold size2. nia. }
  rewrite E' in E. injection E as <-.
  assert (Pos : 0 < val2 ker ((rows ker - 1) / 2) ((cols ker - 1) / 2)).
  { rewrite Ck. change ((1 - 1) / 2)%nat with 0%nat. apply Pk, half_lt, Rk. }
  assert (Tp : 0 < total2 m).
  { apply rsum2_pos; [intros; now apply nonneg2_val|]. destruct (Lm 0%nat C0) as (w & v & Hv & Ev & Hp). exists w, 0%nat. repeat split; auto. unfold val2. now rewrite Ev. }
  assert (Tc : 0 < total2 (conv2 m ker)) by (apply conv2_positive; auto; lia).
  assert (Fm := nonneg2_finite _ Nm). assert (Fk := nonneg2_finite _ Nk).
  assert (Q : fdiv (sum2 m) (sum2 (conv2 m ker)) = Fin (total2 m / total2 (conv2 m ker))).
  { rewrite sum2_total by exact Fm. rewrite sum2_total by (now apply conv2_finite). apply fdiv_Fin. lra. }
  rewrite Q. destruct (conv2_dims m ker) as (D0 & D1).
  assert (Qp : 0 < total2 m / total2 (conv2 m ker)) by (apply Rdiv_lt_0_compat; auto).
  split.
  - intros i j Hi Hj. cbn [map2 rows cols at2] in *. rewrite conv2_Fin by auto. eexists. split; [reflexivity|]. apply Rmult_le_pos; [now apply rconv2_nonneg|lra].
  - cbn [map2 rows cols at2]. rewrite D0, D1. intros j Hj. destruct (Lm j Hj) as (w & v & Hv & Ev & Hp). exists w. eexists. split; [exact Hv|].
    rewrite conv2_Fin by auto. split; [reflexivity|]. apply Rmult_lt_0_compat; [|exact Qp]. eapply Rlt_le_trans; [|apply rconv2_centre; auto; lia].
    apply Rmult_lt_0_compat; [|exact Pos]. unfold val2. now rewrite Ev.
Qed.
