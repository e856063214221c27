(* Proofs about the 1-D aperture models: averaging, grid and weights. *)
From Coq Require Import Reals List Bool Arith ZArith Lia Lra Psatz.
From Verif Require Import PyFloat PyBase Arr PyNum MKernels MAper2D MProf MAper1D SKernels
  PKernels PKernels2 PProf.
Import ListNotations.
Local Open Scope R_scope.

(** Image [A] is finite, image [B] is finite and positive, and [A] lies between [lo] and [hi]
    times [B]. *)
Definition dom (lo hi : R) (A B : arr2 fl) : Prop :=
  rows A = rows B /\ cols A = cols B /\
  forall j i, (j < rows B)%nat -> (i < cols B)%nat ->
    exists a b, at2 A j i = Fin a /\ at2 B j i = Fin b /\ 0 < b /\ lo * b <= a <= hi * b.

Lemma dom_val lo hi A B j i : dom lo hi A B -> (j < rows B)%nat -> (i < cols B)%nat ->
  at2 A j i = Fin (val2 A j i) /\ at2 B j i = Fin (val2 B j i) /\ 0 < val2 B j i /\
  lo * val2 B j i <= val2 A j i <= hi * val2 B j i.
Proof.
  intros (H0 & H1 & H) Hj Hi. destruct (H j i Hj Hi) as (a & b & E & F & Hb & Hab).
  unfold val2. rewrite E, F. cbn [val]. auto.
Qed.

Lemma dom_finite lo hi A B : dom lo hi A B -> finite2 A /\ finite2 B.
Proof.
  intros D. pose proof D as (H0 & H1 & _). split; intros j i Hj Hi.
  - rewrite (proj1 (dom_val _ _ _ _ j i D ltac:(lia) ltac:(lia))). reflexivity.
  - rewrite (proj1 (proj2 (dom_val _ _ _ _ j i D Hj Hi))). reflexivity.
Qed.

Lemma rsum2_le n m f g :
  (forall i j, (i < n)%nat -> (j < m)%nat -> f i j <= g i j) -> rsum2 n m f <= rsum2 n m g.
Proof. intros H. apply rsumn_le. intros i Hi. apply rsumn_le. intros j Hj. auto. Qed.

Lemma rsum2_pos n m f : (forall i j, (i < n)%nat -> (j < m)%nat -> 0 <= f i j) ->
  (exists i j, (i < n)%nat /\ (j < m)%nat /\ 0 < f i j) -> 0 < rsum2 n m f.
Proof.
  intros H (i & j & Hi & Hj & Hp). apply rsumn_pos.
  - intros. apply rsumn_nonneg. intros. auto.
  - exists i. split; auto. apply rsumn_pos; [intros; auto|]. exists j. auto.
Qed.

(** A kernel that can blur: non-negative with a positive central sample. *)
Definition blur (k : arr2 fl) : Prop :=
  nonneg2 k /\ (0 < rows k)%nat /\ (0 < cols k)%nat /\
  0 < val2 k ((rows k - 1) / 2) ((cols k - 1) / 2).

Lemma conv_dom lo hi A B k : dom lo hi A B -> blur k -> dom lo hi (conv2 A k) (conv2 B k).
Proof.
  intros D (Hk & Hr & Hc & Hp). pose proof D as (E0 & E1 & _).
  destruct (dom_finite _ _ _ _ D) as [FA FB].
  destruct (conv2_dims A k) as [a0 a1]. destruct (conv2_dims B k) as [b0 b1].
  split; [congruence|]. split; [congruence|]. rewrite b0, b1. intros j i Hj Hi.
  exists (rconv2 A k j i), (rconv2 B k j i).
  rewrite !conv2_Fin by (auto using nonneg2_finite).
  split; [reflexivity|]. split; [reflexivity|].
  unfold rconv2. rewrite E0, E1. split.
  - apply rsum2_pos.
    + intros p q P Q. destruct (dom_val _ _ _ _ p q D P Q) as (_ & _ & Bp & _).
      apply Rmult_le_pos; [lra|]. now apply ker2_nonneg.
    + exists j, i. split; [auto|]. split; [auto|].
      destruct (dom_val _ _ _ _ j i D Hj Hi) as (_ & _ & Bp & _).
      unfold ker2. rewrite !same_idx_diag by auto. apply Rmult_lt_0_compat; auto.
  - rewrite <- !rsum2_scal. split; apply rsum2_le; intros p q P Q;
      destruct (dom_val _ _ _ _ p q D P Q) as (_ & _ & Bp & Hb);
      pose proof (ker2_nonneg k j i p q Hk); nra.
Qed.

Lemma sub_dom lo hi A B y0 y1 x0 x1 : dom lo hi A B ->
  dom lo hi (sub2z A y0 y1 x0 x1) (sub2z B y0 y1 x0 x1).
Proof.
  intros (E0 & E1 & H). unfold dom, sub2z. cbn [rows cols at2]. rewrite E0, E1.
  split; [reflexivity|]. split; [reflexivity|]. intros j i Hj Hi.
  assert (forall n z, (slice_bound n z <= n)%nat) as SB.
  { intros n z. unfold slice_bound. destruct (Z.ltb_spec z 0); lia. }
  pose proof (SB (rows B) y1). pose proof (SB (cols B) x1).
  apply H; lia.
Qed.

(** The row weights are finite and positive. *)
Definition rw (ps : R) (nr j : nat) : R :=
  exp (- ((INR j - (INR nr - 1) / 2) / ps * ((INR j - (INR nr - 1) / 2) / ps)) / 2) / sqrt (2 * PI) / ps.

Lemma norm_pdf_Fin x s : 0 < s ->
  norm_pdf (Fin x) (Fin s) = Fin (exp (- ((x / s) * (x / s)) / 2) / sqrt (2 * PI) / s).
Proof.
  intros H. unfold norm_pdf. cbn [fltb]. rewrite (proj2 (Rltb_true 0 s)) by auto.
  rewrite (fdiv_Fin x) by lra. unfold fsq. cbn [fmul fneg].
  rewrite (fdiv_Fin _ 2) by lra. cbn [fexp].
  assert (0 < sqrt (2 * PI)) by (apply sqrt_lt_R0; pose proof PI_RGT_0; lra).
  rewrite fdiv_Fin by lra. rewrite fdiv_Fin by lra. reflexivity.
Qed.

Lemma rsum_seq n f : rsum (map f (seq 0 n)) = rsumn n f.
Proof.
  induction n as [|n IH]; [reflexivity|]. rewrite seq_S, map_app. simpl.
  rewrite <- IH. generalize (map f (seq 0 n)). intros l. induction l; simpl; [lra|].
  unfold rsum in *. simpl. rewrite IHl. ring.
Qed.

Lemma lnth_map_seq (f : nat -> fl) n j : (j < n)%nat -> lnth (map f (seq 0 n)) j = f j.
Proof.
  intros H. unfold lnth. rewrite nth_indep with (d' := f 0%nat) by (now rewrite map_length, seq_length).
  rewrite map_nth. now rewrite seq_nth by auto.
Qed.

(** Profile width of the optimal extraction in samples. *)
Lemma prof_width ew dy : 0 < ew -> 0 < dy ->
  fdiv (fdiv (fmul (Fin (1/2)) (Fin ew)) (Fin dy)) (Fin fwhm_factor) = Fin (1/2 * ew / dy / fwhm_factor) /\
  0 < 1/2 * ew / dy / fwhm_factor.
Proof.
  intros He Hy. pose proof fwhm_factor_pos as Hf. cbn [fmul].
  rewrite !fdiv_Fin by lra. split; [reflexivity|].
  assert (0 < 1/2 * ew / dy) by (apply Rdiv_lt_0_compat; lra).
  apply Rdiv_lt_0_compat; lra.
Qed.

Lemma row_weights_pos m ew dy nr : 0 < ew -> 0 < dy -> (0 < nr)%nat -> m <> OtherMethod ->
  exists l (w : nat -> R), row_weights m (Fin ew) (Fin dy) nr = Ok l /\ length l = nr /\
    (forall j, (j < nr)%nat -> lnth l j = Fin (w j) /\ 0 < w j) /\
    (m = Optimal -> rsumn nr w = 1 /\
       forall j, (j < nr)%nat -> w j = rw (1/2 * ew / dy / fwhm_factor) nr j /
                                       rsumn nr (rw (1/2 * ew / dy / fwhm_factor) nr)) /\
    (m = Boxcar -> forall j, w j = 1).
Proof.
  intros He Hy Hn Hm. destruct m; [| |congruence].
  - destruct (prof_width ew dy He Hy) as [E P]. set (ps := 1/2 * ew / dy / fwhm_factor) in *.
    cbn [row_weights]. rewrite E.
    set (g := map (fun j => norm_pdf (Fin (INR j - (INR nr - 1) / 2)) (Fin ps)) (seq 0 nr)).
    assert (G : g = map (fun j => Fin (rw ps nr j)) (seq 0 nr)).
    { apply map_ext. intros j. now rewrite norm_pdf_Fin. }
    assert (PP : forall j, 0 < rw ps nr j).
    { intros j. unfold rw. assert (0 < sqrt (2 * PI)) by (apply sqrt_lt_R0; pose proof PI_RGT_0; lra).
      apply Rdiv_lt_0_compat; auto. apply Rdiv_lt_0_compat; auto. apply exp_pos. }
    assert (SP : 0 < rsumn nr (rw ps nr)).
    { apply rsumn_pos; [intros; left; auto|]. exists 0%nat. auto. }
    assert (S : fsum g = Fin (rsumn nr (rw ps nr))).
    { rewrite G. rewrite <- rsum_seq. rewrite <- map_map. now rewrite fsum_Fin. }
    rewrite S. exists (map (fun v => fdiv v (Fin (rsumn nr (rw ps nr)))) g), (fun j => rw ps nr j / rsumn nr (rw ps nr)).
    split; [reflexivity|]. split; [unfold g; now rewrite !map_length, seq_length|].
    split.
    { intros j Hj. rewrite G, map_map. rewrite lnth_map_seq by auto. rewrite fdiv_Fin by lra.
      split; auto. apply Rdiv_lt_0_compat; auto. }
    split; [|discriminate]. intros _. split; auto.
    unfold Rdiv. rewrite rsumn_scal_r. field. lra.
  - cbn [row_weights]. exists (repeat (Fin 1) nr), (fun _ => 1). split; [reflexivity|].
    split; [apply repeat_length|]. split; [|split; [discriminate|reflexivity]].
    intros j Hj. split; [|lra]. unfold lnth. rewrite nth_indep with (d' := Fin 1) by (now rewrite repeat_length).
    apply nth_repeat.
Qed.

(** The weighted sum is an average. *)
Lemma aperture_average m ew dx dy A B lo hi :
  0 < ew -> 0 < dx -> 0 < dy -> m <> OtherMethod -> (0 < rows B)%nat -> (0 < cols B)%nat ->
  0 <= lo -> dom lo hi A B ->
  exists s, aperture_sigma m (Fin ew) (Fin dx) (Fin dy) A B = Ok (Fin s) /\ 0 <= s /\
    lo <= s * s <= hi /\
    exists w, (forall j, (j < rows B)%nat -> 0 < w j) /\
      (m = Boxcar -> forall j, w j = 1) /\
      (m = Optimal -> forall j, (j < rows B)%nat ->
         w j = rw (1/2 * ew / dy / fwhm_factor) (rows B) j /
               rsumn (rows B) (rw (1/2 * ew / dy / fwhm_factor) (rows B))) /\
      s * s = rsum2 (rows B) (cols B) (fun j i => w j * val2 A j i) /
              rsum2 (rows B) (cols B) (fun j i => w j * val2 B j i).
Proof.
  intros He Hx Hy Hm Hr Hc Hlo D.
  destruct (row_weights_pos m ew dy (rows B) He Hy Hr Hm) as (l & w & E & L & W & WO & WB).
  unfold aperture_sigma. rewrite E. cbn [bind].
  pose proof D as (E0 & E1 & _).
  set (k := dx * dy).
  assert (Hk : 0 < k) by (unfold k; nra).
  assert (T : forall C, finite2 C -> rows C = rows B -> cols C = cols B ->
    sum2 (mk2 (rows C) (cols C) (fun j i => fmul (fmul (fmul (at2 C j i) (lnth l j)) (Fin dx)) (Fin dy))) =
    Fin (k * rsum2 (rows B) (cols B) (fun j i => w j * val2 C j i))).
  { intros C FC C0 C1. erewrite sum2_Fin with (f := fun j i => k * (w j * val2 C j i)).
    - cbn [rows cols]. rewrite C0, C1, rsum2_scal. reflexivity.
    - cbn [rows cols at2]. intros j i Hj Hi. rewrite C0 in Hj.
      rewrite (proj1 (W j Hj)). rewrite (finite_val (at2 C j i)) by (apply FC; congruence).
      cbn [fmul]. f_equal. unfold k, val2. ring. }
  destruct (dom_finite _ _ _ _ D) as [FA FB].
  rewrite (T A FA E0 E1), (T B FB eq_refl eq_refl).
  set (SA := rsum2 (rows B) (cols B) (fun j i => w j * val2 A j i)).
  set (SB := rsum2 (rows B) (cols B) (fun j i => w j * val2 B j i)).
  assert (PB : 0 < SB).
  { apply rsum2_pos.
    - intros j i Hj Hi. destruct (dom_val _ _ _ _ j i D Hj Hi) as (_ & _ & P & _).
      pose proof (proj2 (W j Hj)). nra.
    - exists 0%nat, 0%nat. split; [auto|]. split; [auto|].
      destruct (dom_val _ _ _ _ 0%nat 0%nat D Hr Hc) as (_ & _ & P & _).
      pose proof (proj2 (W 0%nat Hr)). nra. }
  assert (LO : lo * SB <= SA).
  { unfold SA, SB. rewrite <- rsum2_scal. apply rsum2_le. intros j i Hj Hi.
    destruct (dom_val _ _ _ _ j i D Hj Hi) as (_ & _ & P & Q). pose proof (proj2 (W j Hj)). nra. }
  assert (HI : SA <= hi * SB).
  { unfold SA, SB. rewrite <- rsum2_scal. apply rsum2_le. intros j i Hj Hi.
    destruct (dom_val _ _ _ _ j i D Hj Hi) as (_ & _ & P & Q). pose proof (proj2 (W j Hj)). nra. }
  assert (PA : 0 <= SA) by nra.
  rewrite fdiv_Fin by nra.
  assert (Q : k * SA / (k * SB) = SA / SB) by (field; lra). rewrite Q.
  assert (QP : 0 <= SA / SB) by (apply Rmult_le_pos; [lra|left; apply Rinv_0_lt_compat; lra]).
  cbn [fsqrt]. rewrite (proj2 (Rltb_false _ _)) by lra.
  exists (sqrt (SA / SB)). split; [reflexivity|]. split; [apply sqrt_pos|].
  rewrite sqrt_sqrt by auto. split.
  - split; [apply Rmult_le_reg_r with SB|apply Rmult_le_reg_r with SB]; auto;
      unfold Rdiv; rewrite Rmult_assoc, Rinv_l by lra; lra.
  - exists w. split; [intros; apply W; auto|]. split; [auto|]. split; [|reflexivity].
    intros M. apply (WO M).
Qed.

(** Blurring as the code does it. *)
Definition sees (fwhm : R) (st : stamp) : Prop :=
  fwhm <= 0 \/ exists k, st = Stamp2 k /\ blur k.

Lemma see_dom lo hi A B fwhm st : dom lo hi A B -> (0 < rows B)%nat -> (0 < cols B)%nat ->
  sees fwhm st ->
  exists A' B', PSF_convolve_flat A (Fin fwhm) st = Ok (Some A') /\
    PSF_convolve_flat B (Fin fwhm) st = Ok (Some B') /\ dom lo hi A' B' /\
    rows B' = rows B /\ cols B' = cols B /\ (fwhm <= 0 -> A' = A /\ B' = B).
Proof.
  intros D Hr Hc [H|(k & -> & K)].
  - exists A, B. unfold PSF_convolve_flat. unfold fgtb. cbn [fltb].
    rewrite (proj2 (Rltb_false _ _)) by lra. repeat split; auto; apply D.
  - unfold PSF_convolve_flat, fgtb. cbn [fltb].
    destruct (Rltb 0 fwhm) eqn:E.
    + apply Rltb_true in E. pose proof D as (E0 & E1 & _). pose proof K as (_ & K1 & K2 & _).
      assert (S : forall C : arr2 fl, rows C = rows B -> cols C = cols B -> Nat.eqb (size2 C) 0 || Nat.eqb (size2 k) 0 = false).
      { intros C C0 C1. unfold size2. rewrite C0, C1. apply orb_false_iff. split; apply Nat.eqb_neq; nia. }
      rewrite (S A E0 E1), (S B eq_refl eq_refl).
      exists (conv2 A k), (conv2 B k). split; [reflexivity|]. split; [reflexivity|].
      split; [now apply conv_dom|]. destruct (conv2_dims B k) as [b0 b1].
      split; [auto|]. split; [auto|]. intros; lra.
    + apply Rltb_false in E. exists A, B. repeat split; auto; apply D.
Qed.
