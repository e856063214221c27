(* Proofs about the analysis of a chain: percentiles. *)
From Coq Require Import String Reals List Bool Arith ZArith Lra Lia Sorted Permutation.
From Verif Require Import PyFloat PyBase Arr PyNum MParams SParams PParams MProf MPost SPost.
Import ListNotations.
Local Open Scope R_scope.

Fixpoint rinsert (x : R) (l : list R) : list R :=
  match l with [] => [x] | y :: l' => if Rleb x y then x :: l else y :: rinsert x l' end.
Definition rsort (l : list R) : list R := fold_right rinsert [] l.

Lemma finsert_Fin x l : finsert (Fin x) (map Fin l) = map Fin (rinsert x l).
Proof.
  induction l as [|y l IH]; [reflexivity|]. cbn [map finsert rinsert fleb]. destruct (Rleb x y); [reflexivity|].
  cbn [map]. now rewrite IH.
Qed.
Lemma fsort_Fin l : fsort (map Fin l) = map Fin (rsort l).
Proof. induction l as [|x l IH]; [reflexivity|]. cbn. unfold fsort in IH. rewrite IH. apply finsert_Fin. Qed.

Lemma rinsert_perm x l : Permutation (x :: l) (rinsert x l).
Proof.
  induction l as [|y l IH]; [reflexivity|]. cbn [rinsert]. destruct (Rleb x y); [reflexivity|].
  rewrite perm_swap. now constructor.
Qed.
Lemma rsort_perm l : Permutation l (rsort l).
Proof. induction l as [|x l IH]; [constructor|]. cbn. rewrite <- rinsert_perm. now constructor. Qed.
Lemma rinsert_sorted x l : StronglySorted Rle l -> StronglySorted Rle (rinsert x l).
Proof.
  induction 1 as [|y l S IH F]; [repeat constructor|]. cbn [rinsert]. destruct (Rleb x y) eqn:E.
  - apply Rleb_true in E. constructor; [now constructor|]. constructor; auto. eapply Forall_impl; [|exact F]. intros; lra.
  - apply Rleb_false in E. constructor; auto. eapply Permutation_Forall; [apply rinsert_perm|]. constructor; auto. lra.
Qed.
Lemma rsort_sorted l : StronglySorted Rle (rsort l).
Proof. induction l as [|x l IH]; [constructor|]. cbn. now apply rinsert_sorted. Qed.

Lemma sorted_unique s1 : forall s2, StronglySorted Rle s1 -> StronglySorted Rle s2 -> Permutation s1 s2 -> s1 = s2.
Proof.
  induction s1 as [|a s1 IH]; intros s2 H1 H2 P.
  - apply Permutation_nil in P. now subst.
  - destruct s2 as [|b s2]; [apply Permutation_sym, Permutation_nil in P; discriminate|].
    inversion_clear H1 as [|? ? S1 F1]. inversion_clear H2 as [|? ? S2 F2].
    assert (E : a = b).
    { assert (Ia : In a (b :: s2)) by (eapply Permutation_in; [exact P|now left]).
      assert (Ib : In b (a :: s1)) by (eapply Permutation_in; [apply Permutation_sym, P|now left]).
      rewrite Forall_forall in F1, F2. destruct Ia as [->|Ia]; auto. destruct Ib as [->|Ib]; auto.
      specialize (F1 _ Ib). specialize (F2 _ Ia). lra. }
    subst b. f_equal. apply IH; auto. now apply Permutation_cons_inv in P.
Qed.

Lemma sorted_nth s i j : StronglySorted Rle s -> (i <= j < length s)%nat -> nth i s 0 <= nth j s 0.
Proof.
  intros S. revert i j. induction S as [|a s S IH F]; intros i j H; [cbn in H; lia|].
  destruct i, j; cbn [nth]; try lra; try lia.
  - rewrite Forall_forall in F. apply F. apply nth_In. cbn in H. lia.
  - apply IH. cbn in H. lia.
Qed.

(** Piecewise linear interpolation between sorted samples is monotone. *)
Lemma interp_mono s k1 k2 t1 t2 : StronglySorted Rle s -> (k1 < length s)%nat -> (k2 < length s)%nat ->
  INR k1 <= t1 <= INR k1 + 1 -> INR k2 <= t2 <= INR k2 + 1 -> t1 <= t2 ->
  nth k1 s 0 + (t1 - INR k1) * (nth (Nat.min (S k1) (length s - 1)) s 0 - nth k1 s 0) <=
  nth k2 s 0 + (t2 - INR k2) * (nth (Nat.min (S k2) (length s - 1)) s 0 - nth k2 s 0).
Proof.
  intros S H1 H2 T1 T2 T.
  assert (M : forall i j, (i <= j < length s)%nat -> nth i s 0 <= nth j s 0) by (intros; now apply sorted_nth).
  set (n := (length s - 1)%nat).
  assert (D : forall k, (k < length s)%nat -> 0 <= nth (Nat.min (Datatypes.S k) n) s 0 - nth k s 0).
  { intros k Hk. specialize (M k (Nat.min (Datatypes.S k) n)). unfold n in *. lra || (assert (nth k s 0 <= nth (Nat.min (Datatypes.S k) (length s - 1)) s 0) by (apply M; lia); lra). }
  destruct (Nat.lt_trichotomy k1 k2) as [L|[->|L]].
  - (* below *) 
    assert (A : nth k1 s 0 + (t1 - INR k1) * (nth (Nat.min (Datatypes.S k1) n) s 0 - nth k1 s 0) <= nth (Nat.min (Datatypes.S k1) n) s 0).
    { specialize (D k1 H1). set (d := nth (Nat.min (Datatypes.S k1) n) s 0 - nth k1 s 0) in *.
      replace (nth (Nat.min (Datatypes.S k1) n) s 0) with (nth k1 s 0 + d) by (unfold d; ring). nra. }
    assert (B : nth (Nat.min (Datatypes.S k1) n) s 0 <= nth k2 s 0) by (apply M; unfold n; lia).
    specialize (D k2 H2). nra.
  - specialize (D k2 H2). nra.
  - (* k2 < k1: then t1 = t2 = INR k1 *)
    assert (INR k2 + 1 <= INR k1) by (rewrite <- S_INR; apply le_INR; lia).
    assert (E : INR k1 = INR k2 + 1) by lra. assert (t1 = INR k1) by lra. assert (t2 = INR k1) by lra.
    assert (k1 = Datatypes.S k2) by (rewrite <- S_INR in E; now apply INR_eq). subst t1 t2 k1.
    replace (Nat.min (Datatypes.S k2) n) with (Datatypes.S k2) by (unfold n; lia). rewrite S_INR. ring_simplify. lra.
Qed.

Lemma quantile_mono q1 q2 l v1 v2 : quantile q1 l v1 -> quantile q2 l v2 -> q1 <= q2 -> v1 <= v2.
Proof.
  intros (s1 & k1 & P1 & S1 & H1 & T1 & ->) (s2 & k2 & P2 & S2 & H2 & T2 & ->) Q.
  assert (s2 = s1) by (apply sorted_unique; auto; now rewrite <- P2). subst s2.
  apply interp_mono; auto. apply Rmult_le_compat_r; [apply pos_INR|exact Q].
Qed.

Lemma quantile_unique q l v1 v2 : quantile q l v1 -> quantile q l v2 -> v1 = v2.
Proof. intros H1 H2. apply Rle_antisym; eapply quantile_mono; eauto; lra. Qed.

Lemma quantile_range q l v : quantile q l v ->
  exists a b, In a l /\ In b l /\ a <= v <= b.
Proof.
  intros (s & k & P & S & H & T & ->). set (n := (length s - 1)%nat).
  exists (nth k s 0), (nth (Nat.min (Datatypes.S k) n) s 0).
  assert (I1 : In (nth k s 0) l) by (eapply Permutation_in; [apply Permutation_sym, P|apply nth_In, H]).
  assert (I2 : In (nth (Nat.min (Datatypes.S k) n) s 0) l) by (eapply Permutation_in; [apply Permutation_sym, P|apply nth_In; unfold n; lia]).
  assert (D : nth k s 0 <= nth (Nat.min (Datatypes.S k) n) s 0) by (apply sorted_nth; auto; unfold n; lia).
  split; auto. split; auto. fold n in T |- *. split; nra.
Qed.

Lemma INR_floor h : 0 <= h -> INR (Z.to_nat (Int_part h)) <= h < INR (Z.to_nat (Int_part h)) + 1.
Proof.
  intros H. pose proof (base_Int_part h) as [B1 B2].
  assert (0 <= Int_part h)%Z. { apply le_IZR. cut (-1 < IZR (Int_part h)); [|lra]. intros X. apply lt_IZR in X. apply IZR_le. lia. }
  rewrite INR_IZR_INZ, Z2Nat.id by auto. lra.
Qed.

Lemma percentile_Fin q l : l <> [] -> 0 <= q <= 100 ->
  exists v, percentile q (map Fin l) = Fin v /\ quantile (q / 100) l v.
Proof.
  intros Hl Hq. unfold percentile.
  assert (X : existsb isnan (map Fin l) = false) by (clear; induction l; auto). rewrite X, map_length, fsort_Fin.
  set (h := q / 100 * INR (length l - 1)). set (k := Z.to_nat (Int_part h)).
  assert (L : length (rsort l) = length l) by (symmetry; apply Permutation_length, rsort_perm).
  assert (H0 : 0 <= h) by (unfold h; apply Rmult_le_pos; [lra|apply pos_INR]).
  pose proof (INR_floor h H0) as F. fold k in F.
  assert (Hn : (0 < length l)%nat) by (destruct l; cbn; [congruence|lia]).
  assert (K : (k < length l)%nat).
  { assert (h <= INR (length l - 1)).
    { unfold h. pose proof (pos_INR (length l - 1)). nra. }
    assert (INR k < INR (length l)). { apply Rle_lt_trans with (INR (length l - 1)); [lra|]. apply lt_INR. lia. }
    now apply INR_lt. }
  unfold lnth. rewrite !nth_indep with (d := NaN) (d' := Fin 0) by (rewrite map_length, L; lia). rewrite !map_nth.
  unfold fsub. cbn [fadd fneg fmul]. eexists. split; [reflexivity|].
  exists (rsort l), k. rewrite L. repeat split; auto; try (fold h; lra).
  - apply rsort_perm.
  - apply rsort_sorted.
Qed.
