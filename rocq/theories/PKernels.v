(* Proofs about the numeric kernels. *)
From Coq Require Import Reals List Bool Arith Lia Lra Psatz.
From Verif Require Import PyFloat PyBase Arr PyNum MKernels SKernels.
Import ListNotations.
Local Open Scope R_scope.

Lemma fadd_comm x y : fadd x y = fadd y x.
Proof. destruct x, y; simpl; auto. f_equal; ring. Qed.
Lemma fadd_assoc x y z : fadd x (fadd y z) = fadd (fadd x y) z.
Proof. destruct x, y, z; simpl; auto. f_equal; ring. Qed.
Lemma fadd_0_l x : fadd (Fin 0) x = x.
Proof. destruct x; simpl; auto. f_equal; ring. Qed.
Lemma fadd_0_r x : fadd x (Fin 0) = x.
Proof. now rewrite fadd_comm, fadd_0_l. Qed.

Lemma fsumn_plus n f g : fsumn n (fun i => fadd (f i) (g i)) = fadd (fsumn n f) (fsumn n g).
Proof.
  induction n as [|n IH]; [now rewrite fadd_0_l|].
  rewrite !fsumn_S, IH. rewrite <- !fadd_assoc. f_equal.
  rewrite !fadd_assoc. f_equal. apply fadd_comm.
Qed.
Lemma fsumn_zero n : fsumn n (fun _ => Fin 0) = Fin 0.
Proof. induction n as [|n IH]; auto. rewrite fsumn_S, IH. apply fadd_0_l. Qed.
Lemma fsumn_swap n m f : fsumn n (fun i => fsumn m (fun j => f i j)) =
                         fsumn m (fun j => fsumn n (fun i => f i j)).
Proof.
  induction n as [|n IH].
  - symmetry. apply fsumn_zero.
  - rewrite fsumn_S, IH, <- fsumn_plus. apply fsumn_ext. intros. now rewrite fsumn_S.
Qed.
Lemma fsumn_add n m f : fsumn (n + m) f = fadd (fsumn n f) (fsumn m (fun i => f (n + i)%nat)).
Proof.
  induction m as [|m IH].
  - rewrite Nat.add_0_r. now rewrite fadd_0_r.
  - rewrite Nat.add_succ_r, !fsumn_S, IH. now rewrite fadd_assoc.
Qed.
Lemma fsumn_block a b f :
  fsumn (a * b) f = fsumn a (fun i => fsumn b (fun j => f (i * b + j)%nat)).
Proof.
  induction a as [|a IH]; auto.
  rewrite fsumn_S, <- IH. simpl Nat.mul. rewrite Nat.add_comm, fsumn_add. reflexivity.
Qed.

(* ---------------- rebin ---------------- *)

Lemma flat2_block {A} (a : arr2 A) f0 f1 n i p j q :
  cols a = (n * f1)%nat -> (j < n)%nat -> (q < f1)%nat ->
  flat2 a (((i * f0 + p) * n + j) * f1 + q) = at2 a (i * f0 + p) (j * f1 + q).
Proof.
  intros Hc Hj Hq. unfold flat2.
  assert (E : (((i * f0 + p) * n + j) * f1 + q = (i * f0 + p) * cols a + (j * f1 + q))%nat).
  { rewrite Hc. ring. }
  assert (L : (j * f1 + q < cols a)%nat) by (rewrite Hc; nia).
  rewrite E, Nat.add_comm. rewrite Nat.div_add, Nat.mod_add by lia.
  rewrite Nat.div_small, Nat.mod_small by lia. reflexivity.
Qed.

Lemma rebin2_blocks a m n f0 f1 :
  (0 < m)%nat -> (0 < n)%nat -> rows a = (m * f0)%nat -> cols a = (n * f1)%nat ->
  exists b, rebin2 a m n = Ok b /\ rows b = m /\ cols b = n /\
    forall i j, (i < m)%nat -> (j < n)%nat -> at2 b i j = block_sum a f0 f1 i j.
Proof.
  intros Hm Hn Hr Hc. unfold rebin2.
  destruct (Nat.eqb_spec m 0); [lia|]. destruct (Nat.eqb_spec n 0); [lia|]. simpl orb.
  assert (E0 : (rows a / m = f0)%nat) by (rewrite Hr, Nat.mul_comm; apply Nat.div_mul; lia).
  assert (E1 : (cols a / n = f1)%nat) by (rewrite Hc, Nat.mul_comm; apply Nat.div_mul; lia).
  rewrite E0, E1, Hr, Hc, Nat.eqb_refl. cbv iota.
  eexists. split; [reflexivity|]. simpl. split; auto. split; auto.
  intros i j Hi Hj. unfold block_sum. rewrite fsumn_swap. apply fsumn_ext. intros p Hp.
  apply fsumn_ext. intros q Hq. apply flat2_block; auto.
Qed.

Lemma block_total a m n f0 f1 b :
  rows a = (m * f0)%nat -> cols a = (n * f1)%nat -> rows b = m -> cols b = n ->
  (forall i j, (i < m)%nat -> (j < n)%nat -> at2 b i j = block_sum a f0 f1 i j) ->
  sum2 b = sum2 a.
Proof.
  intros Hr Hc Hrb Hcb H. unfold sum2. rewrite Hr, Hc, Hrb, Hcb.
  rewrite fsumn_block. apply fsumn_ext. intros i Hi.
  rewrite (fsumn_ext n _ (fun j => block_sum a f0 f1 i j)) by auto.
  unfold block_sum. rewrite fsumn_swap. apply fsumn_ext. intros p Hp.
  now rewrite fsumn_block.
Qed.

Lemma fits_exact r c m n :
  (0 < m)%nat -> (0 < n)%nat -> (0 < r)%nat -> (0 < c)%nat ->
  (m * (r / m) * (n * (c / n)) = r * c)%nat -> (r = m * (r / m) /\ c = n * (c / n))%nat.
Proof.
  intros Hm Hn Hr Hc H.
  pose proof (Nat.mul_div_le r m ltac:(lia)) as H1.
  pose proof (Nat.mul_div_le c n ltac:(lia)) as H2.
  assert (m * (r / m) = r)%nat by nia. split; [lia|nia].
Qed.

Lemma rebin2_ok_divides a m n b :
  (0 < rows a)%nat -> (0 < cols a)%nat -> rebin2 a m n = Ok b ->
  exists f0 f1, (0 < m)%nat /\ (0 < n)%nat /\ rows a = (m * f0)%nat /\ cols a = (n * f1)%nat.
Proof.
  intros Hr Hc. unfold rebin2.
  destruct (Nat.eqb_spec m 0); simpl; [discriminate|]. destruct (Nat.eqb_spec n 0); simpl; [discriminate|].
  destruct (Nat.eqb_spec (m * (rows a / m) * (n * (cols a / n))) (rows a * cols a)) as [E|E];
    [|discriminate].
  intros _. apply fits_exact in E; try lia.
  exists (rows a / m)%nat, (cols a / n)%nat. repeat split; try lia; tauto.
Qed.

Lemma rebin2_total a m n b :
  (0 < rows a)%nat -> (0 < cols a)%nat -> rebin2 a m n = Ok b -> sum2 b = sum2 a.
Proof.
  intros Hr Hc H. destruct (rebin2_ok_divides a m n b Hr Hc H) as (f0 & f1 & Hm & Hn & E0 & E1).
  destruct (rebin2_blocks a m n f0 f1 Hm Hn E0 E1) as (b' & Hb & R & C & B).
  rewrite H in Hb. injection Hb as <-. eapply block_total; eauto.
Qed.

Lemma rebin2_only_ValueError a m n e : rebin2 a m n = Err e -> e = ValueError.
Proof.
  intros E. unfold rebin2 in E.
  destruct (Nat.eqb m 0 || Nat.eqb n 0); [now injection E as <-|].
  match type of E with (if ?c then _ else _) = _ => destruct c end; [discriminate|now injection E as <-].
Qed.

Lemma rebin2_error a m n :
  (0 < rows a)%nat -> (0 < cols a)%nat ->
  (rebin2 a m n = Err ValueError <->
   ~ (exists f0 f1, (0 < m)%nat /\ (0 < n)%nat /\ rows a = (m * f0)%nat /\ cols a = (n * f1)%nat)).
Proof.
  intros Hr Hc. split.
  - intros H (f0 & f1 & Hm & Hn & E0 & E1).
    destruct (rebin2_blocks a m n f0 f1 Hm Hn E0 E1) as (b & Hb & _). congruence.
  - intros H. destruct (rebin2 a m n) as [b|e] eqn:E.
    + elim H. eapply rebin2_ok_divides; eauto.
    + now rewrite (rebin2_only_ValueError a m n e E).
Qed.

(* ---------------- finiteness tests ---------------- *)

Lemma forallb_seq n p : forallb p (seq 0 n) = true <-> forall i, (i < n)%nat -> p i = true.
Proof.
  rewrite forallb_forall. split; intros H i Hi; apply H; [apply in_seq; lia|apply in_seq in Hi; lia].
Qed.

Lemma allfin3_spec a : allfin3 a = true <-> finite3 a.
Proof.
  unfold allfin3, finite3. rewrite forallb_seq. split.
  - intros H i j k Hi Hj Hk. specialize (H i Hi). rewrite forallb_seq in H. specialize (H j Hj).
    rewrite forallb_seq in H. auto.
  - intros H i Hi. apply forallb_seq. intros j Hj. apply forallb_seq. intros k Hk. auto.
Qed.
Lemma allfin2_spec a : allfin2 a = true <-> finite2 a.
Proof.
  unfold allfin2, finite2. rewrite forallb_seq. split.
  - intros H i j Hi Hj. specialize (H i Hi). rewrite forallb_seq in H. auto.
  - intros H i Hi. apply forallb_seq. intros j Hj. auto.
Qed.

Lemma nonneg3_finite a : nonneg3 a -> finite3 a.
Proof. intros H i j k Hi Hj Hk. destruct (H i j k Hi Hj Hk) as (r & -> & _). reflexivity. Qed.
Lemma nonneg2_finite a : nonneg2 a -> finite2 a.
Proof. intros H i j Hi Hj. destruct (H i j Hi Hj) as (r & -> & _). reflexivity. Qed.
Lemma nonneg3_val a i j k : nonneg3 a -> (i < dim0 a)%nat -> (j < dim1 a)%nat -> (k < dim2 a)%nat ->
  0 <= val3 a i j k.
Proof. intros H Hi Hj Hk. unfold val3. destruct (H i j k Hi Hj Hk) as (r & -> & Hr). exact Hr. Qed.
Lemma nonneg2_val a i j : nonneg2 a -> (i < rows a)%nat -> (j < cols a)%nat -> 0 <= val2 a i j.
Proof. intros H Hi Hj. unfold val2. destruct (H i j Hi Hj) as (r & -> & Hr). exact Hr. Qed.

(* ---------------- convolution ---------------- *)

Lemma same_idx_lt M i k m : same_idx M i k = Some m -> (m < M)%nat.
Proof.
  unfold same_idx. destruct (Nat.leb_spec k (i + (M-1)/2)); cbn [andb]; [|discriminate].
  destruct (Nat.ltb_spec (i + (M - 1) / 2 - k) M); [|discriminate]. intros E; injection E as <-. auto.
Qed.

(** The kernel weight that carries input voxel (v,p,q) to output voxel (w,i,j). *)
Definition ker3 (ker : arr3 fl) (w i j v p q : nat) : R :=
  match same_idx (dim0 ker) w v, same_idx (dim1 ker) i p, same_idx (dim2 ker) j q with
  | Some a, Some b, Some c => val3 ker a b c
  | _, _, _ => 0
  end.
Definition rconv3 (a ker : arr3 fl) (w i j : nat) : R :=
  rsum3 (dim0 a) (dim1 a) (dim2 a) (fun v p q => val3 a v p q * ker3 ker w i j v p q).

Lemma opt_at_ker3 ker w i j v p q : finite3 ker ->
  opt_at (same_idx (dim0 ker) w v) (fun kw =>
    opt_at (same_idx (dim1 ker) i p) (fun ki =>
      opt_at (same_idx (dim2 ker) j q) (fun kj => at3 ker kw ki kj))) = Fin (ker3 ker w i j v p q).
Proof.
  intros H. unfold ker3.
  destruct (same_idx (dim0 ker) w v) as [a|] eqn:E0; simpl; auto.
  destruct (same_idx (dim1 ker) i p) as [b|] eqn:E1; simpl; auto.
  destruct (same_idx (dim2 ker) j q) as [c|] eqn:E2; simpl; auto.
  apply finite_val. apply H; eapply same_idx_lt; eauto.
Qed.

Lemma conv3_Fin a ker w i j : finite3 a -> finite3 ker ->
  at3 (conv3 a ker) w i j = Fin (rconv3 a ker w i j).
Proof.
  intros Ha Hk. unfold conv3. rewrite (proj2 (allfin3_spec a) Ha), (proj2 (allfin3_spec ker) Hk).
  simpl. unfold rconv3, rsum3. apply fsumn_Fin. intros v Hv. apply fsumn_Fin. intros p Hp.
  apply fsumn_Fin. intros q Hq. rewrite opt_at_ker3 by auto.
  rewrite (finite_val (at3 a v p q)) by (apply Ha; auto). reflexivity.
Qed.

Lemma conv3_dims a ker : dim0 (conv3 a ker) = dim0 a /\ dim1 (conv3 a ker) = dim1 a /\ dim2 (conv3 a ker) = dim2 a.
Proof. unfold conv3. destruct (allfin3 a && allfin3 ker); simpl; auto. Qed.

Lemma conv3_finite a ker : finite3 a -> finite3 ker -> finite3 (conv3 a ker).
Proof. intros Ha Hk i j k _ _ _. rewrite conv3_Fin by auto. reflexivity. Qed.


Lemma sum3_total a : finite3 a -> sum3 a = Fin (total3 a).
Proof. apply sum3_val. Qed.

Lemma total3_conv a ker : finite3 a -> finite3 ker ->
  total3 (conv3 a ker) = rsum3 (dim0 a) (dim1 a) (dim2 a) (rconv3 a ker).
Proof.
  intros Ha Hk. unfold total3. destruct (conv3_dims a ker) as (E0 & E1 & E2).
  rewrite E0, E1, E2. apply rsum3_ext. intros. unfold val3. now rewrite conv3_Fin.
Qed.

Lemma fdiv_Fin a b : b <> 0 -> fdiv (Fin a) (Fin b) = Fin (a / b).
Proof. intros H. simpl. destruct (Reqb b 0) eqn:E; auto. apply Reqb_true in E. contradiction. Qed.

Lemma PSF_convolve_value cube ker fwhm :
  fgtb fwhm (Fin 0) = true -> finite3 cube -> finite3 ker ->
  size3 cube <> 0%nat -> size3 ker <> 0%nat -> total3 (conv3 cube ker) <> 0 ->
  exists out, PSF_convolve cube fwhm (Stamp3 ker) = Ok (Some out) /\
    dim0 out = dim0 cube /\ dim1 out = dim1 cube /\ dim2 out = dim2 cube /\
    forall w i j, at3 out w i j =
      Fin (rconv3 cube ker w i j * (total3 cube / total3 (conv3 cube ker))).
Proof.
  intros Hf Ha Hk S1 S2 Ht. unfold PSF_convolve. rewrite Hf.
  apply Nat.eqb_neq in S1, S2. rewrite S1, S2. simpl orb. cbv iota.
  eexists. split; [reflexivity|]. destruct (conv3_dims cube ker) as (E0 & E1 & E2). simpl.
  repeat split; auto. intros w i j.
  rewrite sum3_total by auto. rewrite (sum3_total (conv3 cube ker)) by (apply conv3_finite; auto).
  rewrite fdiv_Fin by auto. rewrite conv3_Fin by auto. reflexivity.
Qed.

Lemma PSF_convolve_conserves cube ker fwhm :
  fgtb fwhm (Fin 0) = true -> finite3 cube -> finite3 ker ->
  size3 cube <> 0%nat -> size3 ker <> 0%nat -> sum3 (conv3 cube ker) <> Fin 0 ->
  exists out, PSF_convolve cube fwhm (Stamp3 ker) = Ok (Some out) /\
    dim0 out = dim0 cube /\ dim1 out = dim1 cube /\ dim2 out = dim2 cube /\
    sum3 out = sum3 cube.
Proof.
  intros Hf Ha Hk S1 S2 Ht.
  assert (Ht' : total3 (conv3 cube ker) <> 0).
  { intros E. apply Ht. rewrite sum3_total by (apply conv3_finite; auto). now rewrite E. }
  destruct (PSF_convolve_value cube ker fwhm Hf Ha Hk S1 S2 Ht') as (out & Ho & E0 & E1 & E2 & V).
  exists out. repeat split; auto.
  rewrite (sum3_Fin out (fun w i j => rconv3 cube ker w i j * (total3 cube / total3 (conv3 cube ker)))) by auto.
  rewrite sum3_total by auto. f_equal. rewrite E0, E1, E2.
  rewrite (rsum3_ext _ _ _ _ (fun w i j => (total3 cube / total3 (conv3 cube ker)) * rconv3 cube ker w i j))
    by (intros; ring).
  rewrite rsum3_scal, <- total3_conv by auto. field. auto.
Qed.

Lemma PSF_convolve_off cube fwhm st : fgtb fwhm (Fin 0) = false -> PSF_convolve cube fwhm st = Ok (Some cube).
Proof. intros H. unfold PSF_convolve. now rewrite H. Qed.

Lemma scale3_val c a : finite3 a -> forall i j k, (i < dim0 a)%nat -> (j < dim1 a)%nat -> (k < dim2 a)%nat ->
  val3 (scale3 c a) i j k = c * val3 a i j k.
Proof.
  intros H i j k Hi Hj Hk. unfold val3, scale3; simpl.
  rewrite (finite_val (at3 a i j k)) at 1 by (apply H; auto). reflexivity.
Qed.
Lemma scale3_finite c a : finite3 a -> finite3 (scale3 c a).
Proof.
  intros H i j k Hi Hj Hk. simpl in *. rewrite (finite_val (at3 a i j k)) by (apply H; auto). reflexivity.
Qed.

Lemma rconv3_scale c a ker w i j : finite3 a -> rconv3 (scale3 c a) ker w i j = c * rconv3 a ker w i j.
Proof.
  intros H. unfold rconv3. simpl. rewrite <- rsum3_scal. apply rsum3_ext. intros.
  rewrite scale3_val by auto. ring.
Qed.
Lemma total3_scale c a : finite3 a -> total3 (scale3 c a) = c * total3 a.
Proof.
  intros H. unfold total3. simpl. rewrite <- rsum3_scal. apply rsum3_ext. intros. now apply scale3_val.
Qed.

Lemma PSF_convolve_linear c cube ker fwhm out :
  c <> 0 -> fgtb fwhm (Fin 0) = true -> finite3 cube -> finite3 ker ->
  size3 cube <> 0%nat -> size3 ker <> 0%nat -> sum3 (conv3 cube ker) <> Fin 0 ->
  PSF_convolve cube fwhm (Stamp3 ker) = Ok (Some out) ->
  exists out', PSF_convolve (scale3 c cube) fwhm (Stamp3 ker) = Ok (Some out') /\
    eq3 out' (scale3 c out).
Proof.
  intros Hc Hf Ha Hk S1 S2 Ht Ho.
  assert (Ht' : total3 (conv3 cube ker) <> 0).
  { intros E. apply Ht. rewrite sum3_total by (apply conv3_finite; auto). now rewrite E. }
  destruct (PSF_convolve_value cube ker fwhm Hf Ha Hk S1 S2 Ht') as (o & Ho' & E0 & E1 & E2 & V).
  rewrite Ho in Ho'. injection Ho' as <-.
  assert (Hs : finite3 (scale3 c cube)) by now apply scale3_finite.
  assert (Et : total3 (conv3 (scale3 c cube) ker) = c * total3 (conv3 cube ker)).
  { rewrite !total3_conv by auto. simpl. rewrite <- rsum3_scal. apply rsum3_ext. intros.
    now apply rconv3_scale. }
  destruct (PSF_convolve_value (scale3 c cube) ker fwhm Hf Hs Hk) as (o' & Ho' & F0 & F1 & F2 & V');
    [exact S1|exact S2|rewrite Et; intros E; apply Rmult_integral in E; tauto|].
  simpl in F0, F1, F2. exists o'. split; auto. unfold eq3. simpl. repeat split; try congruence.
  intros i j k _ _ _. rewrite V', V, Et, total3_scale, rconv3_scale by auto. simpl. f_equal.
  field. auto.
Qed.

Lemma ker3_nonneg ker w i j v p q : nonneg3 ker -> 0 <= ker3 ker w i j v p q.
Proof.
  intros H. unfold ker3.
  destruct (same_idx (dim0 ker) w v) as [a|] eqn:E0; [|lra].
  destruct (same_idx (dim1 ker) i p) as [b|] eqn:E1; [|lra].
  destruct (same_idx (dim2 ker) j q) as [c|] eqn:E2; [|lra].
  apply nonneg3_val; auto; eapply same_idx_lt; eauto.
Qed.

Lemma rsum3_nonneg n m p f :
  (forall i j k, (i < n)%nat -> (j < m)%nat -> (k < p)%nat -> 0 <= f i j k) -> 0 <= rsum3 n m p f.
Proof.
  intros H. apply rsumn_nonneg. intros i Hi. apply rsumn_nonneg. intros j Hj.
  apply rsumn_nonneg. intros k Hk. auto.
Qed.
Lemma rsum3_pos n m p f :
  (forall i j k, (i < n)%nat -> (j < m)%nat -> (k < p)%nat -> 0 <= f i j k) ->
  (exists i j k, (i < n)%nat /\ (j < m)%nat /\ (k < p)%nat /\ 0 < f i j k) -> 0 < rsum3 n m p f.
Proof.
  intros H (i & j & k & Hi & Hj & Hk & Hp). apply rsumn_pos.
  - intros i' Hi'. apply rsumn_nonneg. intros j' Hj'. apply rsumn_nonneg. intros; auto.
  - exists i. split; auto. apply rsumn_pos.
    + intros j' Hj'. apply rsumn_nonneg. intros; auto.
    + exists j. split; auto. apply rsumn_pos; [intros; auto|]. exists k; auto.
Qed.

Lemma rconv3_nonneg a ker w i j : nonneg3 a -> nonneg3 ker -> 0 <= rconv3 a ker w i j.
Proof.
  intros Ha Hk. apply rsum3_nonneg. intros. apply Rmult_le_pos; [now apply nonneg3_val|now apply ker3_nonneg].
Qed.

Lemma PSF_convolve_nonneg cube ker fwhm :
  fgtb fwhm (Fin 0) = true -> nonneg3 cube -> nonneg3 ker ->
  size3 cube <> 0%nat -> size3 ker <> 0%nat -> sum3 (conv3 cube ker) <> Fin 0 ->
  exists out, PSF_convolve cube fwhm (Stamp3 ker) = Ok (Some out) /\ nonneg3 out.
Proof.
  intros Hf Ha Hk S1 S2 Ht.
  assert (Ht' : total3 (conv3 cube ker) <> 0).
  { intros E. apply Ht. rewrite sum3_total by (apply conv3_finite; apply nonneg3_finite; auto). now rewrite E. }
  destruct (PSF_convolve_value cube ker fwhm Hf (nonneg3_finite _ Ha) (nonneg3_finite _ Hk) S1 S2 Ht')
    as (out & Ho & E0 & E1 & E2 & V).
  exists out. split; auto. intros i j k _ _ _. rewrite V. eexists. split; [reflexivity|].
  apply Rmult_le_pos; [now apply rconv3_nonneg|].
  assert (0 <= total3 (conv3 cube ker)).
  { rewrite total3_conv by (apply nonneg3_finite; auto). apply rsum3_nonneg. intros. now apply rconv3_nonneg. }
  assert (0 <= total3 cube) by (apply rsum3_nonneg; intros; now apply nonneg3_val).
  apply Rmult_le_pos; auto. left. apply Rinv_0_lt_compat. lra.
Qed.

(** The central kernel sample carries a voxel onto itself. *)
Lemma same_idx_diag M i : (0 < M)%nat -> same_idx M i i = Some ((M - 1) / 2)%nat.
Proof.
  intros H. unfold same_idx.
  assert ((M - 1) / 2 < M)%nat by (apply Nat.div_lt_upper_bound; lia).
  destruct (Nat.leb_spec i (i + (M-1)/2)); [|lia]. cbn [andb]. replace (i + (M-1)/2 - i)%nat with ((M-1)/2)%nat by lia.
  destruct (Nat.ltb_spec ((M-1)/2) M); [|lia]. reflexivity.
Qed.

(** A non-negative cube with some light and a non-negative stamp with a positive centre has
    a positive convolved total, so the side condition of the conservation theorem holds. *)
Lemma conv3_positive cube ker :
  nonneg3 cube -> nonneg3 ker -> 0 < total3 cube ->
  (0 < dim0 ker)%nat -> (0 < dim1 ker)%nat -> (0 < dim2 ker)%nat ->
  0 < val3 ker ((dim0 ker - 1) / 2) ((dim1 ker - 1) / 2) ((dim2 ker - 1) / 2) ->
  0 < total3 (conv3 cube ker).
Proof.
  intros Ha Hk Ht H0 H1 H2 Hp.
  rewrite total3_conv by (apply nonneg3_finite; auto).
  apply Rlt_le_trans with
    (rsum3 (dim0 cube) (dim1 cube) (dim2 cube) (fun w i j =>
       val3 ker ((dim0 ker - 1) / 2) ((dim1 ker - 1) / 2) ((dim2 ker - 1) / 2) * val3 cube w i j)).
  { rewrite rsum3_scal. apply Rmult_lt_0_compat; auto. }
  apply rsumn_le. intros w Hw. apply rsumn_le. intros i Hi. apply rsumn_le. intros j Hj.
  unfold rconv3, rsum3.
  assert (NN : forall v p q, (v < dim0 cube)%nat -> (p < dim1 cube)%nat -> (q < dim2 cube)%nat ->
     0 <= val3 cube v p q * ker3 ker w i j v p q).
  { intros. apply Rmult_le_pos; [now apply nonneg3_val|now apply ker3_nonneg]. }
  assert (G : forall n f k, (k < n)%nat -> (forall i, (i < n)%nat -> 0 <= f i) -> f k <= rsumn n f).
  { clear. induction n as [|n IH]; intros f k Hk Hf; [lia|]. simpl.
    destruct (Nat.eq_dec k n) as [->|].
    - assert (0 <= rsumn n f) by (apply rsumn_nonneg; intros; apply Hf; lia). lra.
    - assert (f k <= rsumn n f) by (apply IH; [lia|intros; apply Hf; lia]).
      assert (0 <= f n) by (apply Hf; lia). lra. }
  eapply Rle_trans; [|apply (G (dim0 cube) _ w Hw); intros; apply rsumn_nonneg; intros; apply rsumn_nonneg; intros; auto].
  cbv beta. eapply Rle_trans; [|apply (G (dim1 cube) _ i Hi); intros; apply rsumn_nonneg; intros; auto].
  cbv beta. eapply Rle_trans; [|apply (G (dim2 cube) _ j Hj); intros; auto].
  cbv beta. unfold ker3. rewrite !same_idx_diag by auto. lra.
Qed.

Lemma PSF_convolve_dark cube ker fwhm :
  fgtb fwhm (Fin 0) = true -> finite3 ker -> size3 cube <> 0%nat -> size3 ker <> 0%nat ->
  (forall i j k, (i < dim0 cube)%nat -> (j < dim1 cube)%nat -> (k < dim2 cube)%nat -> at3 cube i j k = Fin 0) ->
  exists out, PSF_convolve cube fwhm (Stamp3 ker) = Ok (Some out) /\
    forall i j k, at3 out i j k = NaN.
Proof.
  intros Hf Hk S1 S2 H0.
  assert (Ha : finite3 cube) by (intros i j k Hi Hj Hk'; now rewrite H0).
  unfold PSF_convolve. rewrite Hf. apply Nat.eqb_neq in S1, S2. rewrite S1, S2. simpl orb. cbv iota.
  eexists. split; [reflexivity|]. intros i j k. simpl.
  rewrite sum3_total by auto. rewrite (sum3_total (conv3 cube ker)) by (apply conv3_finite; auto).
  assert (E1 : total3 cube = 0).
  { unfold total3. rewrite (rsum3_ext _ _ _ _ (fun _ _ _ => 0 * 0)).
    - rewrite rsum3_scal. ring.
    - intros. unfold val3. rewrite H0 by auto. simpl. ring. }
  assert (E2 : total3 (conv3 cube ker) = 0).
  { rewrite total3_conv by auto. rewrite (rsum3_ext _ _ _ _ (fun _ _ _ => 0 * 0)).
    - rewrite rsum3_scal. ring.
    - intros. unfold rconv3. rewrite (rsum3_ext _ _ _ _ (fun _ _ _ => 0 * 0)).
      + rewrite rsum3_scal. ring.
      + intros. unfold val3. rewrite H0 by auto. simpl. ring. }
  rewrite E1, E2. simpl. rewrite Reqb_refl. now destruct (at3 (conv3 cube ker) i j k).
Qed.
