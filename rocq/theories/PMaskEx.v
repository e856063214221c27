(* Concrete cases for the mask and weight theorems. *)
From Coq Require Import Reals List Bool Arith ZArith Lra Lia Sorted.
From Verif Require Import PyFloat PyBase Arr PyNum MMask SMask PMask PMask2.
Import ListNotations.
Local Open Scope R_scope.

Lemma where_map {A B} (p : B -> bool) (f : A -> B) l : where_ p (map f l) = where_ (fun a => p (f a)) l.
Proof.
  unfold where_. generalize 0%nat. induction l as [|a l IH]; intros k; [reflexivity|]. cbn [map where_from].
  now rewrite IH.
Qed.
Lemma where_ext {A} (p q : A -> bool) l : (forall a, p a = q a) -> where_ p l = where_ q l.
Proof.
  intros H. unfold where_. generalize 0%nat. induction l as [|a l IH]; intros k; [reflexivity|]. cbn [where_from].
  now rewrite H, IH.
Qed.

(** Signal-to-noise 3 on good rows and 1 on bad rows. *)
Definition snr_of (bs : list bool) : list fl := map (fun b : bool => if b then Fin 3 else Fin 1) bs.

Lemma high0_of bs : high0 (snr_of bs) (Fin 2) = where_ (fun b => b) bs.
Proof.
  unfold high0, snr_of. rewrite where_map. apply where_ext. intros b. unfold fgeb. destruct b; cbn.
  - apply Rleb_true. lra.
  - apply Rleb_false. lra.
Qed.
Lemma low_of bs : low_snr_rows (snr_of bs) (Fin 2) =
  (let h0 := where_ (fun b => b) bs in let runs := wh_continuous h0 in
   let h := if Nat.ltb 1 (length runs) then concat (filter (fun w => Nat.ltb 2 (length w)) runs) else h0 in
   grow (length bs) (setdiff_range (length bs) h) h).
Proof.
  rewrite low_rows_eq. unfold high. rewrite high0_of. unfold snr_of. rewrite map_length. reflexivity.
Qed.

(** Fifteen rows, bad ones 3, 7 and 11: kept rows 4, 5, 6 and 8, 9, 10. *)
Definition rows15 : list bool :=
  [true;true;true;false;true;true;true;false;true;true;true;false;true;true;true].
Lemma rows15_low : low_snr_rows (snr_of rows15) (Fin 2) = [0;1;2;3;7;11;12;13;14]%nat.
Proof. rewrite low_of. vm_compute. reflexivity. Qed.

Lemma rows15_not_contiguous : ~ In 6%nat (low_snr_rows (snr_of rows15) (Fin 2)) /\
  In 7%nat (low_snr_rows (snr_of rows15) (Fin 2)) /\ ~ In 8%nat (low_snr_rows (snr_of rows15) (Fin 2)).
Proof. rewrite rows15_low. cbn. intuition discriminate. Qed.

(** Two good rows between bad ones are masked. *)
Lemma rows_short : low_snr_rows (snr_of [false;true;true;false;true;true;true;false]) (Fin 2) = [0;1;2;3;7]%nat.
Proof. rewrite low_of. vm_compute. reflexivity. Qed.

(* a 2 x 3 image whose second column is noisy *)
Definition sky_err : nat -> nat -> R := fun _ j => if Nat.eqb j 1 then 3 else 1.
Definition one2 : nat -> nat -> R := fun _ _ => 1.
Lemma sky_noise j : noise2 sky_err one2 2 j = sqrt (if Nat.eqb j 1 then 18 else 2).
Proof. unfold noise2, sky_err, one2. cbn [rsumn]. f_equal. destruct (Nat.eqb j 1); ring. Qed.
Lemma sky_example : exists m, mask_skylines_2D (fin2 2 3 one2) (fin2 2 3 sky_err) (fin2 2 3 one2) (Fin 2) true (Some (Fin 1)) = Ok (m, [1]%nat, [0;2]%nat).
Proof.
  unfold mask_skylines_2D. cbn [negb].
  replace (shape_eqb (fin2 2 3 sky_err) (fin2 2 3 one2)) with true by reflexivity.
  cbn [negb wh_skylines_1D bind snd].
  assert (S2 : sqrt 2 < 2) by (rewrite <- (sqrt_square 2) at 2 by lra; apply sqrt_lt_1; lra).
  assert (S18 : 2 <= sqrt 18) by (rewrite <- (sqrt_square 2) at 1 by lra; apply sqrt_le_1; lra).
  assert (W : where_ (fun x => fgeb x (fmul (Fin 2) (Fin 1))) (map (col_noise (fin2 2 3 sky_err) (fin2 2 3 one2)) (seq 0 (cols (fin2 2 3 sky_err)))) = [1%nat]).
  { cbn [fin2 cols seq map]. change (mk2 2 3 (fun i j => Fin (sky_err i j))) with (fin2 2 3 sky_err).
    change (mk2 2 3 (fun i j => Fin (one2 i j))) with (fin2 2 3 one2).
    rewrite !col_noise_Fin, !sky_noise. cbn [Nat.eqb].
    unfold where_. cbn [where_from]. unfold fgeb. cbn [fmul fleb].
    replace (Rleb (2 * 1) (sqrt 2)) with false by (symmetry; apply Rleb_false; lra).
    replace (Rleb (2 * 1) (sqrt 18)) with true by (symmetry; apply Rleb_true; lra). reflexivity. }
  rewrite W. eexists. reflexivity.
Qed.

(* edges *)
Definition edge_mask : list fl := [Fin 0; Fin 1; Fin 1; Fin 1; Fin 1; Fin 1; Fin 1; Fin 0].
Lemma edge_first : first_valid edge_mask 1.
Proof.
  split; [reflexivity|]. intros i Hi. assert (i = 0%nat) by lia. subst i. cbn. intros H. injection H. lra.
Qed.
Lemma edge_last : last_valid edge_mask 6.
Proof.
  split; [reflexivity|]. intros i Hi. destruct (Nat.eq_dec i 7) as [->|N].
  - cbn. intros H. injection H. lra.
  - assert (E : nth_error edge_mask i = None) by (apply nth_error_None; cbn; lia). rewrite E. discriminate.
Qed.
Lemma edge_example : mask_edges_1D 8 edge_mask 1 = [Fin 0; Fin 0; Fin 1; Fin 1; Fin 0; Fin 0; Fin 0; Fin 0].
Proof.
  apply nth_error_ext. intros i. destruct (le_lt_dec 8 i) as [H|H].
  - assert (E : nth_error edge_mask i = None) by (apply nth_error_None; cbn; lia).
    rewrite (proj2 (nth_error_None (mask_edges_1D 8 edge_mask 1) i)).
    + symmetry. apply nth_error_None. cbn. lia.
    + unfold mask_edges_1D. destruct (where_ _ _); [cbn; lia|]. 
      assert (Ls : forall l a b, length (set_slice (A := fl) l a b (Fin 0)) = length l) by (intros; apply mapi_length).
      destruct (0 <? _)%Z; destruct (_ <? _)%Z; rewrite ?Ls; cbn; lia.
  - destruct (nth_error edge_mask i) as [m|] eqn:E.
    2:{ apply nth_error_None in E. cbn in E. lia. }
    rewrite (edges_value 8 edge_mask 1 1 6 i m edge_first edge_last eq_refl E).
    do 8 (destruct i as [|i]; [vm_compute in E |- *; injection E as <-; reflexivity|]). lia.
Qed.
(** Last valid index 2, four pixels to mask: the slice start wraps and the right edge stays. *)
Definition wrap_mask : list fl := [Fin 1; Fin 1; Fin 1; Fin 0; Fin 0; Fin 0; Fin 0; Fin 0].
Lemma wrap_valid : first_valid wrap_mask 0 /\ last_valid wrap_mask 2.
Proof.
  split; (split; [reflexivity|]); intros i Hi; [lia|].
  do 8 (destruct i as [|i]; [first [lia | cbn; intros H; injection H; lra]|]). 
  assert (E : nth_error wrap_mask (S (S (S (S (S (S (S (S i)))))))) = None) by (apply nth_error_None; cbn; lia).
  rewrite E. discriminate.
Qed.
Lemma wrap_refuted : exists mask n num l r i, first_valid mask l /\ last_valid mask r /\ length mask = n /\
  (S r < n)%nat /\ (1 <= num)%nat /\ (r - num < i <= r)%nat /\
  nth_error (mask_edges_1D n mask (Z.of_nat num)) i = Some (Fin 1).
Proof.
  exists wrap_mask, 8%nat, 4%nat, 0%nat, 2%nat, 2%nat. destruct wrap_valid as [V1 V2].
  split; [exact V1|]. split; [exact V2|]. split; [reflexivity|]. split; [lia|]. split; [lia|]. split; [lia|].
  apply (edges_right_wraps 8 wrap_mask 4 0 2 2 (Fin 1) V1 V2); auto; lia.
Qed.
(** The right side loses two pixels more than the left: three against one for num_edge = 1. *)
Lemma asym_refuted : exists mask n l r, first_valid mask l /\ last_valid mask r /\ length mask = n /\ (0 < l)%nat /\ (S r < n)%nat /\
  nth_error (mask_edges_1D n mask 1) (l + 1) = Some (Fin 1) /\ nth_error (mask_edges_1D n mask 1) (r - 1) = Some (Fin 0) /\
  nth_error (mask_edges_1D n mask 1) (r - 2) = Some (Fin 0).
Proof.
  exists edge_mask, 8%nat, 1%nat, 6%nat. rewrite edge_example.
  split; [exact edge_first|]. split; [exact edge_last|]. repeat split; auto; lia.
Qed.

(* missing data *)
Lemma nan_zero_refuted : exists spec err, length err = length spec /\ (exists e, In e err /\ e <> Fin 0) /\
  nth 0 spec NaN = Fin 1 /\ nth 0 err NaN = Fin 0 /\
  exists out, spec_mask_missing_1D spec err None None false = Ok out /\ nth 0 out NaN = Fin 1.
Proof.
  exists [Fin 1; Fin 1; Fin 1], [Fin 0; NaN; Fin 1]. split; [reflexivity|]. split.
  { exists (Fin 1). split; [cbn; auto|]. intros H. injection H. lra. }
  split; [reflexivity|]. split; [reflexivity|].
  destruct (missing_1D [Fin 1; Fin 1; Fin 1] [Fin 0; NaN; Fin 1] None None false) as (out & E & L & H); try discriminate; auto.
  - cbn. lia.
  - exists out. split; [exact E|]. apply (H 0%nat); [cbn; lia|].
    intros [U|[U|[(w & U & _)|(_ & _ & U & _)]]]; try discriminate. apply U. cbn. auto.
Qed.
Lemma missing_example : unusable [Fin 1; NaN; Fin 1] [Fin 0; Fin 1; Fin 1] None false 0 /\
  unusable [Fin 1; NaN; Fin 1] [Fin 0; Fin 1; Fin 1] None false 1 /\
  ~ unusable [Fin 1; NaN; Fin 1] [Fin 0; Fin 1; Fin 1] None false 2.
Proof.
  split; [|split].
  - right. right. right. split; [reflexivity|]. split; [reflexivity|]. split.
    + cbn. intuition discriminate.
    + exists (Fin 1). split; [cbn; auto|]. intros H. injection H. lra.
  - left. reflexivity.
  - intros [U|[U|[(w & U & _)|(_ & U & _)]]]; try discriminate. cbn in U. injection U. lra.
Qed.
(** One zero error masks its whole row of the image. *)
Lemma row_zero_refuted : exists spec err mask, shape_eqb err spec = true /\ shape_eqb mask spec = true /\
  exists i j, (i < rows spec)%nat /\ (j < cols spec)%nat /\ at2 spec i j = Fin 1 /\ at2 err i j = Fin 1 /\ at2 mask i j = Fin 1 /\
  exists out, spec_mask_missing_2D spec err None (Some mask) false = Ok out /\ at2 out i j = Fin 0.
Proof.
  exists (mk2 2 2 (fun _ _ => Fin 1)), (mk2 2 2 (fun i j => if Nat.eqb i 0 && Nat.eqb j 0 then Fin 0 else Fin 1)), (mk2 2 2 (fun _ _ => Fin 1)).
  split; [reflexivity|]. split; [reflexivity|]. exists 0%nat, 1%nat. cbn [rows cols at2]. repeat split; auto.
  apply (missing_2D_rows _ _ _ 0 1 0); cbn [rows cols at2]; auto.
  - intros a b _ _. destruct (_ && _); discriminate.
  - exists 1%nat, 1%nat. repeat split; auto. cbn. intros H. injection H. lra.
Qed.

(* weights *)
Definition w_flux : arr2 fl := mk2 3 1 (fun i _ => if Nat.eqb i 0 then Fin 0 else if Nat.eqb i 1 then Fin 2 else Fin 4).
Definition w_err : arr2 fl := mk2 3 1 (fun _ _ => Fin 1).
Lemma w_snr : row_snr w_flux w_err w_err = [Fin 0; Fin 2; Fin 4].
Proof.
  assert (N : forall i, fsqrt (fsumn (cols w_err) (fun j => fsq (fmul (at2 w_err i j) (at2 w_err i j)))) = Fin 1).
  { intros i. rewrite (fsumn_Fin _ _ (fun _ => 1)).
    - cbn [w_err cols rsumn]. rewrite fsqrt_Fin by lra. f_equal. rewrite <- sqrt_1 at 2. f_equal. ring.
    - intros j _. cbn. f_equal. ring. }
  assert (D : forall x, 0 <= x -> fabs (fdiv (Fin x) (Fin 1)) = Fin x).
  { intros x Hx. unfold fdiv. destruct (Reqb 1 0) eqn:E; [apply Reqb_true in E; lra|]. cbn. f_equal.
    unfold Rdiv. rewrite Rinv_1, Rmult_1_r. now apply Rabs_pos_eq. }
  assert (F : forall i x, at2 w_flux i 0 = Fin x -> fsumn (cols w_flux) (fun j => fmul (at2 w_flux i j) (at2 w_err i j)) = Fin x).
  { intros i x Hx. rewrite (fsumn_Fin _ _ (fun _ => x)).
    - cbn [w_flux cols rsumn]. f_equal. ring.
    - intros j Hj. cbn [w_flux cols] in Hj. assert (j = 0%nat) by lia. subst j. rewrite Hx. cbn. f_equal. ring. }
  unfold row_snr. change (rows w_flux) with 3%nat. cbn [seq map]. rewrite !N.
  rewrite (F 0%nat 0), (F 1%nat 2), (F 2%nat 4) by reflexivity. rewrite !D by lra. reflexivity.
Qed.
Lemma nan_weight_refuted : exists flux err ms cut f3, 
  let low := low_snr_rows (row_snr flux err ms) cut in
  fltb cut (Fin 0) = true /\ exists prof M, fit_weights UpEdges flux err ms low f3 = Ok (prof, M) /\
  exists i, (i < rows flux)%nat /\ ~ In i low /\ nth i prof NaN = NaN.
Proof.
  exists w_flux, w_err, w_err, (Fin (-1)), (NaN, NaN, NaN). cbv zeta.
  assert (L : low_snr_rows (row_snr w_flux w_err w_err) (Fin (-1)) = []).
  { rewrite w_snr. rewrite low_rows_eq.
    assert (H0 : high0 [Fin 0; Fin 2; Fin 4] (Fin (-1)) = [0;1;2]%nat).
    { unfold high0, where_. cbn [where_from]. unfold fgeb. cbn [fleb].
      replace (Rleb (-1) 0) with true by (symmetry; apply Rleb_true; lra).
      replace (Rleb (-1) 2) with true by (symmetry; apply Rleb_true; lra).
      replace (Rleb (-1) 4) with true by (symmetry; apply Rleb_true; lra). reflexivity. }
    unfold high. rewrite H0. vm_compute. reflexivity. }
  rewrite L. split; [cbn; apply Rltb_true; lra|].
  destruct (weights_nan w_flux w_err w_err [] (NaN, NaN, NaN) 0%nat) as (prof & M & E & N).
  - intros k [].
  - cbn. lia.
  - intros [].
  - rewrite w_snr. reflexivity.
  - exists prof, M. split; [exact E|]. exists 0%nat. repeat split; auto. cbn. lia.
Qed.
(** Without weighting, a masked row still gets weight. *)
Lemma none_refuted : exists flux err ms low f3 prof M, fit_weights NoWeighting flux err ms low f3 = Ok (prof, M) /\
  exists i, (i < rows flux)%nat /\ In i low /\ nth i prof NaN = Fin (1/3).
Proof.
  destruct (weights_none w_flux w_err w_err [0%nat] (NaN, NaN, NaN)) as (prof & M & E & _ & V); [cbn; lia|].
  exists w_flux, w_err, w_err, [0%nat], (NaN, NaN, NaN), prof, M. split; [exact E|]. exists 0%nat.
  split; [cbn; lia|]. split; [now left|]. rewrite V by (cbn; lia). cbn [w_flux rows INR]. f_equal. lra.
Qed.
Lemma w_low : low_snr_rows (row_snr w_flux w_err w_err) (Fin 1) = [0%nat].
Proof.
  rewrite w_snr, low_rows_eq.
  assert (H0 : high0 [Fin 0; Fin 2; Fin 4] (Fin 1) = [1;2]%nat).
  { unfold high0, where_. cbn [where_from]. unfold fgeb. cbn [fleb].
    replace (Rleb 1 0) with false by (symmetry; apply Rleb_false; lra).
    replace (Rleb 1 2) with true by (symmetry; apply Rleb_true; lra).
    replace (Rleb 1 4) with true by (symmetry; apply Rleb_true; lra). reflexivity. }
  unfold high. rewrite H0. vm_compute. reflexivity.
Qed.
Lemma w_example : exists M, fit_weights UpEdges w_flux w_err w_err [0%nat] (NaN, NaN, NaN) = Ok ([Fin 0; Fin (2/3); Fin (1/3)], M).
Proof.
  unfold fit_weights. rewrite w_snr. cbn [w_flux rows forallb Nat.ltb Nat.leb andb negb bind map set_inds].
  unfold set_inds. cbn [mapi mapi_from memb existsb Nat.eqb orb].
  assert (D : forall x, x <> 0 -> forall y, fdiv (Fin y) (Fin x) = Fin (y / x)).
  { intros x Hx y. unfold fdiv. destruct (Reqb x 0) eqn:E; [apply Reqb_true in E; lra|reflexivity]. }
  rewrite !D by lra. unfold fsum. cbn [fold_right fadd].
  replace (0 + (1 / 2 + (1 / 4 + 0))) with (3/4) by field.
  unfold feqb at 1. destruct (Reqb (3/4) 0) eqn:E; [apply Reqb_true in E; lra|]. cbn [map].
  rewrite !D by lra. eexists. f_equal. f_equal.
  replace (0 / (3 / 4)) with 0 by field. replace (1 / 2 / (3 / 4)) with (2/3) by field. replace (1 / 4 / (3 / 4)) with (1/3) by field. reflexivity.
Qed.
