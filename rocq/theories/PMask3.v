(* The signal-to-noise of a row in terms of the images. *)
From Coq Require Import Reals List Bool Arith Lra Lia.
From Verif Require Import PyFloat PyBase Arr PyNum MMask SMask PMask PMask2.
Import ListNotations.
Local Open Scope R_scope.

(** C38: |sum of the masked flux| over the quadratic sum of the masked errors. *)
Lemma row_snr_value n p f e w i : (i < n)%nat ->
  let S := rsumn p (fun j => f i j * w i j) in
  let V := rsumn p (fun j => (e i j * w i j) * (e i j * w i j)) in
  nth i (row_snr (fin2 n p f) (fin2 n p e) (fin2 n p w)) (Fin 0) =
  if Req_EM_T V 0 then (if Req_EM_T S 0 then NaN else PInf) else Fin (Rabs S / sqrt V).
Proof.
  intros Hi S V. unfold row_snr, fin2. cbn [rows cols at2].
  match goal with |- nth i (map ?g (seq 0 n)) _ = _ => rewrite (nth_indep _ _ (g 0%nat)) by (rewrite map_length, seq_length; exact Hi);
    rewrite (map_nth g), seq_nth by exact Hi end.
  cbn [Nat.add]. rewrite (fsumn_Fin p _ (fun j => f i j * w i j)) by reflexivity.
  rewrite (fsumn_Fin p _ (fun j => (e i j * w i j) * (e i j * w i j))) by reflexivity. fold S. fold V.
  assert (P : 0 <= V).
  { unfold V. clear. induction p as [|k IH]; cbn [rsumn]; [lra|]. pose proof (Rle_0_sqr (e i k * w i k)). unfold Rsqr in *. lra. }
  cbn [fsqrt]. rewrite (proj2 (Rltb_false _ _)) by lra. cbn [fdiv].
  destruct (Req_EM_T V 0) as [Z|Z].
  - rewrite Z, sqrt_0, (proj2 (Reqb_true _ _) eq_refl). destruct (Req_EM_T S 0) as [Y|Y].
    + rewrite (proj2 (Reqb_true _ _) Y). reflexivity.
    + rewrite (proj2 (Reqb_false _ _) Y). destruct (Rltb 0 S); reflexivity.
  - assert (0 < sqrt V) by (apply sqrt_lt_R0; lra). rewrite (proj2 (Reqb_false _ _)) by lra. cbn [fabs].
    f_equal. unfold Rdiv. rewrite Rabs_mult, (Rabs_pos_eq (/ sqrt V)); [reflexivity|]. left. now apply Rinv_0_lt_compat.
Qed.

(** C38: what a row left unmasked satisfies, in terms of the images. *)
Lemma kept_row_images n p f e w mask cut m low i : (i < n)%nat ->
  mask_low_snr_rows_2D (fin2 n p f) (fin2 n p e) mask (fin2 n p w) (Fin cut) = Ok (m, low) -> ~ In i low ->
  let S := rsumn p (fun j => f i j * w i j) in
  let V := rsumn p (fun j => (e i j * w i j) * (e i j * w i j)) in
  if Req_EM_T V 0 then S <> 0 else cut <= Rabs S / sqrt V.
Proof.
  intros Hi H K S V. apply mask_rows_spec in H. destruct H as (-> & _).
  assert (L : length (row_snr (fin2 n p f) (fin2 n p e) (fin2 n p w)) = n) by apply row_snr_length.
  pose proof (row_snr_value n p f e w i Hi) as E. cbv zeta in E. fold S in E. fold V in E.
  assert (G : good (row_snr (fin2 n p f) (fin2 n p e) (fin2 n p w)) (Fin cut) i) by (apply kept_good; [rewrite L; exact Hi|exact K]).
  revert G. unfold good. intros (s & Hs & G). apply (nth_error_nth _ _ (Fin 0)) in Hs. rewrite Hs in E.
  destruct (Req_EM_T V 0); [destruct (Req_EM_T S 0)|]; subst s.
  - discriminate G.
  - assumption.
  - cbn in G. now apply Rleb_true in G.
Qed.
