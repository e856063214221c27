(* Proofs: pixels without a usable flux or error in 1-D fits. *)
From Coq Require Import String Reals Lra List Bool Arith Lia FunctionalExtensionality.
From Verif Require Import PyFloat PyBase Arr PyNum MKernels MParams MAper2D MYprof SMask MIo MTrim MFit1D SFit1D SClean1 SRowFit SLeft1 PKernels PFit1D PFit1D2 PFit1D3 PFit1D4 PFit1DEx PRowFit PRowFit2 PClean1.
Import ListNotations.
Local Open Scope R_scope.

Lemma scrub_no_use m data err k : no_use data err k ->
  scrub (fdiv (fsub m (nth k data NaN)) (nth k err NaN)) = Fin 0.
Proof.
  unfold no_use. generalize (nth k data NaN) as y, (nth k err NaN) as e. intros y e [H|H]; unfold scrub.
  - assert (N : isfinite (fsub m y) = false) by (destruct m, y; cbn in *; congruence). destruct (fsub m y) as [r| | |]; [discriminate N| | |]; destruct e; cbn [fdiv isfinite]; try reflexivity; destruct (Rltb _ 0); reflexivity.
  - destruct e as [r| | |].
    + rewrite (H r eq_refl). destruct (fsub m y) as [a| | |]; cbn [fdiv]; rewrite ?Reqb_refl; [destruct (Reqb a 0); [reflexivity|destruct (Rltb 0 a); reflexivity]| | |reflexivity]; destruct (Rltb 0 0); reflexivity.
    + destruct (fsub m y); reflexivity.
    + destruct (fsub m y); reflexivity.
    + destruct (fsub m y); reflexivity.
Qed.

Lemma no_use_zero T names order x data err mask ks q r j k : length data = length x -> length err = length x -> length mask = length x -> used_pixels mask ks ->
  residual T names order x (Some data) (Some err) (Some mask) q = Ok r -> nth_error ks j = Some k -> no_use data err k -> nth_error r j = Some (Fin 0).
Proof.
  intros Ld Le Lm U E Hk N. destruct (residual_spec _ _ _ _ _ _ _ ks _ _ Ld Le Lm U E) as (model & _ & _ & _ & H).
  destruct (H j k Hk) as (m & _ & V). rewrite V. pose proof (scrub_no_use m data err k N) as Z. unfold scrub in Z. cbv zeta. destruct (fdiv _ _); cbn [isfinite] in Z; congruence.
Qed.

Lemma no_use_same T names order x data err data' err' mask q : length data = length x -> length err = length x -> length mask = length x ->
  length data' = length x -> length err' = length x ->
  (forall k, used mask k -> nth k data NaN = nth k data' NaN /\ nth k err NaN = nth k err' NaN \/ no_use data err k /\ no_use data' err' k) ->
  residual T names order x (Some data) (Some err) (Some mask) q = residual T names order x (Some data') (Some err') (Some mask) q.
Proof.
  intros H1 H2 H3 H4 H5 S. pose proof (good_inds_used mask) as U. set (ks := good_inds (Some mask)) in *.
  rewrite (residual_run _ _ _ x data err _ ks), (residual_run _ _ _ x data' err' _ ks) by assumption.
  destruct (spectrum_model _ _ _ _ _) as [model|e]; [|reflexivity]. cbn [bind]. f_equal. apply map_ext_in. intros [m k] I. apply in_combine_r in I. cbn [fst snd].
  destruct (S k (proj1 (proj2 U k) I)) as [(-> & ->)|(A & B)]; [reflexivity|]. now rewrite !scrub_no_use.
Qed.

Lemma no_use_fit M c s x data err data' err' mask : length data = length x -> length err = length x -> length mask = length x ->
  length data' = length x -> length err' = length x ->
  (forall k, used mask k -> nth k data NaN = nth k data' NaN /\ nth k err NaN = nth k err' NaN \/ no_use data err k /\ no_use data' err' k) ->
  best_params M c s x (Some data) (Some err) (Some mask) = best_params M c s x (Some data') (Some err') (Some mask).
Proof.
  intros H1 H2 H3 H4 H5 S. unfold best_params.
  replace (resid_fun c x (Some data) (Some err) (Some mask)) with (resid_fun c x (Some data') (Some err') (Some mask)); [reflexivity|].
  apply functional_extensionality. intros q. unfold resid_fun. symmetry. now apply no_use_same.
Qed.

(* leaving out the pixel at the line centre *)
Definition l_prm : prm := mkPrm (unbounded (Fin 0)) (unbounded (Fin 80)) [unbounded (Fin 1)] [unbounded (Fin 0)].
Lemma l_holds : holds l_prm 0 80 [1] [0]. Proof. repeat split. Qed.
Lemma l_known : known_sets shipped ["Halpha"%string] [1] k_sets.
Proof. split; [reflexivity|]. split; [reflexivity|]. constructor; [exact halpha|constructor]. Qed.
Lemma l_pos : positive_lines k_sets.
Proof. intros s0 w0 r0 [<-|[]] [Q|[]]. injection Q as <- <-. unfold wHa. lra. Qed.
Lemma l_used : used_pixels [Fin 1; Fin 0; Fin 1] [0%nat; 2%nat].
Proof.
  split; [repeat constructor; lia|]. intros i. unfold used. split.
  - intros [<-|[<-|[]]]; reflexivity.
  - intros H. destruct i as [|[|[|i]]]; cbn in H; try (cbn; tauto); [injection H; intros; lra|]. destruct i; discriminate.
Qed.
Lemma l_value xs x : spectrum_value xs 0 80 k_sets [0] x = line_value xs (wHa * (1 + 0)) (width 80 (wHa * (1 + 0))) (1 * 1) x.
Proof. unfold spectrum_value, k_sets, set_value, cont_value, rsum, rsumn. cbn. unfold rsum. cbn. ring. Qed.
Lemma l_sig : 0 < width 80 (wHa * (1 + 0)). Proof. unfold width, c_kms, wHa. lra. Qed.
Lemma l_gap3 : gap2 k_xs (wHa * (1 + 0)) = 0.
Proof. unfold gap2, k_xs. cbn [fold_right]. replace ((wHa - 1 - wHa * (1 + 0)) ^ 2) with 1 by ring. replace ((wHa + 1 - wHa * (1 + 0)) ^ 2) with 1 by ring. replace ((wHa - wHa * (1 + 0)) ^ 2) with 0 by ring. unfold Rmin. repeat destruct (Rle_dec _ _); lra. Qed.
Lemma l_gap2 : gap2 [wHa - 1; wHa + 1] (wHa * (1 + 0)) = 1.
Proof. unfold gap2. cbn [fold_right]. replace ((wHa - 1 - wHa * (1 + 0)) ^ 2) with 1 by ring. replace ((wHa + 1 - wHa * (1 + 0)) ^ 2) with 1 by ring. unfold Rmin. destruct (Rle_dec _ _); lra. Qed.
Lemma l_more : spectrum_value k_xs 0 80 k_sets [0] (wHa - 1) < spectrum_value [wHa - 1; wHa + 1] 0 80 k_sets [0] (wHa - 1).
Proof.
  rewrite !l_value. unfold line_value. rewrite l_gap3, l_gap2. pose proof l_sig as P. set (s := width _ _) in *. apply Rmult_lt_compat_l.
  - apply Rdiv_lt_0_compat; [lra|]. apply Rmult_lt_0_compat; [exact P|]. apply sqrt_lt_R0. generalize PI_RGT_0. lra.
  - apply exp_increasing. unfold Rdiv. apply Rmult_lt_compat_r; [apply Rinv_0_lt_compat; nra|lra].
Qed.

Lemma left_out_refuted : exists T names order x data err mask q k, holds q 0 80 [1] [0] /\ clean_spectrum k_xs data (map (fun _ => Fin 1) k_xs) [0%nat; 1%nat; 2%nat] 0 80 k_sets [0] /\
  x = map Fin k_xs /\ nth k err NaN = PInf /\ used mask k /\
  chi2 (residual T names order x (Some data) (Some err) (Some mask) q) = Fin 0 /\
  fltb (Fin 0) (chi2 (residual T names order x (Some data) (Some err) (Some (firstn k mask ++ Fin 0 :: skipn (S k) mask)) q)) = true.
Proof.
  exists shipped, ["Halpha"%string], 0%nat, (map Fin k_xs), k_data, [Fin 1; PInf; Fin 1], ones3, l_prm, 1%nat.
  split; [exact l_holds|]. split; [exact k_clean|]. split; [reflexivity|]. split; [reflexivity|]. split; [reflexivity|]. split.
  - rewrite (residual_run shipped ["Halpha"%string] 0 (map Fin k_xs) k_data [Fin 1; PInf; Fin 1] ones3 [0%nat; 1%nat; 2%nat] l_prm eq_refl eq_refl eq_refl k_used).
    change (map (fun k => nth k (map Fin k_xs) NaN) [0%nat; 1%nat; 2%nat]) with (map Fin k_xs).
    rewrite (spectrum_model_Fin shipped ["Halpha"%string] 0 l_prm k_xs 0 80 [1] [0] k_sets) by (try exact l_holds; try exact l_known; try exact l_pos; try reflexivity; try lra; discriminate).
    cbn [bind]. unfold k_data. generalize (spectrum_value k_xs 0 80 k_sets [0]). intros h. unfold chi2, k_xs. cbn [map combine fst snd nth]. unfold scrub, fsub. cbn [fneg fadd].
    rewrite !fdiv_Fin by lra. cbn [fdiv isfinite fsum fold_right map fmul fadd]. f_equal. field.
  - change (firstn 1 ones3 ++ Fin 0 :: skipn 2 ones3) with [Fin 1; Fin 0; Fin 1].
    rewrite (residual_run shipped ["Halpha"%string] 0 (map Fin k_xs) k_data [Fin 1; PInf; Fin 1] [Fin 1; Fin 0; Fin 1] [0%nat; 2%nat] l_prm eq_refl eq_refl eq_refl l_used).
    change (map (fun k => nth k (map Fin k_xs) NaN) [0%nat; 2%nat]) with (map Fin [wHa - 1; wHa + 1]).
    rewrite (spectrum_model_Fin shipped ["Halpha"%string] 0 l_prm [wHa - 1; wHa + 1] 0 80 [1] [0] k_sets) by (try exact l_holds; try exact l_known; try exact l_pos; try reflexivity; try lra; discriminate).
    cbn [bind]. pose proof l_more as L. unfold k_data. revert L. generalize (spectrum_value k_xs 0 80 k_sets [0]), (spectrum_value [wHa - 1; wHa + 1] 0 80 k_sets [0]). intros h h' L.
    unfold chi2, k_xs. cbn [map combine fst snd nth]. unfold scrub, fsub. cbn [fneg fadd]. rewrite !fdiv_Fin by lra. cbn [isfinite fsum fold_right map fmul fadd fltb]. apply Rltb_true.
    set (a := h' (wHa - 1)) in *. set (b := h (wHa - 1)) in *. set (u := h' (wHa + 1)). set (v := h (wHa + 1)).
    assert (0 < (a + - b) / 1 * ((a + - b) / 1)) by (replace ((a + - b) / 1) with (a - b) by field; nra).
    assert (0 <= (u + - v) / 1 * ((u + - v) / 1)) by exact (Rle_0_sqr _). lra.
Qed.

Lemma no_use_example : let data := [NaN; Fin 2; Fin 3] in let err := [Fin 1; PInf; Fin 0] in
  (forall k, used ones3 k -> no_use data err k) /\ residual shipped ["Halpha"%string] 0 (map Fin k_xs) (Some data) (Some err) (Some ones3) l_prm = Ok [Fin 0; Fin 0; Fin 0].
Proof.
  intros data err. assert (N : forall k, used ones3 k -> no_use data err k).
  { intros k U. destruct k as [|[|[|k]]]; [left; reflexivity|right; intros e X; discriminate X|right; intros e X; injection X as <-; reflexivity|]. destruct k; discriminate U. }
  split; [exact N|]. rewrite (residual_run shipped ["Halpha"%string] 0 (map Fin k_xs) data err ones3 [0%nat; 1%nat; 2%nat] l_prm eq_refl eq_refl eq_refl k_used).
  change (map (fun k => nth k (map Fin k_xs) NaN) [0%nat; 1%nat; 2%nat]) with (map Fin k_xs).
  rewrite (spectrum_model_Fin shipped ["Halpha"%string] 0 l_prm k_xs 0 80 [1] [0] k_sets) by (try exact l_holds; try exact l_known; try exact l_pos; try reflexivity; try lra; discriminate).
  cbn [bind]. unfold k_xs at 2. cbn [map combine fst snd]. rewrite !scrub_no_use by (apply N; reflexivity). reflexivity.
Qed.
