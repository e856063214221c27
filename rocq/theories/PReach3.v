(* Proofs: light of every row of an image with zero dispersion. *)
From Coq Require Import Reals Lra List Bool Arith ZArith Lia.
From Verif Require MProf.
From Verif Require Import PyFloat PyBase Arr PyNum MParams MKernels MAper2D SKernels SAper2D SAper1D SLine SLos SReach PLos PReach PReach2.
From Verif Require PKernels PProf PAper1D5 PAper2DGrid PAper2DGeo.
Import ListNotations.
Local Open Scope R_scope.

Lemma tot_plus n f g : tot n (fun i => f i + g i) = tot n f + tot n g.
Proof. induction n; cbn; [lra|]. rewrite IHn. lra. Qed.
Lemma tot_swap n m f : tot n (fun i => tot m (f i)) = tot m (fun j => tot n (fun i => f i j)).
Proof. induction n; cbn; [now rewrite tot_zero|]. rewrite IHn. symmetry. apply tot_plus. Qed.
Lemma tot_single n b r : (b < n)%nat -> tot n (fun t => if Nat.eqb b t then r else 0) = r.
Proof.
  induction n; intros H; [lia|]. cbn. destruct (Nat.eqb_spec b n) as [->|N]; [|rewrite IHn by lia; lra].
  assert (Z : forall k, (k <= n)%nat -> tot k (fun t => if Nat.eqb n t then r else 0) = 0).
  { induction k; intros K; cbn; [reflexivity|]. rewrite IHk by lia. destruct (Nat.eqb_spec n k); [lia|lra]. }
  rewrite Z by lia. lra.
Qed.
Lemma narrow_total (l : list R) best rest ratio z v : (forall x, first_nearest l x (best x)) -> (length rest <= length ratio)%nat ->
  tot (length l) (narrow best rest ratio z v) = fold_right Rplus 0 (firstn (length rest) ratio).
Proof.
  intros B. unfold narrow. revert ratio. induction rest as [|lam rest IH]; intros ratio E.
  - cbn. apply tot_zero.
  - destruct ratio as [|r ratio]; [cbn in E; lia|]. cbn [combine map fold_right fst snd length firstn]. rewrite tot_plus, IH by (cbn in E; lia). f_equal. apply tot_single. apply B.
Qed.
Lemma row_tot n c nx dx m0 i f : tot n (fun t => row_sum c nx dx m0 i (f t)) = row_sum c nx dx m0 i (fun p => tot n (fun t => f t p)).
Proof.
  unfold row_sum, over_row. rewrite tot_scal. f_equal. rewrite tot_swap. apply tot_ext. intros s. rewrite tot_swap. apply tot_ext. intros k.
  now rewrite tot_swap.
Qed.
Lemma fsumn_tot n f g : (forall i, (i < n)%nat -> f i = Fin (g i)) -> fsumn n f = Fin (tot n g).
Proof. intros H. rewrite tot_rsumn. now apply fsumn_Fin. Qed.

Lemma disc_flux c th l d q q0 m0 z rest ratio vr hr :
  plain_disc c th l d q q0 m0 z rest ratio vr hr -> no_dispersion c th ->
  exists m inc n nx dx, image_is c th m /\ inclined q q0 inc /\ turning_axis d inc n /\ fills_slit c nx dx /\
    forall i, (i < g_rows (c_gal c))%nat ->
      fsumn (length l) (at2 m i) = Fin (fold_right Rplus 0 (firstn (length rest) ratio) * row_sum c nx dx m0 i (fun p => hr (from_axis n p) (height n p))).
Proof.
  intros HD HS. destruct (narrow_image _ _ _ _ _ _ _ _ _ _ _ _ HD HS) as (m&inc&n&nx&dx&best&E1&_&_&E2&E3&E4&E5&E).
  exists m, inc, n, nx, dx. repeat (split; [assumption|]). intros i Hi. rewrite (fsumn_tot _ _ _ (fun t Ht => E i t Hi Ht)), row_tot, <- row_scal. f_equal.
  apply row_ext. intros p. rewrite tot_scal, (narrow_total l) by (try assumption; destruct HD as ((W1&W2&W3&W4&W5&W6&W7&W8&W9&W10&W11&W12&W13&_)&_&_&_&_&_&_&_&_&_&R1&R2&_); rewrite R1, R2, !map_length in W13; exact W13).
  ring.
Qed.

(** Example for the row flux: a shipped disc meets the conditions on the cells of the grid. *)
Lemma flux_cells : exists Iv, forall g w, setup_model_grid (y_wide_cfg (3/5)) (y_flat 0) = Ok (g, w) ->
  forall m j k, (m < nZ g)%nat -> (j < nY g)%nat -> (k < nX g)%nat ->
    p_disp (c_prof (y_wide_cfg (3/5))) (firstn 1 (skipn (p_nvel (c_prof (y_wide_cfg (3/5)))) (y_flat 0))) (at3 (r_cube g) m j k) (at3 (zint g) m j k) = Fin 0 /\
    at3 (I_wide g) m j k = Fin (Iv m j k).
Proof.
  destruct (setup_model_grid (y_wide_cfg (3/5)) (y_flat 0)) as [[g w]|] eqn:Hg; [|exists (fun _ _ _ => 0); discriminate].
  destruct (PAper2DGeo.setup_cubes _ _ _ _ Hg) as (S1&_&_&_&_&S6).
  destruct (PAper2DGrid.setup_fields _ _ _ _ Hg) as (_&_&_&_&_&_&_&_&_&_&_&_&_&_&_&_&_&_&(sh&M1&M2)&_).
  cbn in M1. injection M1 as <-. cbn in M2.
  assert (A : exists i, fasin (sini g) = Fin i).
  { rewrite S1. cbn [y_wide_cfg c_gal g_q g_q0]. destruct (PProf.sin_i_range (3/5) 0 ltac:(lra) ltac:(lra) ltac:(lra) ltac:(lra)) as (si&E1&Bs&T1&T2&T3).
    rewrite E1. destruct (PAper1D5.inclined_ok (3/5) 0 si Bs T1 T3) as (_&EA&_). eexists. exact EA. }
  destruct A as (i & A).
  destruct (PAper2DGeo.cubes_finite _ _ _ _ _ 30 i Hg M2 eq_refl A) as (xr&yr&zr&_&_&_&C).
  eexists (fun m j k => _). intros g' w' Q. injection Q as <- <-. intros m j k Hm Hj Hk. destruct (C m j k Hm Hj Hk) as (C1&_&C3). rewrite S6, C1, C3. cbn. split; [f_equal; lra|reflexivity].
Qed.
