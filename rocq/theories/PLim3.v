From Coq Require Import Reals Lra List Bool Arith ZArith Lia.
From Verif Require Import PyFloat PyBase Arr PyNum MParams MKernels MAper2D SParams SKernels SAper2D SAper1D SLine SLos SReach SFinite PParams PMask PAper2D PAper2DHist PAper2DGrid PAper2DShape PAper2DOk PAper2DVal PAper2DGeo PKernels PKernels2 PProf PAper1D5 PLine PLos PLos3 PFinite PFinite2 PFinite3 PLim PLim2.
Import ListNotations.
Local Open Scope R_scope.

Lemma bindS_fam {X} (m : ST aper unit) (k : unit -> ST aper X) (A B : option nat -> aper) (x : X) : (forall o, bindS m k (A o) = (B o, Ok x)) ->
  exists A', (forall o, m (A o) = (A' o, Ok tt)) /\ forall o, k tt (A' o) = (B o, Ok x).
Proof.
  intros H. exists (fun o => fst (m (A o))).
  assert (Q : forall o, m (A o) = (fst (m (A o)), Ok tt)).
  { intros o. specialize (H o). unfold bindS in H. destruct (m (A o)) as [a [[]|e]]; [reflexivity|discriminate H]. }
  split; [exact Q|]. intros o. specialize (H o). rewrite (bindS_Ok _ _ _ _ _ (Q o)) in H. exact H.
Qed.

Definition get2 (o : option (arr2 fl)) : arr2 fl := match o with Some a => a | None => mk2 0 0 (fun _ _ => NaN) end.
Definition get3 (o : option (arr3 fl)) : arr3 fl := match o with Some a => a | None => mk3 0 0 0 (fun _ _ _ => NaN) end.
Lemma get2_some o : (exists a, o = Some a) -> o = Some (get2 o). Proof. intros (a & ->). reflexivity. Qed.
Lemma get3_some o : (exists a, o = Some a) -> o = Some (get3 o). Proof. intros (a & ->). reflexivity. Qed.

(* the dispersion parameter after the two options *)
Lemma sigma_eff c a s b f : a_disp a = [Fin s] -> (o_abs (c_opt c) = true \/ 0 <= s) ->
  (o_floor (c_opt c) = true -> s_floor (a_su a) = Some (Fin f)) -> (o_floor (c_opt c) = false -> f = 0) ->
  sigma_options c a = (b, Ok tt) -> a_disp b = [Fin (Rmax (Rabs s) f)].
Proof.
  intros Hd Hs Hf Hf'. unfold sigma_options. ub.
  assert (Q : a_disp (if o_abs (c_opt c) then set_prof (a_vel a) (map fabs (a_disp a)) a else a) = [Fin (Rabs s)]).
  { destruct (o_abs (c_opt c)); [cbn [a_disp set_prof]; rewrite Hd; reflexivity|]. destruct Hs as [Q|Q]; [discriminate Q|]. now rewrite Rabs_pos_eq. }
  assert (AA : Rabs (Rabs s) = Rabs s) by apply Rabs_Rabsolu.
  destruct (o_floor (c_opt c)).
  - specialize (Hf eq_refl).
    destruct (o_abs (c_opt c)); cbn [a_su set_prof] in *; rewrite Q, Hf; cbn [abs_lt_truth fabs fltb]; rewrite AA;
      destruct (Rltb (Rabs s) f) eqn:L; intros E; injection E as <-; cbn [a_disp set_prof];
      try (apply Rltb_true in L); try (apply Rltb_false in L); try (rewrite Rmax_right by lra); try (rewrite Rmax_left by lra); auto.
  - rewrite (Hf' eq_refl), Rmax_left by apply Rabs_pos.
    destruct (o_abs (c_opt c)); intros E; injection E as <-; exact Q.
Qed.

Lemma sigma_vel c a b r : sigma_options c a = (b, r) -> a_vel b = a_vel a.
Proof.
  unfold sigma_options. ub. destruct (o_abs _), (o_floor _).
  1,3: destruct (abs_lt_truth _ _) as [[|]|]; [destruct (s_floor _)| |].
  all: intros E; injection E as <- <-; reflexivity.
Qed.

Lemma fmul_fin a b v : fmul a b = Fin v -> (exists x, a = Fin x) /\ exists y, b = Fin y.
Proof.
  destruct a, b; cbn [fmul]; unfold inf_scale; intros E; try discriminate E; try (split; eexists; reflexivity).
  all: exfalso; destruct (Reqb _ 0); [discriminate E|]; destruct (Bool.eqb _ _); discriminate E.
Qed.

Section Stage.
Variables (c : cfg) (g : grid) (su : setup) (w : wv) (x rest ratio : list R) (f : R).
Hypothesis Hsh : o_shift (c_opt c) = false.
Hypothesis Hef : o_eff (c_opt c) = false.
Hypothesis Hsp : o_spec (c_opt c) = Wave.
Hypothesis Hre : g_rest (c_gal c) = map Fin rest.
Hypothesis Nre : rest <> [].
Hypothesis Pre : forall y, In y rest -> 0 < y.
Hypothesis Hra : g_ratio (c_gal c) = map Fin ratio.
Hypothesis Pra : forall y, In y ratio -> 0 < y.
Hypothesis Lr : (length rest <= length ratio)%nat.
Hypothesis Hg : s_grid su = g.
Hypothesis Hgo : geom_ok c g.
Hypothesis Hwo : wave_ok g w.
Hypothesis Hx : w_arr w = map Fin x.
Hypothesis Nx : x <> [].
Hypothesis Hfl : o_floor (c_opt c) = true -> s_floor su = Some (Fin f).
Hypothesis Hf0 : o_floor (c_opt c) = false -> f = 0.

Lemma calc_cvg (vel : option nat -> list fl) (s : option nat -> R) A B : (forall o, good_grid c (vel o) g) ->
  (forall o, a_su (A o) = su) -> (forall o, a_wv (A o) = w) -> (forall o, a_vel (A o) = vel o) -> (forall o, a_disp (A o) = [Fin (s o)]) ->
  (forall o, o_abs (c_opt c) = true \/ 0 <= s o) -> (forall o, 0 < Rmax (Rabs (s o)) f) ->
  (forall r h, cv (fun o => val (p_vel (c_prof c) (vel o) (Fin r) (Fin h)))) ->
  (forall o r h, exists v, p_vel (c_prof c) (vel o) (Fin r) (Fin h) = Fin v) ->
  (forall r h, cv (fun o => val (p_disp (c_prof c) [Fin (Rmax (Rabs (s o)) f)] (Fin r) (Fin h)))) ->
  (forall o r h, exists v, p_disp (c_prof c) [Fin (Rmax (Rabs (s o)) f)] (Fin r) (Fin h) = Fin v /\ 0 < v) ->
  (forall o, calculate_spectral_cube c (A o) = (B o, Ok tt)) ->
  exists C, (forall o, a_cube (B o) = Some (C o)) /\ cvg3 (w_n w) (nY g) (nX g) C.
Proof.
  intros Gg Ha Hw Hv Hd Hs Hp CV FV CS FS E. exists (fun o => get3 (a_cube (B o))).
  assert (D : forall o, a_cube (B o) = Some (get3 (a_cube (B o))) /\ dim0 (get3 (a_cube (B o))) = w_n w /\ dim1 (get3 (a_cube (B o))) = nY g /\ dim2 (get3 (a_cube (B o))) = nX g).
  { intros o. destruct (calc_shape _ _ _ (E o)) as (_&_&_&cube&C3&Q0&Q1&Q2). rewrite C3. cbn [get3]. rewrite Ha, Hg in Q1, Q2. rewrite Hw in Q0. auto. }
  split; [apply D|].
  destruct Hgo as (D0&D1&D2&Z0&X0&Y0&EY&EW). pose proof Hwo as (W1&W2&W3).
  assert (Ln : length x = w_n w) by (rewrite <- W3, Hx, map_length; reflexivity).
  assert (L0 : (0 < length x)%nat) by (destruct x; [congruence|cbn; lia]).
  destruct (gg_z _ _ _ (Gg None)) as (z & Gz & Pz).
  set (t := fun o => Rmax (Rabs (s o)) f).
  set (VA := fun o => mk3 (nZ g) (nY g) (nX g) (fun m j k => let r := at3 (r_cube g) m j k in
         let cosphi := if feqb r (Fin 0) then Fin 0 else fdiv (at3 (yint g) m j k) r in
         fmul (fmul (p_vel (c_prof c) (vel o) r (at3 (zint g) m j k)) cosphi) (sini g))).
  set (SA := fun o => mk3 (nZ g) (nY g) (nX g) (fun m j k => p_disp (c_prof c) [Fin (t o)] (at3 (r_cube g) m j k) (at3 (zint g) m j k))).
  assert (K : forall o, add_sigma_collapse_z (I_wide g) (V_cube c (A o)) (SA o) (map Fin x) (Fin z) (map Fin rest) (map Fin ratio) (length x) (nZ g) (nY g) (nX g) (Fin (delt_z g)) (w_I4 w) (w_ref w) Wave
       = Ok (get3 (a_cube (B o))) /\ forall m j k, at3 (V_cube c (A o)) m j k = at3 (VA o) m j k).
  { intros o. specialize (E o). rewrite calc_unfold in E. unfold calc_tail in E.
    destruct (sigma_options_ok c (A o) (Fin (s o)) (Hd o)) as [a1 E1].
    { intros Q. rewrite Ha, (Hfl Q). discriminate. }
    rewrite (bindS_Ok _ _ _ _ _ E1) in E.
    assert (Dt : a_disp a1 = [Fin (t o)]) by (apply (sigma_eff c (A o) (s o) a1 f); auto; intros Q; rewrite Ha; auto).
    destruct (sigma_options_keep _ _ _ _ E1) as (P1&P2&P3&P4).
    assert (Pv : a_vel a1 = vel o).
    { rewrite <- Hv. now apply (sigma_vel c (A o) a1 (Ok tt)). }

    unfold calc_tail2, shift_cache in E. rewrite Hsh, Hef in E. cbn [orb] in E. unfold calc_tail3 in E. revert E. ub.
    unfold shift_V. rewrite Hsh, Hsp. ub. rewrite P2, Dt, Ha, Hw, Hg. intros E.
    rewrite Gz, Hre, Hra, Hx, <- Ln in E.
    match type of E with context [add_sigma_collapse_z ?I ?V ?S ?wave ?zz ?rs ?rt ?nW ?nz ?ny ?nx ?dz ?I4 ?wr Wave] =>
      destruct (add_sigma_collapse_z I V S wave zz rs rt nW nz ny nx dz I4 wr Wave) as [cb|e] eqn:Ec; [|discriminate E] end.
    injection E as E. rewrite <- E. cbn [a_cube set_cube get3]. split; [exact Ec|]. intros m j k. unfold V_cube, VA. cbn [at3]. rewrite Ha, Hg, Hv. reflexivity. }
  rewrite <- Ln in *.
  apply (gauss_cvg (fun o m j k => val (at3 (VA o) m j k)) (fun o m j k => val (at3 (SA o) m j k)) (fun m j k => val (at3 (I_wide g) m j k)) (I_wide g)
    (fun o => V_cube c (A o)) SA (fun o => get3 (a_cube (B o))) (w_I4 w) (w_ref w) x rest ratio z (nZ g) (nY g) (nX g) (delt_z g)); auto; try lia; try exact (gg_dz _ _ _ (Gg None)).
  - intros o m j k Hm Hj Hk. rewrite (proj2 (K o)). destruct (gg_cell _ _ _ (Gg o) m j k Hm Hj Hk) as ((r & h & Er & Eh) & _ & v & Ev).
    cbv zeta in Ev. unfold VA, SA. cbn [at3]. cbv zeta. rewrite Ev. split; [reflexivity|]. rewrite Er, Eh. destruct (FS o r h) as (y & Ey & Py). change (Rmax (Rabs (s o)) f) with (t o) in Ey. rewrite Ey. split; [reflexivity|exact Py].
  - intros m j k Hm Hj Hk. destruct (gg_cell _ _ _ (Gg None) m j k Hm Hj Hk) as (_ & (i & Ei & Pi) & _). rewrite Ei. cbn [val]. split; [exact Pi|].
    intros v Hvv. rewrite W1, W2, Hx. unfold tile_I, repeat_wave. cbn [at4]. split; [exact Ei|]. now apply lnth_map.
  - intros m j k Hm Hj Hk. destruct (gg_cell _ _ _ (Gg None) m j k Hm Hj Hk) as ((r & h & Er & Eh) & _ & v & Ev). unfold VA, SA. cbn [at3]. rewrite Er, Eh. split; [|apply CS].
    cbv zeta in Ev. rewrite Er, Eh in Ev. destruct (FV None r h) as (v0 & Ev0). rewrite Ev0 in Ev. cbv zeta.
    set (cp := if feqb (Fin r) (Fin 0) then Fin 0 else fdiv (at3 (yint g) m j k) (Fin r)) in *.
    destruct (fmul_fin _ _ _ Ev) as ((y & Ey) & si & Esi). destruct (fmul_fin _ _ _ Ey) as (_ & p & Ep). rewrite Ep, Esi.
    apply (cv_ext (fun o => val (p_vel (c_prof c) (vel o) (Fin r) (Fin h)) * p * si)).
    + intros o. destruct (FV o r h) as (u & ->). reflexivity.
    + apply cv_mult; [|apply cv_const]. apply cv_mult; [apply CV|apply cv_const].
  - intros o. destruct (D o) as (_ & Q0 & Q1 & Q2). rewrite Q0. auto.
  - intros o. apply K.
Qed.
End Stage.
