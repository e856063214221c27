(* Proofs about fit preparation: the position of the object and of the line. *)
From Coq Require Import Reals List Bool Arith ZArith Lra Lia Psatz.
From Verif Require Import PyFloat PyBase Arr PyNum PKernels MMask SMask PMask MTrim STrim PTrim PTrim2 MPrep SPrep PPrep PPrep2 PPrep3 PPrep4.
Import ListNotations.
Local Open Scope R_scope.

Lemma start_lam0 c e e' wave : q_wave (e2 e) = Some wave -> prep_start c e = (e', Ok tt) ->
  exists l, nominal c e l /\ q_lam0 (e2 e') = Some l.
Proof.
  intros W H. unfold prep_start in H. liftin H.
  apply bind_inv in H. destruct H as (ea & u1 & H1 & H). apply bind_inv in H. destruct H as (eb & u2 & H2 & H).
  assert (A1 : q_wave (e2 ea) = Some wave /\ q_lam0 (e2 ea) = q_lam0 (e2 e)).
  { unfold prep_skylevels in H1. rewrite bind_get in H1. destruct (q_cutoff (e2 e)) as [p|].
    - injection H1 as <- _. auto.
    - liftin H1. rewrite up2_eq in H1. injection H1 as <- _. auto. }
  destruct A1 as [W1 L1]. clear H1.
  assert (A2 : exists l, nominal c e l /\ q_lam0 (e2 eb) = Some l).
  { unfold prep_derived in H2. rewrite bind_get, W1 in H2. rewrite (bind_lift _ wave) in H2 by reflexivity.
    rewrite bind_up2 in H2. cbn [e2] in H2. unfold nominal. rewrite <- L1. destruct (q_lam0 (e2 ea)) as [l|] eqn:El.
    - injection H2 as <- _. exists l. split; [now left|]. exact El.
    - rewrite up2_eq in H2. injection H2 as <- _. eexists. split; [right; split; reflexivity|reflexivity]. }
  destruct A2 as (l & N & L). exists l. split; [exact N|]. rewrite <- L. clear - H.
  unfold ensure_mask_weight in H. rewrite bind_get in H. apply bind_inv in H. destruct H as (ec & u & H1 & H).
  assert (Hc : q_lam0 (e2 ec) = q_lam0 (e2 eb)).
  { destruct (q_weight (e2 eb)); [injection H1 as <- _; reflexivity|]. liftin H1. rewrite up2_eq in H1. injection H1 as <- _. reflexivity. }
  rewrite <- Hc. destruct (q_mask (e2 eb)); [injection H as <-; reflexivity|]. liftin H. rewrite up2_eq in H. injection H as <-. reflexivity.
Qed.

Lemma bounds_differ a b : lm_bounds (Fin a) (Fin b) = Ok tt -> a <> b.
Proof.
  unfold lm_bounds, lm_close. intros H ->. destruct (Rleb (Rabs (b - b)) _) eqn:E; [discriminate|]. apply Rleb_false in E.
  rewrite Rminus_diag_eq, Rabs_R0 in E by reflexivity. pose proof (Rabs_pos b). lra.
Qed.

Lemma shift_found s n m0 y mu : used mu (believed_row s n m0 y) (fun mu => Fin (mu - IZR m0)) (Fin 0)
  (choose_shift (Fin 0) (Fin (INR (n - 1))) y (Fin (IZR m0)) (q_m0_fit s) (q_m0_snr s) mu).
Proof.
  unfold choose_shift, used. destruct mu as [mu|]; [|right; split; [reflexivity|discriminate]].
  destruct (fgeb mu (Fin 0) && fleb mu (Fin (INR (n - 1)))) eqn:E.
  2:{ right. split; [reflexivity|]. intros r Er [B _]. injection Er as ->. unfold fgeb in E. cbn [fleb] in E.
      rewrite (proj2 (Rleb_true _ _)), (proj2 (Rleb_true _ _)) in E by lra. discriminate. }
  apply andb_prop in E. destruct E as [E1 E2].
  unfold fgeb in E1. destruct mu as [mu| | |]; try discriminate. cbn [fleb] in E1, E2. apply Rleb_true in E1, E2.
  destruct (fleb (fabs (fsub y (Fin mu))) (Fin 2)) eqn:E3.
  - left. exists mu. split; [reflexivity|]. split; [|reflexivity]. split; [lra|]. left. destruct y as [y| | |]; try discriminate. exists y. split; [reflexivity|].
    cbn [fsub fneg fadd fabs fleb] in E3. apply Rleb_true in E3. exact E3.
  - assert (N3 : ~ exists y0, y = Fin y0 /\ Rabs (y0 - mu) <= 2).
    { intros (y0 & -> & B). cbn [fsub fneg fadd fabs fleb] in E3. apply Rleb_false in E3. unfold Rminus in B. lra. }
    destruct (fleb (fabs (fsub (Fin (IZR m0)) (Fin mu))) (Fin 2) && fleb (fabs (q_m0_fit s)) (Fin 1) && fgeb (q_m0_snr s) (Fin 3)) eqn:E4.
    + left. exists mu. split; [reflexivity|]. split; [|reflexivity]. split; [lra|]. right. apply andb_prop in E4. destruct E4 as [E4 E6]. apply andb_prop in E4. destruct E4 as [E4 E5].
      cbn [fsub fneg fadd fabs fleb] in E4. apply Rleb_true in E4. split; [exact E4|]. split.
      * destruct (q_m0_fit s) as [f| | |]; try discriminate. exists f. cbn [fabs fleb] in E5. apply Rleb_true in E5. auto.
      * unfold fgeb in E6. destruct (q_m0_snr s) as [f| | |]; try discriminate; [right; exists f; cbn [fleb] in E6; apply Rleb_true in E6; auto|now left].
    + right. split; [reflexivity|]. intros r Er [_ B]. injection Er as <-. destruct B as [B|(B1 & (f & Ef & B2) & B3)]; [exact (N3 B)|].
      rewrite Ef in E4. unfold Rminus in B1. cbn [fsub fneg fadd fabs fleb] in E4. rewrite (proj2 (Rleb_true _ _) B1), (proj2 (Rleb_true _ _) B2) in E4. cbn [andb] in E4.
      destruct B3 as [B3|(r & Er & B3)]; [rewrite B3 in E4; discriminate|]. rewrite Er in E4. unfold fgeb in E4. cbn [fleb] in E4.
      rewrite (proj2 (Rleb_true _ _) B3) in E4. discriminate.
Qed.

Lemma spans_unique wave lo hi lo' hi' : spans_wave wave lo hi -> spans_wave wave lo' hi' -> lo = lo' /\ hi = hi'.
Proof. intros (A1 & A2 & A3) (B1 & B2 & B3). pose proof (A3 _ B1). pose proof (A3 _ B2). pose proof (B3 _ A1). pose proof (B3 _ A2). lra. Qed.

Lemma lam_found wave lo hi l0 mu : spans_wave wave lo hi ->
  used mu (believed_line wave l0) Fin l0 (choose_lam0 (Fin lo) (Fin hi) l0 mu).
Proof.
  intros S. unfold choose_lam0, used. replace (fdiv (fsub (Fin hi) (Fin lo)) (Fin 4)) with (Fin ((hi - lo) / 4)) by (unfold fsub; cbn [fneg fadd]; now rewrite fdiv_Fin by lra). cbv zeta.
  destruct mu as [mu|]; [|right; split; [reflexivity|discriminate]].
  unfold fsub at 1. cbn [fneg fadd].
  destruct (fgeb mu _ && fleb mu _) eqn:E.
  2:{ right. split; [reflexivity|]. intros r Er (lo' & hi' & l & S' & _ & B & _). destruct (spans_unique _ _ _ _ _ S S') as [<- <-]. injection Er as ->.
      unfold fgeb in E. cbn [fleb] in E. rewrite (proj2 (Rleb_true _ _)), (proj2 (Rleb_true _ _)) in E by lra. discriminate. }
  apply andb_prop in E. destruct E as [E1 E2].
  unfold fgeb in E1. destruct mu as [mu| | |]; try discriminate. cbn [fleb] in E1, E2. apply Rleb_true in E1, E2.
  destruct (fleb (fabs (fsub l0 (Fin mu))) _) eqn:E3.
  - left. exists mu. split; [reflexivity|]. split; [|reflexivity]. destruct l0 as [l| | |]; try discriminate.
    cbn [fsub fneg fadd fabs fleb] in E3. apply Rleb_true in E3.
    exists lo, hi, l. split; [exact S|]. split; [reflexivity|]. split; [lra|]. exact E3.
  - right. split; [reflexivity|]. intros r Er (lo' & hi' & l & S' & -> & _ & B). destruct (spans_unique _ _ _ _ _ S S') as [<- <-]. injection Er as <-.
    cbn [fsub fneg fadd fabs fleb] in E3. apply Rleb_false in E3. unfold Rminus in *. lra.
Qed.

Lemma usable_rows s n : q_wh_nosky s <> [] -> setdiff_range n (q_low_inds s) <> [] -> usable s n.
Proof.
  intros N H. split; [|exact N]. destruct (setdiff_range n (q_low_inds s)) as [|i l] eqn:E; [congruence|].
  assert (I : In i (setdiff_range n (q_low_inds s))) by (rewrite E; now left). unfold setdiff_range in I. apply filter_In in I.
  destruct I as [I1 I2]. apply in_seq in I1. exists i. split; [lia|]. intros X. apply Bool.negb_true_iff in I2.
  unfold memb in I2. assert (Y : existsb (Nat.eqb i) (q_low_inds s) = true) by (apply existsb_exists; exists i; split; [exact X|apply Nat.eqb_refl]). congruence.
Qed.
Lemma unusable_rows s n : q_wh_nosky s = [] \/ setdiff_range n (q_low_inds s) = [] -> ~ usable s n.
Proof.
  intros [H|H] [(i & Hi & Ni) N]; [congruence|]. assert (I : In i (setdiff_range n (q_low_inds s))).
  { unfold setdiff_range. apply filter_In. split; [apply in_seq; lia|]. apply Bool.negb_true_iff.
    destruct (memb i (q_low_inds s)) eqn:E; [|reflexivity]. unfold memb in E. apply existsb_exists in E. destruct E as (x & Hx & Ex). apply Nat.eqb_eq in Ex. now subst. }
  rewrite H in I. destruct I.
Qed.

(** The outcome of the position fits. *)
Lemma m0_found c e e' n wave m0 y l0 : prep_m0_lam0 c e = (e', Ok tt) -> q_mlims (e2 e) = Some n -> q_wave (e2 e) = Some wave -> physical wave ->
  q_m0 (e2 e) = Some m0 -> q_ypos (e2 e) = Some y -> q_lam0 (e2 e) = Some l0 ->
  exists sh lam, e' = mkEnv (set_q_lam0 (Some lam) (set_q_m0_shift (Some sh) (e2 e))) (e1 e) (e_dpa e) (e_reg e) (e_k e) /\
    (usable (e2 e) n -> used (g_fity c) (believed_row (e2 e) n m0 y) (fun mu => Fin (mu - IZR m0)) (Fin 0) sh /\ used (g_fitl c) (believed_line wave l0) Fin l0 lam) /\
    (usable (e2 e) n -> (2 <= n)%nat /\ exists a b, In (Fin a) wave /\ In (Fin b) wave /\ a <> b) /\
    (~ usable (e2 e) n -> sh = Fin 0 /\ lam = l0).
Proof.
  intros H En Ew Ph Em Ey El. destruct e as [s t d r k]. unfold prep_m0_lam0 in H. rewrite bind_get in H. cbn [e2 e1 e_dpa e_reg e_k] in *. cbv zeta in H.
  rewrite En in H. rewrite (bind_lift _ n) in H by reflexivity. liftin H. rewrite Ew in H. rewrite (bind_lift _ wave) in H by reflexivity.
  rewrite Em in H. rewrite (bind_lift _ m0) in H by reflexivity. rewrite Ey in H. rewrite (bind_lift _ y) in H by reflexivity.
  rewrite El in H. rewrite (bind_lift _ l0) in H by reflexivity.
  assert (X : forall a b st st', bindS (up2 (set_q_m0_shift (Some a))) (fun _ => up2 (set_q_lam0 (Some b))) st = (st', Ok tt) ->
    st' = mkEnv (set_q_lam0 (Some b) (set_q_m0_shift (Some a) (e2 st))) (e1 st) (e_dpa st) (e_reg st) (e_k st)).
  { intros a' b st st' K. injection K as <-. reflexivity. }
  destruct (setdiff_range n (q_low_inds s)) as [|g gs] eqn:Eg.
  - apply X in H. subst e'. exists (Fin 0), l0. split; [reflexivity|].
    split; [intros U; exfalso; revert U; apply unusable_rows; now right|]. split; [intros U; exfalso; revert U; apply unusable_rows; now right|]. auto.
  - destruct (q_wh_nosky s) as [|h hs] eqn:Eh.
    + apply X in H. subst e'. exists (Fin 0), l0. split; [reflexivity|].
      split; [intros U; exfalso; revert U; apply unusable_rows; now left|]. split; [intros U; exfalso; revert U; apply unusable_rows; now left|]. auto.
    + apply bind_inv in H. destruct H as (sa & [] & B1 & H). apply lift_inv in B1. destruct B1 as [-> B1].
      destruct wave as [|w0 ws]; [discriminate|]. cbn [np_min np_max] in H.
      rewrite (bind_lift _ (fmin1 w0 ws)) in H by reflexivity. rewrite (bind_lift _ (fmax1 w0 ws)) in H by reflexivity.
      apply bind_inv in H. destruct H as (sa & [] & B2 & H). apply lift_inv in B2. destruct B2 as [-> B2].
      assert (Pf : forall z, In z (w0 :: ws) -> exists r, z = Fin r) by (intros z Hz; destruct (Ph z Hz) as (xx & Exx & _); exists xx; exact Exx).
      destruct (fmin1_low ws w0 Pf) as (lo & Elo & I1 & L1). destruct (fmax1_high ws w0 Pf) as (hi & Ehi & I2 & L2).
      rewrite Elo, Ehi in *. assert (S : spans_wave (w0 :: ws) lo hi) by (split; [exact I1|]; split; [exact I2|]; intros q Hq; auto).
      apply X in H. subst e'. eexists. eexists. split; [reflexivity|]. split; [intros _; split; [apply shift_found|now apply lam_found]|]. split.
      * intros _. split.
        -- apply bounds_differ in B1. destruct n as [|[|n]]; [cbn in B1; lra|cbn in B1; lra|lia].
        -- exists lo, hi. split; [exact I1|]. split; [exact I2|]. intros ->.
           unfold fsub in B2. cbn [fneg fadd] in B2. rewrite fdiv_Fin in B2 by lra. cbn [fneg fadd] in B2. apply bounds_differ in B2. apply B2. field.
      * intros U. exfalso. apply U. apply usable_rows; congruence.
Qed.

Lemma prep_placed c e e' wave fx er n : raw (e2 e) wave fx er n -> physical wave -> shared e fx er -> fit_prep c e = (e', Ok tt) ->
  exists wave' n' m0 y sh l0 lam, q_wave (e2 e') = Some wave' /\ q_mlims (e2 e') = Some n' /\ q_m0 (e2 e') = Some m0 /\ q_ypos (e2 e') = Some y /\
    q_m0_shift (e2 e') = Some sh /\ q_lam0 (e2 e') = Some lam /\ nominal c e l0 /\
    (usable (e2 e') n' -> used (g_fity c) (believed_row (e2 e') n' m0 y) (fun mu => Fin (mu - IZR m0)) (Fin 0) sh /\ used (g_fitl c) (believed_line wave' l0) Fin l0 lam) /\
    (usable (e2 e') n' -> (2 <= n')%nat /\ exists a b, In (Fin a) wave' /\ In (Fin b) wave' /\ a <> b) /\
    (~ usable (e2 e') n' -> sh = Fin 0 /\ lam = l0).
Proof.
  intros R Ph Al H. unfold fit_prep in H. rewrite bind_get in H.
  assert (Np : q_prepared (e2 e) = false) by apply R. rewrite Np in H.
  apply bind_inv in H. destruct H as (eb & [] & H & H2). unfold modS in H2. injection H2 as <-. cbn [e2 e1 e_dpa e_reg e_k].
  rewrite body_parts in H. apply bind_inv in H. destruct H as (e1' & [] & H1 & H).
  destruct (start_lam0 _ _ _ wave (proj1 R) H1) as (l0 & Nl & Ll).
  destruct (start_inv _ _ _ _ _ _ _ R H1) as (m & w & A & Rn & Em & Ew & Q & Y & L0 & Pr & One & Kk & Rfl & Rli & _). clear H1.
  apply bind_inv in H. destruct H as (e2' & [] & H1 & H).
  unfold shared in Al. rewrite <- Kk in Al.
  destruct (subtract_inv _ _ _ _ _ _ _ _ _ A Rn Ph Al H1) as (wb & fb & rb & mb & wtb & ic & ct & a & ks & rf & rl & I & N1 & Phb & Ewb & Grf & Kf & Grl & Lb & Qb & Yb & Rb & _ & L0b & Prb & _ & _ & Ka & Kb).
  clear H1. apply bind_inv in H. destruct H as (e3' & [] & H1 & H).
  destruct (trim_sky_inv _ _ _ _ _ _ _ _ _ _ _ _ _ I Rb (eq_trans Qb Q) H1) as (ks2 & sk & Nk & Kl & Bk & I3 & Q3 & Sk & Ss & (KF1 & KF2 & KF3 & KF4 & KF5) & O3 & D3 & K3). clear H1.
  set (wc := map (fun k => nth k wb NaN) ks2) in *.
  apply bind_inv in H. destruct H as (e4' & [] & H1 & H).
  assert (S3q : shape (trim_cols ks2 mb) n (length wc)). { destruct I3 as ((_ & _ & _ & _ & _ & _ & _ & _ & X & _) & Rx & _). rewrite Rx in X. exact X. }
  destruct (low_inv _ _ _ _ _ _ _ _ _ _ _ _ _ _ I3 Q3 S3q Sk Ss H1) as (m4 & lw & I4 & R4 & (KG1 & KG2 & KG3 & KG4 & KG5) & O4 & D4 & K4 & _). clear H1.
  apply bind_inv in H. destruct H as (e5' & [] & H1 & H).
  assert (L4 : forall i, (i < n)%nat -> line_row a wc (trim_cols ks2 ct) i) by (intros i Hi; apply line_cols; auto).
  destruct (spatial_inv _ _ _ _ _ _ _ _ _ _ _ _ a _ _ _ I4 R4 L4 H1) as (n' & f5 & r5 & m5 & w5 & i5 & c5 & q5 & s5 & l5 & y5 & v & I5 & R5 & L5 & _ & Y5 & M5 & N5 & L05 & _ & _ & D5 & K5 & _). clear H1.
  unfold prep_end in H. apply bind_inv in H. destruct H as (ea & [] & H1 & H). apply bind_inv in H. destruct H as (ed & [] & H2 & H). apply bind_inv in H. destruct H as (ee & [] & H3 & H).
  rewrite up2_eq in H. injection H as <-.
  destruct I5 as ((W5 & _ & F5 & _) & _). destruct (weights_inv _ _ _ _ F5 H1) as (p & Mt & -> & Lp & Sm). clear H1. destruct (dpa_inv _ _ _ H2) as (d & -> & _). clear H2.
  destruct (q_m0 (e2 e5')) as [m0|] eqn:Em0; [|congruence]. destruct (q_ypos (e2 e5')) as [y|] eqn:Ey; [|congruence].
  assert (Phc : physical wc).
  { intros x Hx. apply (picked_In _ _ _ Kl) in Hx. destruct Hx as [Hx _]. exact (Phb x Hx). }
  assert (Lf : q_lam0 (e2 e5') = Some l0) by congruence.
  destruct (m0_found _ _ _ n' wc m0 y l0 H3 N5 W5 Phc Em0 Ey Lf) as (sh & lam & -> & A1 & A3 & A4).
  exists wc, n', m0, y, sh, l0, lam. cbn [e2] in A1, A3, A4 |- *.
  split; [exact W5|]. split; [exact N5|]. split; [exact Em0|]. split; [exact Ey|]. split; [reflexivity|]. split; [reflexivity|]. split; [exact Nl|].
  split; [exact A1|]. split; [exact A3|exact A4].
Qed.
