(* Examples and counterexamples for the 1-D line fits. *)
From Coq Require Import String Ascii Reals List Bool Arith ZArith Lia Lra Psatz.
From Verif Require Import PyFloat PyBase Arr PyNum MKernels MIo MAper1D MPost MMask MTrim MFit1D SKernels SMask STrim SPost SFit1D
  PKernels PKernels2 PMask PTrim PAper1D PPost PFit1D PFit1D2 PFit1D3 PFit1D4 PFit1D5.
Import ListNotations.
Local Open Scope R_scope.

(** An optimiser that tries a list of solutions (dispersion and fluxes) in turn and takes the first one
    within the bounds; it keeps the other parameters, moved to a bound when outside. *)
Definition setp (a : par) (v : fl) : par := mkPar v (p_lo a) (p_hi a).
Definition inb (a : par) : bool := fleb (p_lo a) (p_val a) && fleb (p_val a) (p_hi a).
Definition okp (p : prm) : bool := inb (m_z p) && inb (m_vd p) && forallb inb (m_flux p) && forallb inb (m_cont p).
Definition clip (a : par) : par :=
  setp a (if isfinite (p_val a) && inb a then p_val a
          else match p_lo a with Fin l => Fin l | _ => match p_hi a with Fin h => Fin h | _ => Fin 0 end end).
Definition fill (l : list par) (vs : list R) : list par := map (fun p => setp (fst p) (Fin (snd p))) (combine l vs).
Fixpoint tryM (cands : list (R * list R)) (rf : prm -> res (list fl)) (p : prm) : res prm :=
  match cands with
  | [] => let r := mkPrm (clip (m_z p)) (clip (m_vd p)) (map clip (m_flux p)) (map clip (m_cont p)) in
          if okp r then Ok r else Err ValueError
  | (v, fs) :: cs =>
      let r := mkPrm (clip (m_z p)) (setp (m_vd p) (Fin v)) (fill (m_flux p) fs) (map clip (m_cont p)) in
      if Nat.eqb (length fs) (length (m_flux p)) && okp r then Ok r else tryM cs rf p
  end.

Lemma inb_within a v : inb (setp a v) = true -> within_par a (setp a v).
Proof. unfold inb, within_par, setp. cbn [p_lo p_hi p_val]. intros H. apply andb_prop in H. tauto. Qed.

Lemma clip_within l : forallb inb (map clip l) = true -> Forall2 within_par l (map clip l).
Proof.
  induction l as [|a l IH]; cbn [map forallb]; intros H; constructor; apply andb_prop in H; [apply inb_within|apply IH]; apply H.
Qed.

Lemma fill_within l : forall vs, length vs = length l -> forallb inb (fill l vs) = true -> Forall2 within_par l (fill l vs).
Proof.
  unfold fill. induction l as [|a l IH]; intros [|v vs] L H; try discriminate; cbn [combine map] in *; constructor;
    cbn [forallb] in H; apply andb_prop in H; destruct H as [H1 H2].
  - apply inb_within, H1.
  - apply IH; [now inversion L|exact H2].
Qed.

Lemma try_respects cands : respects_bounds (tryM cands).
Proof.
  intros rf p. induction cands as [|[v fs] cs IH]; intros r; cbn [tryM].
  - destruct (okp _) eqn:E; [|discriminate]. intros H; inversion H; clear H r H1. unfold okp in E. cbn [m_z m_vd m_flux m_cont] in E.
    apply andb_prop in E; destruct E as [E E4]. apply andb_prop in E; destruct E as [E E3]. apply andb_prop in E; destruct E as [E1 E2].
    unfold within_prm; cbn [m_z m_vd m_flux m_cont]. split; [apply inb_within, E1|]. split; [apply inb_within, E2|].
    split; apply clip_within; assumption.
  - destruct (Nat.eqb_spec (length fs) (length (m_flux p))) as [L|]; cbn [andb]; [|apply IH].
    destruct (okp _) eqn:E; [|apply IH]. intros H; inversion H; clear H r H1. unfold okp in E. cbn [m_z m_vd m_flux m_cont] in E.
    apply andb_prop in E; destruct E as [E E4]. apply andb_prop in E; destruct E as [E E3]. apply andb_prop in E; destruct E as [E1 E2].
    unfold within_prm; cbn [m_z m_vd m_flux m_cont]. split; [apply inb_within, E1|]. split; [apply inb_within, E2|].
    split; [apply fill_within|apply clip_within]; assumption.
Qed.

Lemma clip_feasible a : feasible_par a -> inb (clip a) = true.
Proof.
  intros (v & A & B). unfold clip. destruct (isfinite (p_val a) && inb a) eqn:E.
  - apply andb_prop in E. unfold inb, setp in *. cbn [p_val p_lo p_hi]. apply E.
  - unfold inb, setp. cbn [p_val p_lo p_hi]. destruct (p_lo a) as [l| | |]; cbn in A; try discriminate.
    + cbn [fleb]. rewrite (proj2 (Rleb_true l l)) by lra. cbn [andb]. apply Rleb_true in A.
      destruct (p_hi a) as [h| | |]; cbn in B |- *; try reflexivity; try discriminate.
      apply Rleb_true in B. apply Rleb_true. lra.
    + destruct (p_hi a) as [h| | |]; cbn in B |- *; try reflexivity; try discriminate.
      apply Rleb_true. lra.
Qed.

Lemma clip_feasibles l : Forall feasible_par l -> forallb inb (map clip l) = true.
Proof. induction 1 as [|a l F _ IH]; cbn [map forallb]; [reflexivity|]. rewrite clip_feasible, IH by assumption. reflexivity. Qed.

Lemma try_answers cands : answers (tryM cands).
Proof.
  intros rf p (F1 & F2 & F3 & F4). induction cands as [|[v fs] cs IH]; cbn [tryM].
  - unfold okp. cbn [m_z m_vd m_flux m_cont]. rewrite !clip_feasible, !clip_feasibles by assumption. cbn [andb]. eauto.
  - destruct (_ && _); eauto.
Qed.

Lemma clip_finite a : isfinite (p_val (clip a)) = true.
Proof.
  unfold clip, setp. cbn [p_val]. destruct (isfinite (p_val a) && inb a) eqn:E; [apply andb_prop in E; apply E|].
  destruct (p_lo a); try reflexivity; destruct (p_hi a); reflexivity.
Qed.

Lemma clips_finite l : Forall (fun a => isfinite (p_val a) = true) (map clip l).
Proof. induction l; constructor; auto using clip_finite. Qed.

Lemma try_finite cands : finite_answers (tryM cands).
Proof.
  intros rf p. induction cands as [|[v fs] cs IH]; intros r; cbn [tryM].
  - destruct (okp _); [|discriminate]. intros H; inversion H; cbn [m_z m_vd m_flux m_cont].
    auto using clip_finite, clips_finite.
  - destruct (_ && _); [|apply IH]. intros H; inversion H; cbn [m_z m_vd m_flux m_cont].
    split; [apply clip_finite|]. split; [reflexivity|]. split; [|apply clips_finite].
    unfold fill. generalize (combine (m_flux p) fs). intros l. induction l; constructor; auto.
Qed.

(** A spectrum of three pixels around H-alpha at redshift zero. *)
Definition wHa : R := 656460 / 100.
Definition ex_spec1 (mask : list fl) : sp1 :=
  mkSp1 None (Some [Fin (wHa - 1); Fin wHa; Fin (wHa + 1)]) None (Some [Fin 1; Fin 2; Fin 1])
        (Some [Fin 1; Fin 1; Fin 1]) (Some mask) None None None.
Definition ones3 : list fl := [Fin 1; Fin 1; Fin 1].
Definition ex_cfg1 (mask : list fl) : cfg1 :=
  mkCfg1 shipped ["Halpha"%string] [[wHa]] (Fin 0) 0 (Fin 10) 2 (Some (Fin 50)) None (ex_spec1 mask) IdInt false.
Definition ex_st1 (n : nat) : st1 := mkSt1 (Fin 0) (Fin 80) (Some (repeat (Fin 1) n)) None None None None None None.
(** Two line sets, each of one line. *)
Definition ex_cfg2 : cfg1 :=
  mkCfg1 shipped ["Halpha"; "Hbeta"]%string [[wHa]; [486271 / 100]] (Fin 0) 0 (Fin 10) 2 (Some (Fin 50)) None (ex_spec1 ones3) IdInt false.
Definition ex_opts (noErrors : bool) : opts1 := mkOpts1 false noErrors true false true.

Lemma halpha : line_set shipped "Halpha" = Ok [(wHa, 1)].
Proof. lazy beta iota zeta delta -[Rdiv IZR]. reflexivity. Qed.
Lemma hbeta : line_set shipped "Hbeta" = Ok [(486271 / 100, 1)].
Proof. lazy beta iota zeta delta -[Rdiv IZR]. reflexivity. Qed.

Lemma ex_runnable mask : runnable (ex_cfg1 mask) (ex_st1 1).
Proof.
  unfold runnable. cbn [ex_cfg1 t_inst t_restw t_gz t_del t_names t_lib t_order t_spec ex_spec1 s_obs s_flux s_err ex_st1 f_flux f_cont].
  split; [exists 50; split; [reflexivity|lra]|].
  split; [exists wHa, [], [], 0, 10; repeat split; unfold wHa; lra|].
  split; [discriminate|]. split; [intros n [<-|[]]; eexists; apply halpha|].
  split; [eexists; split; [reflexivity|cbn; lia]|]. split; [discriminate|].
  split; [eexists; split; [reflexivity|discriminate]|]. do 2 eexists. split; [reflexivity|]. split; reflexivity.
Qed.

Lemma ex_runnable2 : runnable ex_cfg2 (ex_st1 2).
Proof.
  unfold runnable. cbn [ex_cfg2 t_inst t_restw t_gz t_del t_names t_lib t_order t_spec ex_spec1 s_obs s_flux s_err ex_st1 f_flux f_cont].
  split; [exists 50; split; [reflexivity|lra]|].
  split; [exists wHa, [], [[486271 / 100]], 0, 10; repeat split; unfold wHa; lra|].
  split; [discriminate|]. split; [intros n [<-|[<-|[]]]; eexists; [apply halpha|apply hbeta]|].
  split; [eexists; split; [reflexivity|cbn; lia]|]. split; [discriminate|].
  split; [eexists; split; [reflexivity|discriminate]|]. do 2 eexists. split; [reflexivity|]. split; reflexivity.
Qed.

(** The redshift stays at its starting value zero. *)
Lemma ex_z : clip (mkPar (Fin 0) (fsub (Fin 0) (fdiv (Fin 10) (Fin wHa))) (fadd (Fin 0) (fdiv (Fin 10) (Fin wHa)))) =
  mkPar (Fin 0) (Fin (0 + - (10 / wHa))) (Fin (0 + 10 / wHa)) /\
  inb (mkPar (Fin 0) (Fin (0 + - (10 / wHa))) (Fin (0 + 10 / wHa))) = true.
Proof.
  assert (W : 0 < 10 / wHa) by (unfold wHa; lra).
  rewrite fdiv_Fin by (unfold wHa; lra). unfold fsub. cbn [fneg fadd].
  assert (I : inb (mkPar (Fin 0) (Fin (0 + - (10 / wHa))) (Fin (0 + 10 / wHa))) = true).
  { unfold inb. cbn [p_val p_lo p_hi fleb]. rewrite !(proj2 (Rleb_true _ _)) by lra. reflexivity. }
  split; [|exact I]. unfold clip. rewrite I. reflexivity.
Qed.

Lemma clip0 : clip (unbounded (Fin 0)) = unbounded (Fin 0).
Proof. reflexivity. Qed.

Definition neg_both : list (R * list R) := [(1, [-1]); (-1, [1])].

Lemma ex_best1 x d e m : exists r, best_params (tryM neg_both) (ex_cfg1 ones3) (with_cont (ex_cfg1 ones3) (ex_st1 1)) x d e m = Ok r /\
  p_val (m_vd r) = Fin (-1).
Proof.
  destruct ex_z as [Z I]. unfold best_params, make_params, z_par.
  cbn [ex_cfg1 with_cont ex_st1 f_cont t_names t_order t_restw t_gz t_del t_lib first_wave getn nth_error bind items
       set_cont repeat f_flux f_z f_vd length seq Nat.add mapM map neg_both tryM m_z m_vd m_flux m_cont].
  rewrite Z, clip0. unfold okp.
  cbn [m_z m_vd m_flux m_cont fill combine map setp fst snd forallb Nat.eqb length andb]. rewrite I.
  unfold inb at 1 2 3. cbn [p_lo p_hi p_val unbounded setp fleb andb bind m_flux pval nth_error m_vd fltb].
  rewrite (proj2 (Rltb_false 1 0)) by lra. cbn [andb]. rewrite (proj2 (Rltb_true (-1) 0)) by lra.
  unfold inb. cbn [m_z m_vd m_flux m_cont p_lo p_hi p_val setp fst snd nonneg unbounded fleb andb fill combine map forallb].
  rewrite (proj2 (Rleb_false 0 (-1))) by lra. rewrite (proj2 (Rleb_true 0 1)) by lra.
  rewrite ?andb_false_r. cbn [andb].
  eexists. split; [reflexivity|]. reflexivity.
Qed.

(** A fit whose solution has a negative dispersion. *)
Lemma negative_dispersion : exists M rnd c o s s' v, respects_bounds M /\ answers M /\ runnable c s /\
  fit M rnd c o s = (s', Ok tt) /\ f_vd s' = Fin v /\ v < 0.
Proof.
  set (rnd := fun _ _ : nat => Fin 0).
  destruct (fit_no_errors_ok (tryM neg_both) rnd (ex_cfg1 ones3) (ex_opts true) (ex_st1 1)) as [s' F];
    [apply try_respects|apply try_answers|apply ex_runnable|reflexivity|reflexivity|left; reflexivity|].
  exists (tryM neg_both), rnd, (ex_cfg1 ones3), (ex_opts true), (ex_st1 1), s', (-1).
  split; [apply try_respects|]. split; [apply try_answers|]. split; [apply ex_runnable|]. split; [exact F|]. split; [|lra].
  apply fit_inv in F. destruct F as (i & p & x & r & fm & fs & cs & _ & _ & _ & X & B & _ & _ & _ & _ & _ & _ & ->).
  cbn [f_vd]. unfold best_of in B.
  destruct (ex_best1 x (s_flux (t_spec (ex_cfg1 ones3))) (s_err (t_spec (ex_cfg1 ones3))) (s_mask (t_spec (ex_cfg1 ones3)))) as (r' & B' & V).
  rewrite B' in B. inversion B; subst r'. exact V.
Qed.

Definition neg_second : list (R * list R) := [(1, [1; -1])].

Lemma ex_best2 x d e m : exists r, best_params (tryM neg_second) ex_cfg2 (with_cont ex_cfg2 (ex_st1 2)) x d e m = Ok r /\
  map p_val (m_flux r) = [Fin 1; Fin (-1)].
Proof.
  destruct ex_z as [Z I]. unfold best_params, make_params, z_par.
  cbn [ex_cfg2 with_cont ex_st1 f_cont t_names t_order t_restw t_gz t_del t_lib first_wave getn nth_error bind items
       set_cont repeat f_flux f_z f_vd length seq Nat.add mapM map neg_second tryM m_z m_vd m_flux m_cont].
  rewrite Z, clip0. unfold okp.
  cbn [m_z m_vd m_flux m_cont fill combine map setp fst snd forallb Nat.eqb length andb]. rewrite I.
  unfold inb. cbn [p_lo p_hi p_val unbounded setp fleb andb bind m_flux pval nth_error m_vd fltb].
  rewrite !(proj2 (Rltb_false 1 0)) by lra. cbn [andb].
  eexists. split; [reflexivity|]. reflexivity.
Qed.

(** A fit of two line sets whose solution has a negative flux for the second. *)
Lemma negative_second : exists M rnd c o s s' fs, respects_bounds M /\ answers M /\ runnable c s /\
  fit M rnd c o s = (s', Ok tt) /\ f_flux s' = Some fs /\ exists v, In (Fin v) fs /\ v < 0.
Proof.
  set (rnd := fun _ _ : nat => Fin 0).
  destruct (fit_no_errors_ok (tryM neg_second) rnd ex_cfg2 (ex_opts true) (ex_st1 2)) as [s' F];
    [apply try_respects|apply try_answers|apply ex_runnable2|reflexivity|reflexivity|left; reflexivity|].
  exists (tryM neg_second), rnd, ex_cfg2, (ex_opts true), (ex_st1 2), s', [Fin 1; Fin (-1)].
  split; [apply try_respects|]. split; [apply try_answers|]. split; [apply ex_runnable2|]. split; [exact F|].
  split; [|exists (-1); split; [right; left; reflexivity|lra]].
  apply fit_inv in F. destruct F as (i & p & x & r & fm & fs & cs & _ & _ & _ & X & B & _ & _ & FS & _ & _ & _ & ->).
  cbn [f_flux]. unfold best_of in B.
  destruct (ex_best2 x (s_flux (t_spec ex_cfg2)) (s_err (t_spec ex_cfg2)) (s_mask (t_spec ex_cfg2))) as (r' & B' & V).
  rewrite B' in B. inversion B; subst r'. f_equal.
  destruct (m_flux r) as [|a [|b [|? ?]]]; try discriminate. cbn [map] in V. inversion V.
  cbn in FS. congruence.
Qed.

(** The value of a template at a wavelength depends on the other wavelengths. *)
Lemma template_refuted : exists xs ys mu vd flux x gx gy i j, In x xs /\ In x ys /\
  gaussian_line (map Fin xs) (Fin mu) (Fin vd) (Fin flux) = Ok gx /\
  gaussian_line (map Fin ys) (Fin mu) (Fin vd) (Fin flux) = Ok gy /\
  nth_error xs i = Some x /\ nth_error ys j = Some x /\ nth_error gx i <> nth_error gy j.
Proof.
  exists [1001], [1000; 1001], 1000, 100, 1, 1001. do 2 eexists. exists 0%nat, 1%nat.
  split; [left; reflexivity|]. split; [right; left; reflexivity|].
  do 2 (rewrite gaussian_line_Fin by (try discriminate; lra); split; [reflexivity|]).
  split; [reflexivity|]. split; [reflexivity|]. cbn [map nth_error]. intros E. inversion E as [E1]. clear E.
  unfold line_value, gap2 in E1. cbn [fold_right] in E1.
  assert (S : 0 < width 100 1000) by (unfold width, c_kms; lra).
  assert (Q : 0 < sqrt (2 * PI)) by (apply sqrt_lt_R0; pose proof PI_RGT_0; lra).
  assert (N : 1 / (width 100 1000 * sqrt (2 * PI)) <> 0).
  { unfold Rdiv. apply Rmult_integral_contrapositive_currified; [lra|]. apply Rinv_neq_0_compat.
    apply Rmult_integral_contrapositive_currified; lra. }
  apply Rmult_eq_reg_l in E1; [|exact N]. apply exp_inv in E1.
  rewrite Rmin_right in E1 by nra.
  apply Rmult_eq_reg_r in E1; [nra|].
  apply Rinv_neq_0_compat. nra.
Qed.

(** C90: masking the pixel nearest to the line makes the stored model differ from the fitted one. *)
Lemma final_model_refuted : exists T names order q xs data err mask fm r, length data = length xs /\
  length err = length xs /\ length mask = length xs /\
  spectrum_model T names order q (map Fin xs) = Ok fm /\
  residual T names order (map Fin xs) (Some data) (Some err) (Some mask) q = Ok r /\
  used mask 0 /\ Forall (fun e => e = Fin 1) err /\ Forall (fun d => d = Fin 0) data /\ nth_error r 0 <> nth_error fm 0.
Proof.
  set (q := mkPrm (unbounded (Fin 0)) (unbounded (Fin 100)) [unbounded (Fin 1)] [unbounded (Fin 0)]).
  set (xs := [wHa - 1; wHa; wHa + 1]). set (sets := [(1, [(wHa, 1)])]).
  assert (W : 0 < wHa) by (unfold wHa; lra).
  assert (KS : known_sets shipped ["Halpha"%string] [1] sets).
  { repeat split. repeat constructor. }
  assert (PL : positive_lines sets).
  { intros s w r [<-|[]] [E|[]]. inversion E. lra. }
  assert (HQ : holds q 0 100 [1] [0]) by (repeat split).
  assert (SM : forall ys, ys <> [] -> spectrum_model shipped ["Halpha"%string] 0 q (map Fin ys) =
    Ok (map (fun x => Fin (spectrum_value ys 0 100 sets [0] x)) ys)).
  { intros ys N. apply spectrum_model_Fin with (fs := [1]); try assumption; try lra. reflexivity. }
  exists shipped, ["Halpha"%string], 0%nat, q, xs, [Fin 0; Fin 0; Fin 0], ones3, [Fin 1; Fin 0; Fin 1].
  eexists. eexists. do 3 (split; [reflexivity|]). split; [apply SM; discriminate|].
  split.
  { unfold residual. cbn [good_inds where_]. unfold xs. cbn [map].
    assert (G : where_ (fun v : fl => feqb v (Fin 1)) [Fin 1; Fin 0; Fin 1] = [0%nat; 2%nat]).
    { unfold where_. cbn [where_from feqb].
      rewrite !(proj2 (Reqb_true 1 1)) by reflexivity. rewrite (proj2 (Reqb_false 0 1)) by lra. reflexivity. }
    rewrite G.
    change (take [Fin (wHa - 1); Fin wHa; Fin (wHa + 1)] [0%nat; 2%nat]) with (Ok (map Fin [wHa - 1; wHa + 1])).
    cbn [bind]. rewrite SM by discriminate.
    change (take_o (Some [Fin 0; Fin 0; Fin 0]) [0%nat; 2%nat]) with (Ok [Fin 0; Fin 0]).
    change (take_o (Some ones3) [0%nat; 2%nat]) with (Ok [Fin 1; Fin 1]).
    cbn [bind map combine fst snd]. reflexivity. }
  split; [reflexivity|]. split; [repeat constructor|]. split; [repeat constructor|].
  assert (D : forall v, (if isfinite (fdiv (fsub (Fin v) (Fin 0)) (Fin 1)) then fdiv (fsub (Fin v) (Fin 0)) (Fin 1) else Fin 0) = Fin v).
  { intros v. unfold fsub. cbn [fneg fadd]. rewrite fdiv_Fin by lra. cbn [isfinite]. f_equal. field. }
  unfold xs. cbn [map nth_error]. rewrite D. clear D. intros E.
  assert (E1 : spectrum_value [wHa - 1; wHa + 1] 0 100 sets [0] (wHa - 1) = spectrum_value [wHa - 1; wHa; wHa + 1] 0 100 sets [0] (wHa - 1))
    by exact (f_equal (fun o => match o with Some (Fin v) => v | _ => 0 end) E). clear E.
  unfold spectrum_value, set_value in E1. cbn [sets map fst snd] in E1. cbv zeta in E1.
  replace (wHa * (1 + 0)) with wHa in E1 by ring. rewrite !rsum_cons in E1. unfold rsum in E1. cbn [fold_right] in E1.
  assert (E2 : line_value [wHa - 1; wHa + 1] wHa (width 100 wHa) (1 * 1) (wHa - 1) =
               line_value [wHa - 1; wHa; wHa + 1] wHa (width 100 wHa) (1 * 1) (wHa - 1)) by lra. clear E1.
  assert (S : 0 < width 100 wHa) by (unfold width, c_kms, wHa; lra).
  unfold line_value in E2. cbn [gap2 fold_right] in E2. set (sg := width 100 wHa) in *.
  assert (Q : 0 < sqrt (2 * PI)) by (apply sqrt_lt_R0; pose proof PI_RGT_0; lra).
  assert (N : 1 * 1 / (sg * sqrt (2 * PI)) <> 0).
  { unfold Rdiv. apply Rmult_integral_contrapositive_currified; [lra|]. apply Rinv_neq_0_compat.
    apply Rmult_integral_contrapositive_currified; lra. }
  apply Rmult_eq_reg_l in E2; [|exact N]. apply exp_inv in E2.
  replace ((wHa + 1 - wHa) ^ 2) with 1 in E2 by ring. replace ((wHa - 1 - wHa) ^ 2) with 1 in E2 by ring.
  replace ((wHa - wHa) ^ 2) with 0 in E2 by ring.
  rewrite (Rmin_left 1 1) in E2 by lra. rewrite (Rmin_left 0 1) in E2 by lra.
  apply Rmult_eq_reg_r in E2; [lra|]. apply Rinv_neq_0_compat. nra.
Qed.

(** Examples meeting the hypotheses of the theorems. *)
Lemma ex_fit rnd : exists s', fit (tryM []) rnd (ex_cfg1 ones3) (ex_opts true) (ex_st1 1) = (s', Ok tt).
Proof. apply fit_no_errors_ok; [apply try_respects|apply try_answers|apply ex_runnable|reflexivity|reflexivity|left; reflexivity]. Qed.

Lemma ex_optimiser : respects_bounds (tryM []) /\ answers (tryM []) /\ finite_answers (tryM []).
Proof. split; [apply try_respects|]. split; [apply try_answers|apply try_finite]. Qed.

Lemma ex_known : known_sets shipped ["Halpha"; "Hbeta"]%string [1; 2] [(1, [(wHa, 1)]); (2, [(486271 / 100, 1)])] /\
  positive_lines [(1, [(wHa, 1)]); (2, [(486271 / 100, 1)])] /\
  holds (mkPrm (unbounded (Fin 0)) (unbounded (Fin 100)) [unbounded (Fin 1); nonneg (Fin 2)] [unbounded (Fin 3)]) 0 100 [1; 2] [3].
Proof.
  split; [|split].
  - repeat split. repeat constructor.
  - intros s w r [<-|[<-|[]]] [E|[]]; inversion E; unfold wHa; lra.
  - repeat split.
Qed.

Lemma ex_nearest : used_pixels [Fin 0; Fin 1; Fin 1] [1%nat; 2%nat] /\
  nearest_used [wHa - 1; wHa; wHa + 1] [Fin 0; Fin 1; Fin 1] (wHa * (1 + 0)).
Proof.
  split.
  - split; [repeat constructor; lia|]. intros i. unfold used. split.
    + intros [<-|[<-|[]]]; reflexivity.
    + intros H. destruct i as [|[|[|i]]]; cbn in H; try (inversion H; lra); [left; reflexivity|right; left; reflexivity|destruct i; discriminate].
  - exists 1%nat, wHa. split; [reflexivity|]. split; [reflexivity|].
    intros y I. replace (wHa - wHa * (1 + 0)) with 0 by ring. pose proof (pow2_ge_0 (y - wHa * (1 + 0))). lra.
Qed.

Lemma ex_corr : exists s', inst_corr (ex_cfg1 ones3) true false (ex_st1 1) = (s', Ok tt) /\ f_corr s' = Some (Fin (sqrt (80 * 80 - 50 * 50))).
Proof.
  unfold inst_corr. cbn [ex_cfg1 t_inst]. rewrite bind_get. cbv zeta. rewrite bind_mod. eexists. split; [reflexivity|].
  cbn [set_corr_err set_corr f_corr ex_st1 f_vd]. fold (corr_of (Fin 80) (Fin 50)). rewrite corr_of_Fin.
  destruct (Rlt_dec _ _) as [|n]; [reflexivity|]. exfalso. apply n. rewrite !Rabs_pos_eq by lra. lra.
Qed.

Lemma ex_ragged : set_attr1 shipped true true ["Halpha"; "NII"]%string None None = Err ValueError /\
  exists ls ws, set_attr1 shipped true true ["NII"; "SII"]%string None None = Ok (ls, ws) /\ length ws = 2%nat.
Proof. split; [reflexivity|]. do 2 eexists. split; [lazy beta iota zeta delta -[Rdiv IZR]; reflexivity|reflexivity]. Qed.

Lemma ex_setup : let s := mkSp1 (Some [Fin 6000; Fin 6500; Fin 6600]) (Some [Fin 6000; Fin 6500; Fin 6600]) None (Some [Fin 1; Fin 2; Fin 3])
    (Some ones3) (Some ones3) None None None in
  arrays1 s [Fin 6000; Fin 6500; Fin 6600] [Fin 1; Fin 2; Fin 3] ones3 ones3 /\
  read_wave_range (b_trim1 shipped) "Halpha" = Ok (Fin 6480, Fin 6650) /\
  kept (fmul (Fin 6480) (fadd (Fin 1) (Fin 0)), fmul (Fin 6650) (fadd (Fin 1) (Fin 0))) [Fin 6000; Fin 6500; Fin 6600] [1%nat; 2%nat].
Proof.
  cbv zeta. split; [repeat split|]. split; [reflexivity|]. split; [repeat constructor; lia|].
  intros j. unfold inside. cbn [fadd fmul fst snd]. split.
  - intros [<-|[<-|[]]]; eexists; (split; [reflexivity|]); split; cbn; apply Rleb_true; lra.
  - intros (w & N & A & B). destruct j as [|[|[|j]]]; [|left; reflexivity|right; left; reflexivity|destruct j; discriminate].
    inversion N; subst w. cbn in A. apply Rleb_true in A. lra.
Qed.

(** A galaxy without an ID, in an otherwise valid fit. *)
Lemma ex_no_id : t_id (with_id IdNone false (ex_cfg1 ones3)) = IdNone /\ runnable (with_id IdNone false (ex_cfg1 ones3)) (ex_st1 1).
Proof. split; [reflexivity|]. exact (ex_runnable ones3). Qed.
