(* Proofs about the 1-D line fits: negative dispersions, the stored model, running a fit. *)
From Coq Require Import String Reals List Bool Arith ZArith Lia Lra Psatz.
From Verif Require Import PyFloat PyBase Arr PyNum MKernels MIo MAper1D MPost MTrim MFit1D SKernels SMask STrim SPost SFit1D
  PKernels PKernels2 PMask PTrim PAper1D PPost PFit1D PFit1D2.
Import ListNotations.
Local Open Scope R_scope.

Definition allnan (l : list fl) : Prop := forall v, In v l -> v = NaN.

Lemma vadd_nan a b : allnan a \/ allnan b -> allnan (vadd a b).
Proof.
  intros H v I. unfold vadd in I. apply in_map_iff in I. destruct I as ([x y] & <- & I). cbn [fst snd].
  destruct H as [H|H].
  - apply in_combine_l in I. rewrite (H x I). reflexivity.
  - apply in_combine_r in I. rewrite (H y I). destruct x; reflexivity.
Qed.

Lemma add_lines_nan x z vd f ls : 0 < 1 + z -> vd <= 0 -> (forall w r, In (w, r) ls -> 0 < w) ->
  forall p r, add_lines x (Fin z) (Fin vd) f ls p = Ok r -> allnan p \/ ls <> [] -> allnan r.
Proof.
  intros Hz Hv. induction ls as [|[w q] ls IH]; intros P p r; cbn [add_lines].
  - intros E [A|A]; [inversion E; subst; exact A|congruence].
  - change (fmul (Fin w) (fadd (Fin 1) (Fin z))) with (Fin (w * (1 + z))).
    destruct (gaussian_line _ _ _ _) as [g|] eqn:G; [|discriminate]. cbn [bind]. intros E _.
    assert (B : allnan g).
    { refine (proj2 (gaussian_line_bad x (Fin (w * (1 + z))) (Fin vd) (fmul f (Fin q)) g _ Hv G)).
      apply Rmult_lt_0_compat; [|exact Hz]. apply (P w q). left. reflexivity. }
    apply (IH (fun w' r' I => P w' r' (or_intror I)) _ _ E). left. apply vadd_nan. right. exact B.
Qed.

Lemma line_profile_nan T n ls x z vd f r : line_set T n = Ok ls -> ls <> [] -> (forall w r, In (w, r) ls -> 0 < w) ->
  0 < 1 + z -> vd <= 0 -> line_profile T n x (Fin z) (Fin vd) f = Ok r -> allnan r.
Proof.
  intros E N P Hz Hv. unfold line_profile. rewrite E. cbn [bind]. intros H.
  apply (add_lines_nan x z vd f ls Hz Hv P _ _ H). right. exact N.
Qed.

Lemma add_sets_nan T x z vd sets : 
  forall p r, add_sets T x z vd sets p = Ok r -> allnan p -> allnan r.
Proof.
  induction sets as [|[n f] sets IH]; intros p r; cbn [add_sets].
  - intros E A. inversion E; subst. exact A.
  - destruct (line_profile _ _ _ _ _ _) as [g|]; [|discriminate]. cbn [bind]. intros E A.
    apply (IH _ _ E). apply vadd_nan. left. exact A.
Qed.

Lemma add_cont_nan x cs : forall i p, allnan p -> allnan (add_cont x i cs p).
Proof. induction cs as [|c cs IH]; intros i p A; cbn [add_cont]; [exact A|]. apply IH, vadd_nan. left. exact A. Qed.

Lemma mapM_head {A B} (f : A -> res B) a l r : mapM f (a :: l) = Ok r -> exists b r', r = b :: r'.
Proof.
  cbn [mapM]. destruct (f a); [|discriminate]. cbn [bind]. destruct (mapM f l); [|discriminate]. cbn [bind].
  intros E. inversion E. eauto.
Qed.

Lemma spectrum_model_nan T n names order q x m ls z vd :
  line_set T n = Ok ls -> ls <> [] -> (forall w r, In (w, r) ls -> 0 < w) ->
  p_val (m_z q) = Fin z -> p_val (m_vd q) = Fin vd -> 0 < 1 + z -> vd <= 0 ->
  spectrum_model T (n :: names) order q x = Ok m -> allnan m.
Proof.
  intros E N P Qz Qv Hz Hv. unfold spectrum_model. rewrite Qz, Qv.
  destruct (pvals (m_cont q) _) as [cs|]; [|discriminate]. cbn [bind].
  destruct (pvals (m_flux q) (length (n :: names))) as [fs|] eqn:F; [|discriminate]. cbn [bind].
  unfold pvals in F. cbn [length seq] in F. destruct (mapM_head _ _ _ _ F) as (f0 & fs' & ->). cbn [combine add_sets].
  destruct (line_profile T n x (Fin z) (Fin vd) f0) as [g|] eqn:G; [|discriminate]. cbn [bind].
  destruct (add_sets T x (Fin z) (Fin vd) (combine names fs') _) as [p|] eqn:A; [|discriminate]. cbn [bind].
  intros H. inversion H. apply add_cont_nan. apply (add_sets_nan _ _ _ _ _ _ _ A). apply vadd_nan. right.
  apply (line_profile_nan T n ls x z vd f0 g); assumption.
Qed.

Lemma residual_negative T n names order x data err mask q r ls z vd :
  length data = length x -> length err = length x -> length mask = length x ->
  line_set T n = Ok ls -> ls <> [] -> (forall w r, In (w, r) ls -> 0 < w) ->
  p_val (m_z q) = Fin z -> p_val (m_vd q) = Fin vd -> 0 < 1 + z -> vd <= 0 ->
  residual T (n :: names) order x (Some data) (Some err) (Some mask) q = Ok r -> forall v, In v r -> v = Fin 0.
Proof.
  intros H1 H2 H3 E N P Qz Qv Hz Hv. rewrite (residual_run _ _ _ _ _ _ _ (good_inds (Some mask)));
    [|assumption|assumption|assumption|apply good_inds_used].
  destruct (spectrum_model _ _ _ _ _) as [m|] eqn:M; [|discriminate]. cbn [bind]. intros R v I.
  pose proof (spectrum_model_nan T n names order q _ m ls z vd E N P Qz Qv Hz Hv M) as A.
  assert (Er : r = map (fun t => scrub (fdiv (fsub (fst t) (nth (snd t) data NaN)) (nth (snd t) err NaN))) (combine m (good_inds (Some mask))))
    by (inversion R; reflexivity).
  rewrite Er in I. apply in_map_iff in I. destruct I as ([a k] & <- & I). apply in_combine_l in I. rewrite (A a I).
  reflexivity.
Qed.

(** The stored model against the fitted one. *)
Lemma gap2_used xs mask mu ks : length mask = length xs -> used_pixels mask ks -> nearest_used xs mask mu ->
  gap2 (map (fun k => nth k xs 0) ks) mu = gap2 xs mu.
Proof.
  intros L U (k & x & Uk & Ek & Lk).
  assert (Ix : In x xs) by (eapply nth_error_In, Ek).
  assert (G : gap2 xs mu = (x - mu) ^ 2).
  { apply gap2_unique; [intros ->; destruct Ix|exists x; auto|exact Lk]. }
  rewrite G. assert (Ik : In k ks) by (apply U; exact Uk).
  apply gap2_unique.
  - intros H. apply map_eq_nil in H. subst. destruct Ik.
  - exists x. split; [|reflexivity]. apply in_map_iff. exists k. split; [|exact Ik].
    apply nth_error_nth with (1 := Ek).
  - intros y I. apply in_map_iff in I. destruct I as (j & <- & Ij). apply Lk. apply nth_In.
    rewrite <- L. apply used_bound. apply U. exact Ij.
Qed.

Lemma spectrum_value_gap xs ys z vd sets cs x :
  (forall s w r, In s sets -> In (w, r) (snd s) -> gap2 xs (w * (1 + z)) = gap2 ys (w * (1 + z))) ->
  spectrum_value xs z vd sets cs x = spectrum_value ys z vd sets cs x.
Proof.
  intros G. unfold spectrum_value. f_equal. f_equal. apply map_ext_in. intros s Is. unfold set_value. f_equal.
  apply map_ext_in. intros [w r] Il. cbn [fst snd]. unfold line_value. rewrite (G s w r Is Il). reflexivity.
Qed.

Lemma final_model_residual T names order q xs data err mask z vd fs cs sets ks fm r :
  length data = length xs -> length err = length xs -> length mask = length xs -> used_pixels mask ks ->
  0 < 1 + z -> 0 < vd -> holds q z vd fs cs -> length cs = S order -> known_sets T names fs sets -> positive_lines sets ->
  (forall s w r, In s sets -> In (w, r) (snd s) -> nearest_used xs mask (w * (1 + z))) -> sets <> [] -> (forall s, In s sets -> snd s <> []) ->
  spectrum_model T names order q (map Fin xs) = Ok fm ->
  residual T names order (map Fin xs) (Some data) (Some err) (Some mask) q = Ok r ->
  forall j k, nth_error ks j = Some k -> exists m, nth_error fm k = Some m /\
    let v := fdiv (fsub m (nth k data NaN)) (nth k err NaN) in
    nth_error r j = Some (match v with Fin a => Fin a | _ => Fin 0 end).
Proof.
  intros Ld Le Lm U Hz Hv Hq Lc KS P NU NS NL M R j k Hk.
  assert (Ik : In k ks) by (eapply nth_error_In, Hk).
  assert (Bk : (k < length xs)%nat) by (rewrite <- Lm; apply used_bound, U, Ik).
  assert (Nx : xs <> []) by (intros ->; cbn in Bk; lia).
  rewrite (spectrum_model_Fin T names order q xs z vd fs cs sets) in M by assumption.
  assert (Efm : fm = map (fun x => Fin (spectrum_value xs z vd sets cs x)) xs) by (inversion M; reflexivity).
  destruct (residual_spec T names order (map Fin xs) data err mask ks q r) as (model & E & L1 & L2 & S);
    rewrite ?map_length; try assumption.
  replace (map (fun k => nth k (map Fin xs) NaN) ks) with (map Fin (map (fun k => nth k xs 0) ks)) in E.
  2:{ rewrite map_map. apply map_ext_in. intros i I.
      assert (Bi : (i < length xs)%nat) by (rewrite <- Lm; apply used_bound, U, I).
      rewrite (nth_indep (map Fin xs) NaN (Fin 0)) by (rewrite map_length; exact Bi). symmetry. apply (map_nth Fin). }
  rewrite (spectrum_model_Fin T names order q _ z vd fs cs sets) in E; try assumption.
  2:{ intros H. apply map_eq_nil in H. subst. destruct Ik. }
  destruct (S j k Hk) as (m & Em & Er). exists m. split; [|exact Er].
  inversion E as [Em']. rewrite <- Em' in Em. rewrite !nth_error_map, Hk in Em. cbn [option_map] in Em.
  rewrite Efm, nth_error_map, (nth_error_nth' xs 0 Bk). cbn [option_map].
  rewrite <- Em. do 2 f_equal. symmetry. apply spectrum_value_gap.
  intros s w rr Is Il. apply gap2_used with (mask := mask); try assumption. apply (NU s w rr Is Il).
Qed.

(** Running a fit. *)
Definition with_cont (c : cfg1) (s : st1) : st1 :=
  match f_cont s with None => set_cont (Some (repeat (Fin 0) (t_order c + 1))) s | Some _ => s end.

Lemma st1_eta s : mkSt1 (f_z s) (f_vd s) (f_flux s) (f_cont s) (f_model s) (f_errs s) (f_file s) (f_corr s) (f_corr_err s) = s.
Proof. destruct s. reflexivity. Qed.

Definition best_of M c s x : res prm :=
  best_params M c (with_cont c s) x (s_flux (t_spec c)) (s_err (t_spec c)) (s_mask (t_spec c)).

Definition fitted_state (s : st1) (r : prm) (fm fs cs : list fl) : st1 :=
  mkSt1 (p_val (m_z r)) (p_val (m_vd r)) (Some fs) (Some cs) (Some fm) (f_errs s) (f_file s) (f_corr s) (f_corr_err s).

(** The part of a fit after the values have been stored. *)
Definition fit_tail (M : optimiser) (rnd : nat -> nat -> fl) (c : cfg1) (o : opts1) (x : list fl) (r : prm) (fs cs : list fl) : ST st1 unit :=
  let data := s_flux (t_spec c) in
  let err := s_err (t_spec c) in
  let mask := s_mask (t_spec c) in
  let true_ := p_val (m_z r) :: p_val (m_vd r) :: fs ++ cs in
  let n := length (t_names c) in
  sdo _ <- liftR (print_id (t_id c));
  sdo _ <- (if negb (o_noPlot o) && negb (o_plot_file o) then raise ValueError else ret tt);
  if o_noErrors o
  then
    sdo _ <- modS (set_errs (Some (mkErrs1 (Fin 0, Fin 0) (Fin 0, Fin 0) (repeat (Fin 0, Fin 0) n)
                                           (repeat (Fin 0, Fin 0) (t_order c + 1)))));
    if negb (o_noPlot o) && negb (t_label c) then raise TypeError else ret tt
  else
    sdo m <- (if o_reload_errors o then load_mc (o_err_file o)
              else sdo s' <- getS;
                   sdo l <- liftR (mapM (fun i => mc_row M c o s' x data err mask (rnd i)) (seq 0 (t_nmc c)));
                   let m := matrix (length true_) l in
                   sdo _ <- save_mc (o_err_file o) m; ret m);
    sdo lo <- liftR (percentiles m (15865 / 1000));
    sdo hi <- liftR (percentiles m (84135 / 1000));
    sdo e0 <- liftR (bsub true_ lo);
    sdo e1 <- liftR (bsub hi true_);
    let e := combine e0 e1 in
    sdo _ <- modS (set_errs (Some (mkErrs1 (nth 0 e (NaN, NaN)) (nth 1 e (NaN, NaN))
                                           (firstn n (skipn 2 e)) (firstn (t_order c + 1) (skipn (n + 2) e)))));
    raise ValueError.

Lemma fit_reaches M rnd c o s i p x r fm fs cs :
  t_inst c = Some i -> fltb i (Fin 0) = false -> make_params c (with_cont c s) false false = Ok p ->
  s_obs (t_spec c) = Some x -> best_of M c s x = Ok r ->
  spectrum_model (t_lib c) (t_names c) (t_order c) r x = Ok fm ->
  pvals (m_cont r) (t_order c + 1) = Ok cs -> pvals (m_flux r) (length (t_names c)) = Ok fs ->
  fit M rnd c o s = fit_tail M rnd c o x r fs cs (fitted_state s r fm fs cs).
Proof.
  intros E1 E2 E3 E4 E5 E6 E7 E8. unfold fit.
  rewrite (bind_lift _ i) by (rewrite E1; reflexivity). rewrite E2, bind_ret, bind_get.
  rewrite (bind_ok _ _ _ (with_cont c s) tt).
  2:{ unfold with_cont. destruct (f_cont s); reflexivity. }
  rewrite bind_get. rewrite (bind_lift _ p) by exact E3. rewrite (bind_lift _ x) by (rewrite E4; reflexivity).
  cbv zeta. rewrite (bind_lift _ r) by exact E5. rewrite (bind_lift _ fm) by exact E6.
  rewrite !bind_mod. rewrite (bind_lift _ cs) by exact E7. rewrite bind_mod. rewrite (bind_lift _ fs) by exact E8.
  rewrite bind_mod. unfold fit_tail. cbv zeta. f_equal.
  unfold fitted_state, with_cont. destruct (f_cont s); reflexivity.
Qed.

Lemma fit_inv M rnd c o s s' : fit M rnd c o s = (s', Ok tt) ->
  exists i p x r fm fs cs, t_inst c = Some i /\ fltb i (Fin 0) = false /\ make_params c (with_cont c s) false false = Ok p /\
  s_obs (t_spec c) = Some x /\ best_of M c s x = Ok r /\
  spectrum_model (t_lib c) (t_names c) (t_order c) r x = Ok fm /\
  pvals (m_cont r) (t_order c + 1) = Ok cs /\ pvals (m_flux r) (length (t_names c)) = Ok fs /\
  o_noErrors o = true /\ t_id c = IdInt /\ (o_noPlot o = true \/ t_label c = true) /\
  s' = mkSt1 (p_val (m_z r)) (p_val (m_vd r)) (Some fs) (Some cs) (Some fm)
        (Some (mkErrs1 (Fin 0, Fin 0) (Fin 0, Fin 0) (repeat (Fin 0, Fin 0) (length (t_names c)))
                                     (repeat (Fin 0, Fin 0) (t_order c + 1))))
        (f_file s) (f_corr s) (f_corr_err s).
Proof.
  intros H. pose proof H as H0. unfold fit in H.
  apply bind_inv in H. destruct H as (s1 & i & A & H). apply lift_inv in A. destruct A as [-> A].
  assert (Ei : t_inst c = Some i) by (destruct (t_inst c); cbn in A; congruence).
  apply bind_inv in H. destruct H as (s1 & u1 & B & H).
  assert (E2 : fltb i (Fin 0) = false /\ s1 = s).
  { destruct (fltb i (Fin 0)); [discriminate|]. split; [reflexivity|]. inversion B. reflexivity. }
  destruct E2 as [E2 ->]. rewrite bind_get in H.
  rewrite (bind_ok _ _ _ (with_cont c s) tt) in H.
  2:{ unfold with_cont. destruct (f_cont s); reflexivity. }
  rewrite bind_get in H.
  apply bind_inv in H. destruct H as (s1 & p & C & H). apply lift_inv in C. destruct C as [-> C].
  apply bind_inv in H. destruct H as (s1 & x & D & H). apply lift_inv in D. destruct D as [-> D].
  assert (Ex : s_obs (t_spec c) = Some x) by (destruct (s_obs (t_spec c)); cbn in D; congruence).
  cbv zeta in H.
  apply bind_inv in H. destruct H as (s1 & r & F & H). apply lift_inv in F. destruct F as [-> F].
  apply bind_inv in H. destruct H as (s1 & fm & G & H). apply lift_inv in G. destruct G as [-> G].
  rewrite !bind_mod in H.
  apply bind_inv in H. destruct H as (s1 & cs & I & H). apply lift_inv in I. destruct I as [-> I].
  rewrite bind_mod in H.
  apply bind_inv in H. destruct H as (s1 & fs & J & H). apply lift_inv in J. destruct J as [-> J].
  clear H. rewrite (fit_reaches M rnd c o s i p x r fm fs cs) in H0 by assumption.
  exists i, p, x, r, fm, fs, cs. do 8 (split; [assumption|]).
  unfold fit_tail in H0. cbv zeta in H0.
  apply bind_inv in H0. destruct H0 as (s0 & u0 & K0 & H0). apply lift_inv in K0. destruct K0 as [-> K0].
  assert (Eid : t_id c = IdInt) by (destruct (t_id c); cbn in K0; congruence).
  apply bind_inv in H0. destruct H0 as (s1 & u2 & K & H0).
  assert (s1 = fitted_state s r fm fs cs).
  { destruct (negb (o_noPlot o) && negb (o_plot_file o)); inversion K; reflexivity. } subst s1.
  destruct (o_noErrors o).
  - split; [reflexivity|]. split; [exact Eid|]. rewrite bind_mod in H0.
    destruct (o_noPlot o), (t_label c); cbn in H0; try discriminate; (split; [auto|inversion H0; reflexivity]).
  - exfalso. apply bind_inv in H0. destruct H0 as (s1 & m & _ & H0).
    apply bind_inv in H0. destruct H0 as (s2 & lo & _ & H0).
    apply bind_inv in H0. destruct H0 as (s3 & hi & _ & H0).
    apply bind_inv in H0. destruct H0 as (s4 & e0 & _ & H0).
    apply bind_inv in H0. destruct H0 as (s5 & e1 & _ & H0). rewrite bind_mod in H0. discriminate.
Qed.

Lemma fit_with_errors_fails M rnd c o s s' : o_noErrors o = false -> fit M rnd c o s <> (s', Ok tt).
Proof. intros N H. apply fit_inv in H. destruct H as (i & p & x & r & fm & fs & cs & H). decompose [and] H. congruence. Qed.
