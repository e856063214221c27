(* Proofs about the pruned copy of a fit and about setting a fit up again. *)
From Coq Require Import String Reals Lra List Bool Arith ZArith Lia.
From Verif Require Import PyFloat PyBase Arr PyNum MParams MKernels MAper2D MAttr MShare SParams SAper2D SAttr SShare PParams PAper2D PAper2DHist PAttr PAttr2 PAttrEx PShare.
Import ListNotations.
Local Open Scope nat_scope.

Section P.
Variables (c : cfg) (k0 : kinmodel).
Hypothesis Hlen : length (k_vary k0) = length (k_theta k0).

Lemma upd_th k tf : length tf = nfree (k_vary k0) -> length (k_theta k) = length (k_theta k0) ->
  (forall m, ~ free (k_vary k0) m -> nth_error (k_theta k) m = nth_error (k_theta k0) m) ->
  exists th, update_parameters (k_theta k) (k_vary k0) tf = (th, Ok tt) /\ update_parameters (k_theta k0) (k_vary k0) tf = (th, Ok tt) /\
    length th = length (k_theta k0) /\ (forall m, ~ free (k_vary k0) m -> nth_error th m = nth_error (k_theta k0) m).
Proof.
  intros H L N. rewrite (update_agree (k_vary k0) tf (k_theta k) (k_theta k0)); auto; try lia.
  destruct (update_parameters_spec (k_theta k0) (k_vary k0) tf) as [x [E [L' [F' N']]]]; [auto|lia|]. exists x. auto.
Qed.

Lemma update_kinv_len k s tf : kinv c k0 k s ->
  kinv c k0 (fst (km_update c tf k)) false /\ (snd (km_update c tf k) = Ok tt -> kinv c k0 (fst (km_update c tf k)) true).
Proof.
  intros HK. pose proof HK as [V1 [V2 [V3 [V4 [a [a0 [w [A1 [A2 [A3 [A4 [A5 [A6 A7]]]]]]]]]]]]].
  unfold km_update. rewrite V1, n_free_param_nfree.
  destruct (Nat.eqb_spec (length tf) (nfree (k_vary k0))) as [Ht|Ht]; cbn [negb fst snd].
  2: { split; [|discriminate]. repeat (split; [assumption|]). exists a, a0, w.
       repeat (split; [assumption|]). intros [Hx|Hx]; [discriminate|auto]. }
  destruct (upd_th k tf Ht V3 V4) as (th & U & _ & L & N).
  rewrite U. unfold km_update_aper. cbn [k_vary k_theta k_aper k_noscale k_model k_stamp]. rewrite A1.
  unfold aper_update. unfold bindS at 1 2 3, modS at 1 2 3.
  destruct (eval_pres c (a_su a0) w (a_stamp a0) A3 (set_theta th a)) as [P1 P2]; [now apply inv_theta|].
  destruct (do_model_calcs c (set_theta th a)) as [x [[]|e]]; cbn [fst snd] in *.
  - specialize (P2 eq_refl).
    match goal with |- context [store_model c ?kk ?xx] => set (kq := kk); destruct (store_model c kq xx) as [k' r] eqn:Es end.
    destruct (store_fields _ _ _ _ _ Es) as [S1 [S2 [S3 [S4 S5]]]]. cbn in S1, S2, S3, S4.
    assert (X : forall b, kinv c k0 k' b).
    { intros b. unfold kinv. rewrite S1, S2, S3. repeat (split; [assumption || reflexivity|]).
      exists x, a0, w. repeat (split; [assumption || reflexivity|]). auto. }
    cbn [fst]. auto.
  - split; [|discriminate]. unfold kinv. cbn. repeat (split; [assumption || reflexivity|]).
    exists x, a0, w. repeat (split; [assumption || reflexivity|]). intros [Hx|Hx]; [discriminate|].
    apply P1. exact Hx.
Qed.

(* two objects with the same past set-up answer alike *)
Lemma update_same k k' s s' tf : kinv c k0 k s -> kinv c k0 k' s' ->
  (s = true \/ o_adapt (c_opt c) = false) -> (s' = true \/ o_adapt (c_opt c) = false) ->
  snd (km_update c tf k) = snd (km_update c tf k') /\
  (snd (km_update c tf k) = Ok tt -> k_model (fst (km_update c tf k)) = k_model (fst (km_update c tf k'))).
Proof.
  intros [V1 [V2 [V3 [V4 [a [a0 [w [A1 [A2 [A3 [A4 [A5 [A6 A7]]]]]]]]]]]]]
         [V1' [V2' [V3' [V4' [a' [a0' [w' [A1' [A2' [A3' [A4' [A5' [A6' A7']]]]]]]]]]]]] Hs Hs'.
  assert (a0' = a0) by congruence. subst a0'. rewrite <- A4' in *. rewrite A4 in *. clear A4' w'.
  specialize (A7 Hs). specialize (A7' Hs').
  unfold km_update. rewrite V1, V1', n_free_param_nfree.
  destruct (Nat.eqb_spec (length tf) (nfree (k_vary k0))) as [Ht|Ht]; cbn [negb]; [|split; [reflexivity|discriminate]].
  destruct (upd_th k tf Ht V3 V4) as (th & U & U0 & L & N). destruct (upd_th k' tf Ht V3' V4') as (th' & U' & U0' & _).
  assert (th' = th) by congruence. subst th'. rewrite U, U'. unfold km_update_aper. cbn [k_vary k_theta k_aper k_noscale k_model k_stamp].
  rewrite A1, A1'. unfold aper_update. unfold bindS, modS.
  pose proof (eval_rel c (a_su a0) w (a_stamp a0) A3 (set_theta th a) (set_theta th a')) as R.
  destruct R as [R1 R2]; [now apply inv_theta|now apply inv_theta|reflexivity|cbn; congruence|].
  destruct (do_model_calcs c (set_theta th a)) as [x [[]|e]];
  destruct (do_model_calcs c (set_theta th a')) as [y [[]|e']]; cbn [fst snd] in *; try discriminate.
  - specialize (R2 eq_refl). subst y. rewrite V2, V2'. unfold store_model. destruct (a_model x); [|split; [reflexivity|discriminate]].
    cbn [k_noscale]. destruct (k_noscale k0); [auto|]. destruct (scale_model _ _); cbn [fst snd k_model]; split; auto; discriminate.
  - split; [auto|discriminate].
Qed.

Lemma llike_kinv k s tf : kinv c k0 k s ->
  kinv c k0 (fst (km_llike c k tf)) false /\ (forall v, snd (km_llike c k tf) = Ok v -> kinv c k0 (fst (km_llike c k tf)) true).
Proof.
  intros H. destruct (update_kinv_len k s tf H) as [A B]. unfold km_llike.
  destruct (km_update c tf k) as [k' [[]|e]]; cbn [fst snd] in *.
  - specialize (B eq_refl). destruct (k_model k'); cbn [fst snd]; auto.
  - split; [exact A|discriminate].
Qed.

Lemma llike_same k k' s s' tf : kinv c k0 k s -> kinv c k0 k' s' ->
  (s = true \/ o_adapt (c_opt c) = false) -> (s' = true \/ o_adapt (c_opt c) = false) ->
  snd (km_llike c k tf) = snd (km_llike c k' tf).
Proof.
  intros H H' Hs Hs'. destruct (update_same k k' s s' tf H H' Hs Hs') as [A B]. unfold km_llike.
  destruct (km_update c tf k) as [x [[]|e]]; destruct (km_update c tf k') as [y [[]|e']]; cbn [fst snd] in *; try congruence.
  rewrite (B eq_refl). destruct (k_model y); reflexivity.
Qed.
End P.

(** The object that set-up makes. *)
Lemma make_init_kinv c s st tf k : length (t_vary s) = length (t_theta s) ->
  initialize_fitting_theta (t_theta s) (t_vary s) = Ok tf -> km_make c tf (new_km s st) = (k, Ok tt) -> kinv c (new_km s st) k true.
Proof.
  intros Hl Hi. unfold km_make. cbn [new_km k_vary k_theta k_aper k_noscale k_model k_stamp].
  rewrite (unpack_pack _ _ _ Hl Hi). destruct (negb _); [discriminate|].
  unfold aper_new. destruct (setup_calcs c (t_theta s)) as [a0|] eqn:Es; [|discriminate].
  destruct (setup_calcs_inv _ _ _ Es) as [w [W1 [W2 [W3 W4]]]].
  destruct (eval_pres c (a_su a0) w (a_stamp a0) W1 a0 W3) as [P1 P2].
  destruct (do_model_calcs c a0) as [x [[]|e]]; [|discriminate]. cbn [fst snd] in *.
  intros E. destruct (store_fields _ _ _ _ _ E) as [S1 [S2 [S3 [S4 S5]]]]. cbn in S1, S2, S3, S4.
  unfold kinv. rewrite S1, S2, S3. cbn [new_km k_vary k_theta k_noscale]. repeat (split; [assumption || reflexivity|]).
  exists x, a0, w. repeat (split; [assumption || reflexivity|]). auto.
Qed.

Lemma prune_cfg c : mkcfg (prune_gal (c_gal c)) (c_ins c) (c_opt c) (c_prof c) = c.
Proof. destruct c as [[? ? ? ? ? ? ? ? []] ? ? ?]. reflexivity. Qed.

(** What likelihood calls leave alone, and what they keep. *)
Lemma used_inv f0 f1 k1 f2 : length (t_vary (ft_set f0)) = length (t_theta (ft_set f0)) ->
  setup_model f0 = (f1, Ok tt) -> ft_km f1 = Some k1 -> used f1 f2 ->
  ft_cfg f2 = ft_cfg f0 /\ ft_set f2 = ft_set f0 /\ ft_prior f2 = ft_prior f1 /\
  exists k s, ft_km f2 = Some k /\ kinv (ft_cfg f0) (new_km (ft_set f0) (ft_stamp f0)) k s /\ (s = true \/ o_adapt (c_opt (ft_cfg f0)) = false).
Proof.
  intros Hl Hs Hk H. unfold setup_model in Hs. destruct (initialize_fitting_theta _ _) as [tf|] eqn:Ei; [|discriminate].
  destruct (km_make (ft_cfg f0) tf _) as [k r] eqn:Em. injection Hs as <- ->. cbn [ft_km] in Hk. injection Hk as ->.
  pose proof (make_init_kinv _ _ _ _ _ Hl Ei Em) as KV.
  assert (ST : forall f t f' r, fit_lnprob f t = (f', r) -> ft_cfg f' = ft_cfg f /\ ft_set f' = ft_set f /\ ft_prior f' = ft_prior f /\
     (f' = f \/ exists kk, ft_km f = Some kk /\ ft_km f' = Some (fst (km_llike (ft_cfg f) kk t)) /\
       (forall v, r = Ok v -> exists u, snd (km_llike (ft_cfg f) kk t) = Ok u))).
  { intros f t f' r. unfold fit_lnprob. destruct (ft_prior f) eqn:Ep; [|intros X; injection X as <- <-; auto 6].
    unfold lnprob. destruct (prior_eval _ _); [|intros X; injection X as <- <-; auto 6].
    destruct (negb _); [intros X; injection X as <- <-; auto 6|].
    destruct (ft_km f) as [kk|] eqn:Ek; [|intros X; injection X as <- <-; auto 6].
    destruct (km_llike (ft_cfg f) kk t) as [k' [u|e]] eqn:El; intros X; injection X as <- <-; cbn [ft_cfg ft_set ft_prior ft_km];
      (repeat split; [exact Ep|]); right; exists kk; rewrite El; cbn [fst snd]; repeat split; try discriminate; intros v _; eauto. }
  induction H as [|f t v f' H IH E|f t r f' H IH Ha E].
  - cbn [ft_cfg ft_set ft_prior ft_km]. repeat split. exists k1, true. auto.
  - destruct IH as (I1 & I2 & I3 & k & s & I4 & I5 & I6). destruct (ST _ _ _ _ E) as (J1 & J2 & J3 & J4).
    split; [congruence|]. split; [congruence|]. split; [congruence|]. destruct J4 as [->|(kk & J4 & J5 & J6)]; [exists k, s; auto|].
    assert (kk = k) by congruence. subst kk. rewrite I1 in *. exists (fst (km_llike (ft_cfg f0) k t)), true. split; [exact J5|]. split; [|now left].
    destruct (J6 v eq_refl) as [u Hu]. exact (proj2 (llike_kinv _ (new_km (ft_set f0) (ft_stamp f0)) Hl k s t I5) u Hu).
  - destruct IH as (I1 & I2 & I3 & k & s & I4 & I5 & I6). destruct (ST _ _ _ _ E) as (J1 & J2 & J3 & J4).
    split; [congruence|]. split; [congruence|]. split; [congruence|]. destruct J4 as [->|(kk & J4 & J5 & _)]; [exists k, s; auto|].
    assert (kk = k) by congruence. subst kk. rewrite I1 in *. exists (fst (km_llike (ft_cfg f0) k t)), false. split; [exact J5|].
    split; [exact (proj1 (llike_kinv _ (new_km (ft_set f0) (ft_stamp f0)) Hl k s t I5))|right; exact Ha].
Qed.

Lemma setup_km f0 f1 : setup_model f0 = (f1, Ok tt) -> exists k1, ft_km f1 = Some k1.
Proof.
  unfold setup_model. destruct (initialize_fitting_theta _ _); [|discriminate]. destruct (km_make _ _ _) as [k r].
  intros E. injection E as <- _. cbn [ft_km]. eauto.
Qed.

(** A copy made at any time after set-up is the fit as it was set up. *)
Lemma prune_fresh f0 f1 f2 : length (t_vary (ft_set f0)) = length (t_theta (ft_set f0)) ->
  setup_model f0 = (f1, Ok tt) -> used f1 f2 -> prune f2 = Ok f1.
Proof.
  intros Hl Hs H. destruct (setup_km _ _ Hs) as [k1 Hk]. destruct (used_inv _ _ _ _ Hl Hs Hk H) as (I1 & I2 & I3 & _).
  unfold prune. rewrite prune_cfg, I1, I2, I3. unfold setup_model in Hs.
  destruct (initialize_fitting_theta _ _) as [tf|]; [|discriminate]. cbn [bind].
  destruct (make_indep (ft_cfg f0) (new_km (ft_set f0) (ft_stamp f0)) tf None (ft_stamp f0) None (ft_stamp f2)) as [M1 M2].
  fold (new_km (ft_set f0) (ft_stamp f0)) in *. cbn [new_km k_theta k_vary k_noscale] in M1, M2.
  change (mkkm (t_theta (ft_set f0)) (t_vary (ft_set f0)) false None None (ft_stamp f0)) with (new_km (ft_set f0) (ft_stamp f0)) in *.
  change (mkkm (t_theta (ft_set f0)) (t_vary (ft_set f0)) false None None (ft_stamp f2)) with (new_km (ft_set f0) (ft_stamp f2)) in *.
  destruct (km_make _ tf (new_km _ (ft_stamp f0))) as [k r]. destruct (km_make _ tf (new_km _ (ft_stamp f2))) as [k' r'].
  cbn [fst snd] in *. injection Hs as <- ->. subst r'. cbn [bind ft_prior]. rewrite (M2 eq_refl). reflexivity.
Qed.

(** Likelihoods do not depend on what either object was used for. *)
Lemma used_same f0 f1 f2 f3 tf : length (t_vary (ft_set f0)) = length (t_theta (ft_set f0)) ->
  setup_model f0 = (f1, Ok tt) -> used f1 f2 -> used f1 f3 -> snd (fit_lnprob f2 tf) = snd (fit_lnprob f3 tf).
Proof.
  intros Hl Hs H2 H3. destruct (setup_km _ _ Hs) as [k1 Hk].
  destruct (used_inv _ _ _ _ Hl Hs Hk H2) as (A1 & A2 & A3 & k & s & A4 & A5 & A6).
  destruct (used_inv _ _ _ _ Hl Hs Hk H3) as (B1 & B2 & B3 & k' & s' & B4 & B5 & B6).
  unfold fit_lnprob. rewrite A3, B3. destruct (ft_prior f1); [|reflexivity].
  unfold lnprob. destruct (prior_eval _ _); [|reflexivity]. destruct (negb _); [reflexivity|].
  rewrite A4, B4, A1, B1. pose proof (llike_same _ (new_km (ft_set f0) (ft_stamp f0)) Hl k k' s s' tf A5 B5 A6 B6) as E.
  destruct (km_llike _ k tf) as [x [u|e]], (km_llike _ k' tf) as [y [u'|e']]; cbn [snd] in E; inversion E; subst; reflexivity.
Qed.

(** The pruned copy of a fit in use gives, call after call, the values the fit itself gives. *)
Lemma prune_sample f0 f1 f2 tfs : length (t_vary (ft_set f0)) = length (t_theta (ft_set f0)) ->
  setup_model f0 = (f1, Ok tt) -> used f1 f2 ->
  exists g, prune f2 = Ok g /\ snd (sample g tfs) = snd (sample f2 tfs).
Proof.
  intros Hl Hs H. exists f1. split; [eapply prune_fresh; eauto|].
  assert (G : forall tfs a b, used f1 a -> used f1 b -> snd (sample a tfs) = snd (sample b tfs)).
  { clear tfs. induction tfs as [|tf tfs IH]; intros a b Ha Hb; [reflexivity|]. cbn [sample].
    pose proof (used_same _ _ _ _ tf Hl Hs Ha Hb) as E. destruct (fit_lnprob a tf) as [a' [v|e]] eqn:Ea, (fit_lnprob b tf) as [b' [v'|e']] eqn:Eb;
      cbn [snd] in *; try congruence.
    specialize (IH a' b' (UsedOk _ _ _ _ _ Ha Ea) (UsedOk _ _ _ _ _ Hb Eb)).
    destruct (sample a' tfs) as [a'' [vs|e]], (sample b' tfs) as [b'' [vs'|e']]; cbn [snd] in *; congruence. }
  apply G; [constructor|exact H].
Qed.

(** The value the sampler gets for any parameters is the one the fit gives for them whatever was evaluated before. *)
Lemma prune_value f0 f1 f2 f3 g tf : length (t_vary (ft_set f0)) = length (t_theta (ft_set f0)) ->
  setup_model f0 = (f1, Ok tt) -> used f1 f2 -> used f1 f3 -> prune f2 = Ok g -> 
  forall g', used g g' -> snd (fit_lnprob g' tf) = snd (fit_lnprob f3 tf).
Proof.
  intros Hl Hs H2 H3 Hp g' Hg. rewrite (prune_fresh _ _ _ Hl Hs H2) in Hp. injection Hp as <-. eapply used_same; eauto.
Qed.

(** Deleting the pruned attributes succeeds and keeps every attribute the likelihood reads. *)
Lemma del_keys_spec {A} : forall ks (d : dict A), proper d -> NoDup ks -> (forall k, In k ks -> In k (keys d)) ->
  exists d', del_keys d ks = Ok d' /\ forall k, dget d' k = if existsb (String.eqb k) ks then None else dget d k.
Proof.
  induction ks as [|k0 ks IH]; intros d P ND S; cbn [del_keys]; [exists d; auto|]. inversion ND; subst.
  destruct (ddel d k0) as [d1|] eqn:E1; [|exfalso; apply ddel_none in E1; apply E1, S; now left].
  destruct (ddel_some d k0 d1 P E1) as (_ & P1 & G).
  destruct (IH d1 P1 H2) as (d' & E & Q).
  { intros k Hk. assert (Nk : k <> k0) by congruence. assert (In k (keys d)) by (apply S; now right).
    destruct (dget d1 k) eqn:X.
    - destruct (in_dec string_dec k (keys d1)); [assumption|]. apply dget_none in n. congruence.
    - rewrite G in X. destruct (String.eqb_spec k k0); [congruence|]. apply dget_none in X. contradiction. }
  exists d'. split; [exact E|]. intros k. rewrite Q, G. cbn [existsb]. destruct (String.eqb k k0), (existsb (String.eqb k) ks); reflexivity.
Qed.

Lemma pruned_attributes {A} (d : dict A) : keys d = kinmodel_attrs ->
  exists d', del_keys d kinmodel_deleted = Ok d' /\
    (forall k, In k kinmodel_reads -> dget d' k = dget d k /\ dget d' k <> None) /\
    (forall k, In k kinmodel_deleted -> dget d' k = None).
Proof.
  intros K. destruct (del_keys_spec kinmodel_deleted d) as (d' & E & Q).
  - unfold proper. fold (keys d). rewrite K. apply nodup_strings. reflexivity.
  - apply nodup_strings. reflexivity.
  - rewrite K. intros k H. unfold kinmodel_deleted, kinmodel_attrs in *. cbn in *. intuition (subst; auto 20).
  - exists d'. split; [exact E|]. split.
    + intros k H. rewrite Q.
      assert (X : existsb (String.eqb k) kinmodel_deleted = false) by (unfold kinmodel_reads in H; cbn in H; intuition (subst; reflexivity)).
      rewrite X. split; [reflexivity|]. intros N. apply dget_none in N. apply N. rewrite K.
      unfold kinmodel_reads, kinmodel_attrs in *. cbn in *. intuition (subst; auto 20).
    + intros k H. rewrite Q. replace (existsb (String.eqb k) kinmodel_deleted) with true; [reflexivity|]. symmetry.
      apply existsb_exists. exists k. split; [exact H|apply String.eqb_refl].
Qed.

(* ---- setting up again ---- *)

Lemma setup_fields f : exists k, ft_km (fst (setup_model f)) = Some k /\ k_vary k = t_vary (ft_set f) /\
  ft_prior (fst (setup_model f)) = Some (setup_prior (ft_prior f) (ft_set f)) /\ ft_set (fst (setup_model f)) = ft_set f.
Proof.
  unfold setup_model. destruct (initialize_fitting_theta _ _) as [tf|e].
  - destruct (km_make _ tf _) as [k r] eqn:E. apply make_frame in E. destruct E as (E & _). exists k. cbn [fst ft_km ft_prior ft_set]. auto.
  - eexists. cbn [fst ft_km ft_prior ft_set]. auto.
Qed.

Lemma setup_prior_pattern p s : pr_vary (setup_prior p s) = match p with Some p => pr_vary p | None => t_vary s end /\
  pr_bounds (setup_prior p s) = match t_bounds s with Some b => Some b | None => match p with Some p => pr_bounds p | None => None end end.
Proof. unfold setup_prior. destruct p as [p|], (t_bounds s) eqn:E; cbn; auto. Qed.

(** Over every sequence of set-ups: the model follows the last settings, the prior's pattern stays that of the first. *)
Lemma setups_pattern f s0 ss : ft_prior f = None ->
  exists p k, ft_prior (setups (s0 :: ss) f) = Some p /\ ft_km (setups (s0 :: ss) f) = Some k /\
    pr_vary p = t_vary s0 /\ k_vary k = t_vary (last ss s0).
Proof.
  intros H. revert s0. pattern ss. apply rev_ind; clear ss.
  - intros s0. unfold setups. cbn [fold_left last]. destruct (setup_fields (set_settings s0 f)) as (k & A & B & C & _).
    cbn [set_settings ft_prior ft_set] in *. rewrite H in C. eexists _, k. split; [exact C|]. split; [exact A|].
    split; [apply (setup_prior_pattern None s0)|exact B].
  - intros s ss IH s0. destruct (IH s0) as (p & k & P1 & K1 & P2 & K2).
    unfold setups in *. rewrite app_comm_cons, fold_left_app. cbn [fold_left].
    set (g := fold_left _ ss _) in *. change (fold_left _ ss _) with g. destruct (setup_fields (set_settings s g)) as (k' & A & B & C & _).
    cbn [set_settings ft_prior ft_set] in *. change (fold_left _ (s0 :: ss) f) with g in P1. rewrite P1 in C.
    eexists _, k'. split; [exact C|]. split; [exact A|]. rewrite last_last. split; [rewrite (proj1 (setup_prior_pattern (Some p) s)); exact P2|exact B].
Qed.
